(** Razor documents with blocks: all rows together. *)
From Coq Require Import String Ascii List ZArith NArith Bool Lia ZifyBool ZifyN Permutation.
From Verif Require Import GoStr GoStrFacts Utf8 QuoteModel TemplateModel TemplateSpec TemplateProofs TextModel TextProofs3 RazorExprModel RazorExprProofs RazorWordsModel RazorWordsSpec RazorWordsProofs
  ReModel ReSyntaxModel RazorTableModel RazorAssignModel ReSound RazorRefSpec RazorRefAuto RazorRefProofs RazorRefMain RazorAsgSpec RazorAsgAuto RazorAsgText RazorAsgExpr RazorAsgExpr2 RazorAsgGo RazorAsgGo2 RazorAsgVal RazorAsgVal2 RazorAsgVal3 RazorAsgWrite RazorAsgWrite2
  RazorAsgMatch RazorAsgFits RazorAsgDoc RazorAsgMain BlockSpec BlockAuto BlockFits BlockDoc BlockMatch BlockMatch2 BlockMatch3 BlockValue BlockRows BlockMain BlockMain2.
Import ListNotations.
Local Open Scope char_scope.

Strategy expand [row18 row35 row43 row44 row45 row52].
Lemma bsilent_row : forall keys ws r s, keys_ok keys -> bsilent keys ws r = true -> fits (bdelta keys) $"L" s -> (forall w, In w ws -> contains w s = false) -> idle r s.
Proof. intros keys ws r s (K1 & K2). exact (bsilent_idle keys K1 K2 all_bytes 400 all_bytes_ok ws r s). Qed.
Lemma block_parts : forall T : list replacement, length T = 165 ->
  T = firstn 18 (skipn 0 T) ++ nth 18 T no_row :: firstn 16 (skipn 19 T) ++ nth 35 T no_row :: firstn 7 (skipn 36 T) ++ nth 43 T no_row :: nth 44 T no_row ::
    nth 45 T no_row :: firstn 6 (skipn 46 T) ++ nth 52 T no_row :: firstn 108 (skipn 53 T) ++ nth 161 T no_row :: firstn 3 (skipn 162 T).
Proof.
  intros T L.
  assert (E4 : firstn 3 (skipn 162 T) = skipn 162 T) by (apply firstn_all2; rewrite skipn_length; lia). rewrite E4.
  rewrite <- (skipn_nth _ no_row 161 T) by lia.
  replace (skipn 161 T) with (skipn 108 (skipn 53 T)) by (rewrite skipn_add; reflexivity). rewrite (firstn_skipn 108 (skipn 53 T)).
  rewrite <- (skipn_nth _ no_row 52 T) by lia.
  replace (skipn 52 T) with (skipn 6 (skipn 46 T)) by (rewrite skipn_add; reflexivity). rewrite (firstn_skipn 6 (skipn 46 T)).
  rewrite <- (skipn_nth _ no_row 45 T) by lia. rewrite <- (skipn_nth _ no_row 44 T) by lia. rewrite <- (skipn_nth _ no_row 43 T) by lia.
  replace (skipn 43 T) with (skipn 7 (skipn 36 T)) by (rewrite skipn_add; reflexivity). rewrite (firstn_skipn 7 (skipn 36 T)).
  rewrite <- (skipn_nth _ no_row 35 T) by lia.
  replace (skipn 35 T) with (skipn 16 (skipn 19 T)) by (rewrite skipn_add; reflexivity). rewrite (firstn_skipn 16 (skipn 19 T)).
  rewrite <- (skipn_nth _ no_row 18 T) by lia. symmetry. apply (firstn_skipn 18 T).
Qed.
Lemma source_mark : forall x, (forall y, x <> Simple y) -> In "@" (block_source x).
Proof.
  intros [x|i m w b1 b2 E e b3 z|i m z|i m b w semi z] N; [destruct (N x eq_refl) | | |]; cbn [block_source]; apply in_or_app; right; left; reflexivity.
Qed.

Section Main.
Variable beyond : N -> bool.
Variables words signs opers : list (str * str).
Variable parse : str -> option expr.
Variable mode : validation.
Context {P : PrintEnv}.
Hypothesis HW : Permutation words RazorWordsModel.reserved.
Hypothesis HS : Permutation signs symbols.
Hypothesis HO : Permutation opers operator_words.
Hypothesis HU : reads_updates parse.
Variable other : replacement -> parser -> str -> str.
Hypothesis HF : follows_code beyond words signs opers parse mode default_delims other.

(** The rows after those of the blocks *)
Lemma steps_after : forall r1 B0 r2 C r3 D l,
  forallb (asilent false []) (map (fun r => c_re (r_re r)) B0) = true ->
  forallb (needy words_c) (map (fun r => c_re (r_re r)) C) = true ->
  c_re (r_re r3) = RazorRefMain.Lit AT /\ r_parser r3 = None /\ r_replace r3 = $"@" ->
  forallb (needy words_d) (map (fun r => c_re (r_re r)) D) = true ->
  replace_step other (lines line_source l) r1 = lines (halfway mode) l -> replace_step other (lines (halfway mode) l) r2 = lines (result mode) l ->
  Forall (line_ok parse) l -> (forall w, In w later_words -> contains w (lines line_source l) = false) ->
  fold_left (replace_step other) (r1 :: B0 ++ r2 :: C ++ r3 :: D) (lines line_source l) = lines (result mode) l.
Proof.
  intros r1 B0 r2 C r3 D l HB HC (R1 & R2 & R3) HD S1 S2 H W.
  cbn [fold_left]. rewrite fold_left_app. cbn [fold_left]. rewrite fold_left_app. cbn [fold_left].
  rewrite S1. rewrite (rows_idle other (asilent false []) (lines (halfway mode) l) B0); [| |exact HB].
  2:{ intros r RH. apply (asilent_row false [] r _ RH (halfway_fits parse mode l H)). intros w []. }
  rewrite S2. rewrite (rows_idle other (needy words_c) (lines (result mode) l) C); [| |exact HC].
  2:{ intros r RH. apply (needy_idle words_c r _ RH). intros w I. apply (result_no parse mode w l H).
      - repeat (destruct I as [<-|I]; [cbn; tauto|]). destruct I.
      - destruct I as [<-|I]; [left; reflexivity | right; apply W]. repeat (destruct I as [<-|I]; [cbn; tauto|]). destruct I. }
  rewrite (literal_row other r3 _ _ _ R1 R2 R3); [|discriminate | reflexivity | reflexivity].
  assert (NA : contains AT (lines (result mode) l) = false).
  { assert (X : contains $"=!AT!=" (lines (result mode) l) = false) by (apply (result_no parse mode _ l H); [cbn; tauto | right; apply W; cbn; tauto]).
    destruct (contains AT (lines (result mode) l)) eqn:CA; [|reflexivity]. apply contains_iff in CA. destruct CA as (a & b & E). rewrite E in X. change AT with ($"_" ++ $"=!AT!=" ++ $"_") in X.
    replace (a ++ ($"_" ++ $"=!AT!=" ++ $"_") ++ b) with ((a ++ $"_") ++ $"=!AT!=" ++ ($"_" ++ b)) in X by (rewrite <- !app_assoc; reflexivity).
    rewrite (contains_mid $"=!AT!=" (a ++ $"_") $"=!AT!=" ($"_" ++ b)) in X; [discriminate X | reflexivity]. }
  rewrite replace_all_no by exact NA.
  apply (rows_idle other (needy words_d) (lines (result mode) l) D); [|exact HD].
  intros r RH. apply (needy_idle words_d r _ RH). intros w I. apply (result_no parse mode w l H).
  - repeat (destruct I as [<-|I]; [cbn; tauto|]). destruct I.
  - right. apply W. repeat (destruct I as [<-|I]; [cbn; tauto|]). destruct I.
Qed.
Lemma steps_blocks : forall A0 q1 A1 q2 A2 q3 q4 REST l,
  forallb (bsilent all_keys words_0) (map (fun r => c_re (r_re r)) A0) = true ->
  forallb (bsilent some_keys []) (map (fun r => c_re (r_re r)) A1) = true ->
  forallb (bsilent late_keys []) (map (fun r => c_re (r_re r)) A2) = true ->
  replace_step other (block_lines block_source l) q1 = block_lines src1 l -> replace_step other (block_lines src1 l) q2 = block_lines src2 l ->
  replace_step other (block_lines src2 l) q3 = block_lines src3 l -> replace_step other (block_lines src3 l) q4 = block_lines src4 l ->
  Forall (block_ok parse) l -> (forall w, In w special -> contains w (block_lines block_source l) = false) ->
  fold_left (replace_step other) (A0 ++ q1 :: A1 ++ q2 :: A2 ++ q3 :: q4 :: REST) (block_lines block_source l) = fold_left (replace_step other) REST (block_lines src4 l).
Proof.
  intros A0 q1 A1 q2 A2 q3 q4 REST l H0 H1 H2 S1 S2 S3 S4 H W. rewrite Forall_forall in H.
  rewrite fold_left_app. cbn [fold_left]. rewrite fold_left_app. cbn [fold_left]. rewrite fold_left_app. cbn [fold_left].
  rewrite (rows_idle other (bsilent all_keys words_0) (block_lines block_source l) A0); [| |exact H0].
  2:{ intros r RH. apply (bsilent_row all_keys words_0 r _ all_keys_ok RH).
      - apply document_fits. intros x I. exact (source_path parse all_keys x all_keys_ok (H x I) (allowed_all parse x)).
      - intros w I. apply W. repeat (destruct I as [<-|I]; [cbn; tauto|]). destruct I. }
  rewrite S1. rewrite (rows_idle other (bsilent some_keys []) (block_lines src1 l) A1); [| |exact H1].
  2:{ intros r RH. apply (bsilent_row some_keys [] r _ some_keys_ok RH); [|intros w []].
      apply document_fits. intros x I. exact (source_path parse some_keys (loops x) some_keys_ok (loops_ok parse x (H x I)) (allowed_some parse x)). }
  rewrite S2. rewrite (rows_idle other (bsilent late_keys []) (block_lines src2 l) A2); [| |exact H2].
  2:{ intros r RH. apply (bsilent_row late_keys [] r _ late_keys_ok RH); [|intros w []].
      apply document_fits. intros x I. exact (path2 parse x (H x I)). }
  rewrite S3, S4. reflexivity.
Qed.
Lemma rows_blocks : forall T l, length T = 165 ->
  forallb (bsilent all_keys words_0) (res_of T 0 18) = true -> forallb (bsilent some_keys []) (res_of T 19 16) = true -> forallb (bsilent late_keys []) (res_of T 36 7) = true ->
  forallb (asilent false []) (res_of T 46 6) = true ->
  forallb (needy words_c) (res_of T 53 108) = true -> forallb (needy words_d) (res_of T 162 3) = true ->
  c_re (r_re (nth 161 T no_row)) = RazorRefMain.Lit AT /\ r_parser (nth 161 T no_row) = None /\ r_replace (nth 161 T no_row) = $"@" ->
  replace_step other (block_lines block_source l) (nth 18 T no_row) = block_lines src1 l -> replace_step other (block_lines src1 l) (nth 35 T no_row) = block_lines src2 l ->
  replace_step other (block_lines src2 l) (nth 43 T no_row) = block_lines src3 l -> replace_step other (block_lines src3 l) (nth 44 T no_row) = block_lines src4 l ->
  replace_step other (lines line_source (map line4 l)) (nth 45 T no_row) = lines (halfway mode) (map line4 l) ->
  replace_step other (lines (halfway mode) (map line4 l)) (nth 52 T no_row) = lines (result mode) (map line4 l) ->
  Forall (block_ok parse) l -> (forall w, In w special -> contains w (block_lines block_source l) = false) ->
  fold_left (replace_step other) T (block_lines block_source l) = lines (result mode) (map line4 l).
Proof.
  intros T l TL F0 F1 F2 F3 F4 F5 E3 S1 S2 S3 S4 S5 S6 H W. rewrite (block_parts T TL). rewrite (steps_blocks _ _ _ _ _ _ _ _ l F0 F1 F2 S1 S2 S3 S4 H W).
  rewrite (block_lines_line src4 l) by (intros [x|i m w b1 b2 E e b3 z|i m z|i m b w semi z] _; reflexivity).
  refine (steps_after _ _ _ _ _ _ _ F3 F4 E3 F5 S5 S6 (lines_ok4 parse l H) _).
  intros w I. apply (words4 parse w l H I). apply W. repeat (destruct I as [<-|I]; [cbn; tauto|]). destruct I.
Qed.
Lemma command_step : forall r l, c_re (r_re r) = command_re (assign_in (c_re (r_re r))) -> c_names (r_re r) = command_names -> r_parser r = Some PExprSkip -> r_replace r = command_repl ->
  head_re (assign_in (c_re (r_re r))) = B "$" -> foreign late_keys (c_re (r_re r)) = true ->
  Forall (block_ok parse) l -> replace_step other (block_lines src1 l) r = block_lines src2 l.
Proof. intros r l A B C D. exact (command_row parse beyond words signs opers mode HW HS HO other HF r _ l A B C D). Qed.
Lemma step_35 : forall l, Forall (block_ok parse) l -> replace_step other (block_lines src1 l) (row35 beyond) = block_lines src2 l.
Proof.
  intros l H. destruct (row35_eq beyond) as (R1 & R2 & R3 & R4). pose proof (assign_head beyond) as R5. pose proof (block_row_35 beyond) as R6. revert R1 R2 R3 R4 R5 R6. generalize (row35 beyond). intros r R1 R2 R3 R4 R5 R6.
  apply command_step; assumption.
Qed.
Lemma all_blocks : forall l, Forall (block_ok parse) l -> (forall w, In w special -> contains w (block_lines block_source l) = false) ->
  fold_left (replace_step other) (table beyond) (block_lines block_source l) = lines (result mode) (map line4 l).
Proof.
  intros l H W. apply (rows_blocks (table beyond) l (table_length beyond) (block_rows_0 beyond) (block_rows_1 beyond) (block_rows_2 beyond) (rows_1 beyond) (rows_2 beyond) (rows_d beyond) (row_restore beyond)); [..|exact H | exact W].
  - destruct (row18_eq beyond) as (A & B & C & D). exact (loop_row parse other (row18 beyond) l A B C D (block_row_18 beyond) H).
  - change (nth 35 (table beyond) no_row) with (row35 beyond). exact (step_35 l H).
  - destruct (row43_eq beyond) as (A & B & C & D). exact (else_row parse other (row43 beyond) l A B C D (block_row_43 beyond) H).
  - destruct (row44_eq beyond) as (A & B & C & D). exact (end_row parse other (row44 beyond) l A D B C (block_row_44 beyond) H).
  - destruct (row45_re beyond) as (A & _ & B). exact (row1 beyond words signs opers parse mode HW HS HO HU other HF (row45 beyond) _ A B (groups1 beyond) (lines_ok4 parse l H)).
  - destruct (row52_re beyond) as (A & _ & B). exact (row2 beyond words signs opers parse mode HW HS HO HU other HF (row52 beyond) _ A B (groups2 beyond) (lines_ok4 parse l H)).
Qed.
Lemma erase_blocks : forall l, Forall (block_ok parse) l -> (forall x, In x l -> contains func_call (block_source x) = false) -> erase (lines (result mode) (map line4 l)) = block_lines (block_output mode) l.
Proof.
  induction l as [|x l IH]; intros H N; [reflexivity|]. inversion H as [|? ? HX HL]; subst. cbn [map]. rewrite lines_after, block_cons.
  assert (EX : erase (result mode (line4 x)) = block_output mode x).
  { pose proof (N x (or_introl eq_refl)) as NX. assert (Q : (forall y, x <> Simple y) -> erase (src4 x) = block_output mode x).
    { intros NS. apply (erase_block parse); [exact HX | exact NS|]. destruct (source_rest x NS) as (a & E). rewrite E in NX. exact (suffix_no _ _ _ NX). }
    destruct x as [x| | |]; [|apply Q; intros ? X; discriminate X ..]. cbn [line4 block_output]. apply (erase_result parse); [exact HX|]. intros s ->. exact NX. }
  destruct l as [|y l]; [cbn [map after tail_of]; rewrite !app_nil_r; exact EX|]. cbn [map after tail_of]. rewrite erase_cut by reflexivity. rewrite EX.
  specialize (IH HL (fun z I => N z (or_intror I))). cbn [map] in IH. rewrite IH. reflexivity.
Qed.
Theorem block_document : forall l, Forall (block_ok parse) l -> quiet (block_lines block_source l) ->
  apply_razor beyond other default_delims (block_lines block_source l) = Some (block_lines (block_output mode) l).
Proof.
  intros l H Q. assert (W : forall w, In w special -> contains w (block_lines block_source l) = false) by (intros w I; exact (quiet_word _ w Q I)).
  destruct (is_razor default_delims (block_lines block_source l)) eqn:RZ.
  - rewrite (razor_on beyond other _ RZ). rewrite (all_blocks l H W). f_equal. apply erase_blocks; [exact H|]. intros x I. apply (block_no func_call block_source l x I). apply W. cbn. tauto.
  - rewrite (razor_off beyond other _ RZ). f_equal. assert (NA : ~ In "@" (block_lines block_source l)).
    { intros I. assert (C : is_razor default_delims (block_lines block_source l) = true); [|congruence]. apply razor_iff. split; [|split; apply Q; cbn; tauto].
      apply holds_iff. apply (contains_1_In "@"). exact I. }
    assert (L : forall x, In x l -> block_source x = block_output mode x).
    { intros x I. destruct (block_part block_source l _ I) as (a & b & EQ). assert (NX : ~ In "@" (block_source x)) by (intros J; apply NA; rewrite EQ; apply in_or_app; right; apply in_or_app; left; exact J).
      destruct x as [[s|i t b1 o b2 E e]| | |]; [reflexivity | | exfalso; apply NX; apply source_mark; intros ? X; discriminate X ..]. exfalso. apply NX. cbn [block_source line_source]. apply in_or_app. right. rewrite <- match_source. destruct (match_head t b1 o b2 E) as (r & MH). rewrite MH. left. reflexivity. }
    clear - L. induction l as [|x l IH]; [reflexivity|]. rewrite !block_cons. rewrite (L x (or_introl eq_refl)). f_equal. destruct l as [|y l]; [reflexivity|]. cbn [tail_of]. f_equal. apply IH. intros z I. apply L. right. exact I.
Qed.
End Main.
