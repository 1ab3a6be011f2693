(** Razor documents with calls: all rows together. *)
From Coq Require Import String Ascii List ZArith NArith Bool Lia ZifyBool ZifyN Permutation.
From Verif Require Import GoStr GoStrFacts Utf8 QuoteModel TemplateModel TemplateSpec TemplateProofs TextModel TextProofs3 RazorExprModel RazorExprProofs RazorWordsModel RazorWordsSpec RazorWordsProofs
  ReModel ReSyntaxModel RazorTableModel RazorAssignModel ReSound RazorRefSpec RazorRefAuto RazorRefProofs RazorRefMain RazorAsgSpec RazorAsgAuto RazorAsgText RazorAsgExpr RazorAsgExpr2 RazorAsgGo RazorAsgGo2 RazorAsgVal RazorAsgVal2 RazorAsgVal3 RazorAsgWrite RazorAsgWrite2
  RazorAsgMatch RazorAsgFits RazorAsgDoc RazorAsgMain BlockSpec BlockAuto BlockFits BlockMatch BlockMatch2 BlockMatch3 BlockValue BlockRows BlockMain BlockMain2 CallSpec CallAuto CallDoc CallFits CallMatch CallValue CallRows CallMain.
Import ListNotations.
Local Open Scope char_scope.
Strategy expand [row80 row142 row150].

(** ** Lines *)
Lemma call_part : forall f l x, In x l -> exists a b, call_lines f l = a ++ f x ++ b.
Proof.
  intros f. induction l as [|y l IH]; intros x I; [destruct I|]; destruct I as [<-|I].
  - exists [], (tail_of f l). rewrite call_cons. reflexivity.
  - destruct (IH x I) as (a & b & E). rewrite call_cons. destruct l as [|z l]; [destruct I|]. cbn [tail_of]. rewrite E. exists (f y ++ "010" :: a), b. rewrite <- app_assoc. reflexivity.
Qed.
Lemma call_no : forall w f l x, In x l -> contains w (call_lines f l) = false -> contains w (f x) = false.
Proof.
  intros w f l x I H. destruct (contains w (f x)) eqn:C; [|reflexivity]. exfalso. destruct (call_part f l x I) as (a & b & E). rewrite E in H. rewrite (contains_mid w a (f x) b C) in H. discriminate H.
Qed.
Lemma cut_word : forall w x a b, ~ In x w -> contains w a = false -> contains w b = false -> w <> [] -> contains w (a ++ x :: b) = false.
Proof.
  intros w x a b N A B NE. destruct (contains w (a ++ x :: b)) eqn:C; [|reflexivity]. exfalso. apply contains_iff in C. destruct C as (u & v & E). apply app_split in E. destruct E as [(k & E1 & E2)|(k & E1 & E2)].
  - symmetry in E2. apply app_split in E2. destruct E2 as [(k' & E3 & E4)|(k' & E3 & E4)].
    + assert (X : contains w a = true) by (apply contains_iff; exists u, k'; rewrite E1, E3; reflexivity). congruence.
    + destruct k' as [|c k']; [rewrite app_nil_r in E3; assert (X : contains w a = true) by (apply contains_iff; exists u, []; rewrite E1, E3, app_nil_r; reflexivity); congruence|].
      cbn [app] in E4. injection E4 as E5 _. subst c. apply N. rewrite E3. apply in_or_app. right. left. reflexivity.
  - destruct k as [|c k]; cbn [app] in E2.
    + destruct w as [|c w]; [contradiction|]. cbn [app] in E2. injection E2 as E3 _. apply N. left. symmetry. exact E3.
    + injection E2 as _ E3. assert (X : contains w b = true) by (apply contains_iff; exists k, v; exact E3). congruence.
Qed.
Lemma lines_word : forall w f l, ~ In "010" w -> w <> [] -> (forall x, In x l -> contains w (f x) = false) -> contains w (call_lines f l) = false.
Proof.
  intros w f l N NE. induction l as [|x l IH]; intros H; [destruct w; [contradiction | reflexivity]|]. rewrite call_cons. destruct l as [|y l]; [cbn [tail_of]; rewrite app_nil_r; apply H; left; reflexivity|].
  cbn [tail_of]. apply cut_word; [exact N | apply H; left; reflexivity | apply IH; intros z I; apply H; right; exact I | exact NE].
Qed.
(** A word that cannot stand across the start of an action *)
Definition apart (w : str) : bool :=
  forallb (fun n => str_eqb (firstn n w) [""""] || negb (compatible (skipn n w) $"{{")) (seq 1 (length w - 1)).
Lemma apart_split : forall w k k', apart w = true -> w = k ++ k' -> k <> [] -> k' <> [] -> k <> [""""] -> forall b b', k' ++ b <> $"{{" ++ b'.
Proof.
  intros w k k' H E NK NK' NQ b b' X. unfold apart in H. rewrite forallb_forall in H. specialize (H (length k)). subst w.
  assert (I : In (length k) (seq 1 (length (k ++ k') - 1))) by (apply in_seq; rewrite app_length; destruct k; [contradiction|]; destruct k'; [contradiction|]; cbn [length]; lia).
  specialize (H I). rewrite firstn_app, firstn_all, Nat.sub_diag, skipn_app, skipn_all, Nat.sub_diag in H. cbn [firstn skipn app] in H. rewrite app_nil_r in H.
  apply orb_true_iff in H. destruct H as [H|H]; [apply str_eqb_eq in H; contradiction|]. rewrite (compatible_of _ _ _ _ X) in H. discriminate H.
Qed.
Lemma across : forall c r p a z, apart (c :: r) = true -> contains (c :: r) p = false -> contains (c :: r) z = false -> ~ In c ($"{{" ++ a) -> (forall k, p <> k ++ [""""]) -> contains (c :: r) (p ++ ($"{{" ++ a) ++ z) = false.
Proof.
  intros c r p a z AP NP NZ NA NQ. destruct (contains (c :: r) (p ++ ($"{{" ++ a) ++ z)) eqn:C; [|reflexivity]. exfalso. apply contains_iff in C. destruct C as (u & v & E). apply app_split in E. destruct E as [(k & E1 & E2)|(k & E1 & E2)].
  - symmetry in E2. apply app_split in E2. destruct E2 as [(k' & E3 & E4)|(k' & E3 & E4)].
    + assert (X : contains (c :: r) p = true) by (apply contains_iff; exists u, k'; rewrite E1, E3; reflexivity). congruence.
    + destruct k' as [|d k']; [rewrite app_nil_r in E3; assert (X : contains (c :: r) p = true) by (apply contains_iff; exists u, []; rewrite E1, E3, app_nil_r; reflexivity); congruence|].
      destruct k as [|d0 k].
      * cbn [app] in E3. injection E3 as -> _. change (($"{{" ++ a) ++ z) with ("{" :: "{" :: a ++ z) in E4. cbn [app] in E4. injection E4 as E5 _. apply NA. left. exact E5.
      * refine (apart_split (c :: r) (d0 :: k) (d :: k') AP E3 ltac:(discriminate) ltac:(discriminate) _ v (a ++ z) _).
        -- intros X. apply (NQ u). rewrite E1, X. reflexivity.
        -- symmetry. exact E4.
  - pose proof (late_word c r ($"{{" ++ a) z NA NZ) as L. assert (X : contains (c :: r) (($"{{" ++ a) ++ z) = true) by (rewrite E2; apply contains_iff; exists k, v; reflexivity). congruence.
Qed.
Lemma call_parts : forall T : list replacement, length T = 165 ->
  T = firstn 19 (skipn 0 T) ++ firstn 26 (skipn 19 T) ++ firstn 35 (skipn 45 T) ++ nth 80 T no_row :: firstn 61 (skipn 81 T) ++ nth 142 T no_row :: firstn 7 (skipn 143 T) ++ nth 150 T no_row :: firstn 10 (skipn 151 T) ++ nth 161 T no_row :: firstn 3 (skipn 162 T).
Proof.
  intros T L.
  assert (E4 : firstn 3 (skipn 162 T) = skipn 162 T) by (apply firstn_all2; rewrite skipn_length; lia). rewrite E4.
  rewrite <- (skipn_nth _ no_row 161 T) by lia.
  replace (skipn 161 T) with (skipn 10 (skipn 151 T)) by (rewrite skipn_add; reflexivity). rewrite (firstn_skipn 10 (skipn 151 T)).
  rewrite <- (skipn_nth _ no_row 150 T) by lia.
  replace (skipn 150 T) with (skipn 7 (skipn 143 T)) by (rewrite skipn_add; reflexivity). rewrite (firstn_skipn 7 (skipn 143 T)).
  rewrite <- (skipn_nth _ no_row 142 T) by lia.
  replace (skipn 142 T) with (skipn 61 (skipn 81 T)) by (rewrite skipn_add; reflexivity). rewrite (firstn_skipn 61 (skipn 81 T)).
  rewrite <- (skipn_nth _ no_row 80 T) by lia.
  replace (skipn 80 T) with (skipn 35 (skipn 45 T)) by (rewrite skipn_add; reflexivity). rewrite (firstn_skipn 35 (skipn 45 T)).
  replace (skipn 45 T) with (skipn 26 (skipn 19 T)) by (rewrite skipn_add; reflexivity). rewrite (firstn_skipn 26 (skipn 19 T)).
  symmetry. apply (firstn_skipn 19 T).
Qed.

Section Main.
Variable parse : str -> option expr.
Lemma call_words : forall w l, Forall (call_ok parse) l -> In w later_words -> contains w (call_lines call_source l) = false -> contains w (call_lines src150 l) = false.
Proof.
  intros w l H W N.
  assert (HD : exists c r, w = c :: r /\ In c ["""" ; "="; "`"] /\ ~ In "010" w /\ apart w = true) by (cbn in W; repeat (destruct W as [<-|W]; [eexists; eexists; split; [reflexivity | split; [cbn; tauto | split; [cbv; intuition discriminate | vm_compute; reflexivity]]]|]); destruct W).
  destruct HD as (c & r & -> & C & NL & AP). apply lines_word; [exact NL | discriminate|]. intros x I. pose proof (call_no _ _ _ _ I N) as NX. rewrite Forall_forall in H. specialize (H x I).
  assert (Q : forall p m e z q, text_before p -> expr_ok e -> call_source x = p ++ q ++ z -> src150 x = shown_as p m e z -> contains (c :: r) (src150 x) = false).
  { intros p m e z q (_ & _ & B) OK ES ->. rewrite ES in NX. unfold shown_as.
    assert (A : exists a, action m (G2 e) = $"{{" ++ a /\ ~ In c ($"{{" ++ a)).
    { assert (NG : ~ In c (G2 e)) by (intros J; pose proof (g2_plain e OK) as PL; rewrite forallb_forall in PL; apply PL in J; cbn in C; repeat (destruct C as [<-|C]; [discriminate J|]); exact C).
      exists ((if trims_left m then $"- " else $" ") ++ G2 e ++ (if trims_right m then $" -}}" else $" }}")). split; [unfold action; destruct m; reflexivity|].
      intros J. apply in_app_or in J. destruct J as [J|J]; [cbv in J; cbn in C; repeat (destruct C as [<-|C]; [intuition discriminate|]); exact C|].
      apply in_app_or in J. destruct J as [J|J]; [destruct m; cbv in J; cbn in C; repeat (destruct C as [<-|C]; [intuition discriminate|]); exact C|].
      apply in_app_or in J. destruct J as [J|J]; [exact (NG J)|]. destruct m; cbv in J; cbn in C; repeat (destruct C as [<-|C]; [intuition discriminate|]); exact C. }
    destruct A as (a & -> & NA). apply across; [exact AP | | | exact NA | exact B].
    - destruct (contains (c :: r) p) eqn:CP; [|reflexivity]. pose proof (contains_mid (c :: r) [] p (q ++ z) CP) as X. cbn [app] in X. congruence.
    - rewrite app_assoc in NX. exact (suffix_no _ _ _ NX). }
  destruct x as [s|p m b E e cl z|p m f A e cl z]; [exact NX| |].
  - destruct H as (B & _ & _ & _ & _ & _ & _ & OK & _). exact (Q p m e z _ B OK (shown_shape p m b E e cl z) eq_refl).
  - destruct H as (B & _ & _ & _ & _ & OK & _). exact (Q p m e z _ B OK (called_shape p m f A e cl z) eq_refl).
Qed.
(** ** The marks of functions disappear *)
Lemma erase_shown : forall p m e z, contains func_call p = false -> expr_ok e -> contains func_call z = false -> erase (shown_as p m e z) = p ++ action m (command e) ++ z.
Proof.
  intros p m e z NP OK NZ. unfold shown_as.
  assert (R : forall s, p ++ action m s ++ z = p ++ "{" :: ((if trims_left m then $"{-" else $"{") ++ $" " ++ s ++ $" " ++ (if trims_right m then $"-}}" else $"}}") ++ z)).
  { intro s. unfold action. apply (f_equal (app p)). rewrite <- !app_assoc. destruct m; reflexivity. }
  rewrite !R. rewrite erase_cut by reflexivity. rewrite erase_space. rewrite erase_space. rewrite (close_erase m z NZ), (erased e OK). unfold erase at 1. rewrite (replace_all_no _ _ p NP). do 2 f_equal.
  f_equal. apply no_under. destruct m; cbv; intuition discriminate.
Qed.
Lemma erase_call : forall x, call_ok parse x -> contains func_call (call_source x) = false -> erase (src150 x) = call_output x.
Proof.
  assert (PRE : forall p q z, contains func_call (p ++ q ++ z) = false -> contains func_call p = false /\ contains func_call z = false).
  { intros p q z H. split; [destruct (contains func_call p) eqn:CP; [|reflexivity]; pose proof (contains_mid func_call [] p (q ++ z) CP) as X; cbn [app] in X; congruence | rewrite app_assoc in H; exact (suffix_no _ _ _ H)]. }
  intros [s|p m b E e c z|p m f A e c z] H N; cbn [src150 call_output].
  - unfold erase. apply replace_all_no. exact N.
  - rewrite shown_shape in N. destruct (PRE _ _ _ N). apply erase_shown; [assumption | apply H | assumption].
  - rewrite called_shape in N. destruct (PRE _ _ _ N). apply erase_shown; [assumption | apply H | assumption].
Qed.
Lemma erase_calls : forall l, Forall (call_ok parse) l -> (forall x, In x l -> contains func_call (call_source x) = false) -> erase (call_lines src150 l) = call_lines call_output l.
Proof.
  induction l as [|x l IH]; intros H N; [reflexivity|]. inversion H as [|? ? HX HL]; subst. rewrite !call_cons. pose proof (erase_call x HX (N x (or_introl eq_refl))) as EX.
  destruct l as [|y l]; [cbn [tail_of]; rewrite !app_nil_r; exact EX|]. cbn [tail_of]. rewrite erase_cut by reflexivity. rewrite EX. rewrite (IH HL (fun z I => N z (or_intror I))). reflexivity.
Qed.

Variable beyond : N -> bool.
Variables words signs opers : list (str * str).
Variable mode : validation.
Context {P : PrintEnv}.
Hypothesis HW : Permutation words RazorWordsModel.reserved.
Hypothesis HS : Permutation signs symbols.
Hypothesis HO : Permutation opers operator_words.
Variable other : replacement -> parser -> str -> str.
Hypothesis HF : follows_code beyond words signs opers parse mode default_delims other.

Lemma rows_calls : forall T l, length T = 165 ->
  forallb (esilent true true true words_0) (res_of T 0 19) = true -> forallb (esilent true true true []) (res_of T 19 26) = true -> forallb (esilent true false true []) (res_of T 45 35) = true ->
  forallb (esilent false false true []) (res_of T 81 61) = true -> forallb (esilent false false false []) (res_of T 143 7) = true ->
  forallb (needy words_c) (res_of T 151 10) = true -> forallb (needy words_d) (res_of T 162 3) = true ->
  c_re (r_re (nth 161 T no_row)) = RazorRefMain.Lit AT /\ r_parser (nth 161 T no_row) = None /\ r_replace (nth 161 T no_row) = $"@" ->
  replace_step other (call_lines call_source l) (nth 80 T no_row) = call_lines src80 l -> replace_step other (call_lines src80 l) (nth 142 T no_row) = call_lines src142 l ->
  replace_step other (call_lines src142 l) (nth 150 T no_row) = call_lines src150 l ->
  Forall (call_ok parse) l -> (forall w, In w special -> contains w (call_lines call_source l) = false) ->
  fold_left (replace_step other) T (call_lines call_source l) = call_lines src150 l.
Proof.
  intros T l TL F0 F1 F2 F3 F4 F5 F6 (R1 & R2 & R3) S1 S2 S3 H W. rewrite (call_parts T TL). unfold res_of in *.
  assert (H' := H). rewrite Forall_forall in H'.
  rewrite fold_left_app. rewrite fold_left_app. rewrite fold_left_app. cbn [fold_left]. rewrite fold_left_app. cbn [fold_left]. rewrite fold_left_app. cbn [fold_left]. rewrite fold_left_app. cbn [fold_left].
  rewrite (rows_idle other (esilent true true true words_0) (call_lines call_source l) _); [| |exact F0].
  2:{ intros r RH. apply (esilent_row true true true words_0 r _ RH).
      - apply calls_fits. intros x I. exact (path_0 parse true x (H' x I)).
      - intros w I. apply W. repeat (destruct I as [<-|I]; [cbn; tauto|]). destruct I. }
  rewrite (rows_idle other (esilent true true true []) (call_lines call_source l) _); [| |exact F1].
  2:{ intros r RH. apply (esilent_row true true true [] r _ RH); [|intros w []]. apply calls_fits. intros x I. exact (path_0 parse true x (H' x I)). }
  rewrite (rows_idle other (esilent true false true []) (call_lines call_source l) _); [| |exact F2].
  2:{ intros r RH. apply (esilent_row true false true [] r _ RH); [|intros w []]. apply calls_fits. intros x I. exact (path_0 parse false x (H' x I)). }
  rewrite S1. rewrite (rows_idle other (esilent false false true []) (call_lines src80 l) _); [| |exact F3].
  2:{ intros r RH. apply (esilent_row false false true [] r _ RH); [|intros w []]. apply calls_fits. intros x I. exact (path_80 parse x (H' x I)). }
  rewrite S2. rewrite (rows_idle other (esilent false false false []) (call_lines src142 l) _); [| |exact F4].
  2:{ intros r RH. apply (esilent_row false false false [] r _ RH); [|intros w []]. apply calls_fits. intros x I. exact (path_142 parse x (H' x I)). }
  rewrite S3.
  assert (LW : forall w, In w later_words -> contains w (call_lines src150 l) = false).
  { intros w I. apply (call_words w l H I). apply W. repeat (destruct I as [<-|I]; [cbn; tauto|]). destruct I. }
  assert (NAT : contains $"@" (call_lines src150 l) = false).
  { apply lines_word; [cbv; intuition discriminate | discriminate|]. intros x I. apply not_at_list. apply (text_150 parse x (H' x I)). }
  rewrite (rows_idle other (needy words_c) (call_lines src150 l) _); [| |exact F5].
  2:{ intros r RH. apply (needy_idle words_c r _ RH). intros w I. destruct I as [<-|I]; [exact NAT|]. apply LW. repeat (destruct I as [<-|I]; [cbn; tauto|]). destruct I. }
  rewrite (literal_row other _ _ _ _ R1 R2 R3); [|discriminate | reflexivity | reflexivity].
  assert (NA : contains AT (call_lines src150 l) = false).
  { assert (X : contains $"=!AT!=" (call_lines src150 l) = false) by (apply LW; cbn; tauto).
    destruct (contains AT (call_lines src150 l)) eqn:CA; [|reflexivity]. apply contains_iff in CA. destruct CA as (a & b & E). rewrite E in X. change AT with ($"_" ++ $"=!AT!=" ++ $"_") in X.
    replace (a ++ ($"_" ++ $"=!AT!=" ++ $"_") ++ b) with ((a ++ $"_") ++ $"=!AT!=" ++ ($"_" ++ b)) in X by (rewrite <- !app_assoc; reflexivity).
    rewrite (contains_mid $"=!AT!=" (a ++ $"_") $"=!AT!=" ($"_" ++ b)) in X; [discriminate X | reflexivity]. }
  rewrite replace_all_no by exact NA.
  apply (rows_idle other (needy words_d) (call_lines src150 l) _); [|exact F6].
  intros r RH. apply (needy_idle words_d r _ RH). intros w I. apply LW. repeat (destruct I as [<-|I]; [cbn; tauto|]). destruct I.
Qed.
Lemma row_80 : forall l, Forall (call_ok parse) l -> replace_step other (call_lines call_source l) (row80 beyond) = call_lines src80 l.
Proof.
  intros l H. destruct (row80_eq beyond) as (R1 & R2 & R3 & R4). pose proof (call_row_80 beyond) as R5. revert R1 R2 R3 R4 R5. generalize (row80 beyond). intros r R1 R2 R3 R4 R5.
  exact (step_80 parse beyond words signs opers mode HW HS HO other HF r l R1 R2 R3 R4 R5 H).
Qed.
Lemma row_142 : forall l, Forall (call_ok parse) l -> replace_step other (call_lines src80 l) (row142 beyond) = call_lines src142 l.
Proof.
  intros l H. destruct (row142_eq beyond) as (R1 & R2 & R3 & R4). pose proof (call_row_142 beyond) as R5. revert R1 R2 R3 R4 R5. generalize (row142 beyond). intros r R1 R2 R3 R4 R5.
  exact (step_142 parse beyond words signs opers mode HW HS HO other HF r l R1 R2 R3 R4 R5 H).
Qed.
Lemma row_150 : forall l, Forall (call_ok parse) l -> replace_step other (call_lines src142 l) (row150 beyond) = call_lines src150 l.
Proof.
  intros l H. destruct (row150_eq beyond) as (R1 & R2 & R3 & R4). pose proof (assign_dead beyond) as R5. revert R1 R2 R3 R4 R5. generalize (row150 beyond). intros r R1 R2 R3 R4 R5.
  exact (step_150 parse beyond words signs opers mode HW HS HO other HF r _ l R1 R2 R3 R4 R5 H).
Qed.
Lemma all_calls : forall l, Forall (call_ok parse) l -> (forall w, In w special -> contains w (call_lines call_source l) = false) ->
  fold_left (replace_step other) (table beyond) (call_lines call_source l) = call_lines src150 l.
Proof.
  intros l H W. apply (rows_calls (table beyond) l (table_length beyond) (call_rows_0 beyond) (call_rows_1 beyond) (call_rows_2 beyond) (call_rows_3 beyond) (call_rows_4 beyond) (call_rows_5 beyond) (rows_d beyond) (row_restore beyond)); [..|exact H | exact W].
  - exact (row_80 l H).
  - exact (row_142 l H).
  - exact (row_150 l H).
Qed.
Theorem call_document : forall l, Forall (call_ok parse) l -> quiet (call_lines call_source l) ->
  apply_razor beyond other default_delims (call_lines call_source l) = Some (call_lines call_output l).
Proof.
  intros l H Q. assert (W : forall w, In w special -> contains w (call_lines call_source l) = false) by (intros w I; exact (quiet_word _ w Q I)).
  destruct (is_razor default_delims (call_lines call_source l)) eqn:RZ.
  - rewrite (razor_on beyond other _ RZ). rewrite (all_calls l H W). f_equal. apply erase_calls; [exact H|]. intros x I. apply (call_no func_call call_source l x I). apply W. cbn. tauto.
  - rewrite (razor_off beyond other _ RZ). f_equal. assert (NA : ~ In "@" (call_lines call_source l)).
    { intros I. assert (C : is_razor default_delims (call_lines call_source l) = true); [|congruence]. apply razor_iff. split; [|split; apply Q; cbn; tauto].
      apply holds_iff. apply (contains_1_In "@"). exact I. }
    assert (L : forall x, In x l -> call_source x = call_output x).
    { intros x I. destruct (call_part call_source l _ I) as (a & b & EQ). assert (NX : ~ In "@" (call_source x)) by (intros J; apply NA; rewrite EQ; apply in_or_app; right; apply in_or_app; left; exact J).
      destruct x as [s|p m b0 E e c z|p m f A e c z]; [reflexivity | exfalso; apply NX; cbn [call_source]; apply in_or_app; right; left; reflexivity ..]. }
    clear - L. induction l as [|x l IH]; [reflexivity|]. rewrite !call_cons. rewrite (L x (or_introl eq_refl)). f_equal. destruct l as [|y l]; [reflexivity|]. cbn [tail_of]. f_equal. apply IH. intros z I. apply L. right. exact I.
Qed.
End Main.
