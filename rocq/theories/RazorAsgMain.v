(** The whole table of replacements on documents with assignments. *)
From Coq Require Import String Ascii List ZArith NArith Bool Lia ZifyBool ZifyN Permutation.
From Verif Require Import GoStr GoStrFacts Utf8 QuoteModel TemplateModel TemplateSpec TemplateProofs TextModel TextProofs3 RazorExprModel RazorExprProofs RazorWordsModel RazorWordsSpec RazorWordsProofs
  ReModel ReSyntaxModel RazorTableModel RazorAssignModel ReSound RazorRefSpec RazorRefAuto RazorRefProofs RazorRefMain RazorAsgSpec RazorAsgText RazorAsgExpr RazorAsgExpr2 RazorAsgGo RazorAsgGo2 RazorAsgVal RazorAsgVal2 RazorAsgVal3 RazorAsgWrite RazorAsgWrite2 RazorAsgAuto RazorAsgMatch RazorAsgFits RazorAsgDoc.
Import ListNotations.
Local Open Scope char_scope.

(** ** The characters of what is written *)
Definition tail_char (c : ascii) : bool := plain_char c || existsb (Ascii.eqb c) [""""; "}"; ":"; "="; ","].
Lemma plain_tail : forall s, forallb plain_char s = true -> forallb tail_char s = true.
Proof. intros s H. rewrite forallb_forall in *. intros c I. unfold tail_char. rewrite (H c I). reflexivity. Qed.
Lemma fields_plain : forall l, Forall name_ok l -> forallb plain_char (fields l) = true.
Proof. induction l as [|n l IH]; intros F; [reflexivity|]. inversion F; subst. change (fields (n :: l)) with ($"." ++ n ++ fields l). rewrite !forallb_app. rewrite (name_plain n) by assumption. rewrite IH by assumption. reflexivity. Qed.
Lemma dotted_plain : forall l, Forall name_ok l -> forallb plain_char (dotted l) = true.
Proof. intros [|n l] F; [reflexivity|]. inversion F; subst. rewrite dotted_fields, forallb_app. rewrite (name_plain n) by assumption. rewrite fields_plain by assumption. reflexivity. Qed.
Lemma cell_plain : forall t, Forall name_ok (names t) -> forallb plain_char (cell t) = true.
Proof. intros t F. unfold cell. destruct (t_kind t); rewrite ?forallb_app, ?(fields_plain _ F), ?(dotted_plain _ F); reflexivity. Qed.
Lemma holder_plain : forall t, Forall name_ok (names t) -> forallb plain_char (holder t) = true.
Proof.
  intros t F. assert (FP : Forall name_ok (t_path t)) by (unfold names in F; apply Forall_app in F; apply F).
  unfold holder. destruct (t_kind t); rewrite ?forallb_app, ?(fields_plain _ FP), ?(dotted_plain _ FP); try reflexivity.
  destruct (t_path t); [reflexivity | exact (fields_plain _ FP)].
Qed.
Lemma value2_plain : forall t o e, Forall name_ok (names t) -> update_ok t o -> expr_ok e -> forallb plain_char (value2 t o e) = true.
Proof.
  intros t o e F U OK. pose proof (g2_plain e OK) as G. destruct o as [| |op]; cbn [value2]; try exact G.
  destruct (U op eq_refl) as (IO & _). unfold updated. rewrite !forallb_app. rewrite (cell_plain t F), (plain_arg _ G). rewrite !andb_true_r.
  vm_compute in IO. repeat (destruct IO as [<-|IO]; [reflexivity|]). destruct IO.
Qed.
Inductive shape : str -> Prop :=
| sh_var b : forallb tail_char b = true -> shape ($"{{- " ++ "$" :: b)
| sh_set b : forallb tail_char b = true -> shape ($"{{- se" ++ "t" :: b)
| sh_check a b : forallb tail_char a = true -> forallb tail_char b = true -> shape ($"{{- asser" ++ "t" :: a ++ "}" :: $"{{- se" ++ "t" :: b).
Lemma written_shape : forall mode t o e, Forall name_ok (names t) -> update_ok t o -> expr_ok e -> shape (written_with mode t o (value2 t o e)).
Proof.
  intros mode t o e F U OK. pose proof (value2_plain t o e F U OK) as V. pose proof (plain_tail _ V) as V'. pose proof (plain_tail _ (plain_arg _ V)) as VA.
  pose proof (plain_tail _ (name_plain _ (name_of_target t F))) as N. pose proof (plain_tail _ (holder_plain t F)) as H. pose proof (plain_tail _ (cell_plain t F)) as C.
  assert (SB : forallb tail_char ($" " ++ holder t ++ $" """ ++ t_name t ++ $""" " ++ as_argument (value2 t o e) ++ $" }}") = true) by (rewrite !forallb_app, H, N, VA; reflexivity).
  assert (SE : set_with t (value2 t o e) = $"{{- se" ++ "t" :: ($" " ++ holder t ++ $" """ ++ t_name t ++ $""" " ++ as_argument (value2 t o e) ++ $" }}")) by reflexivity.
  unfold written_with. destruct (variable t).
  - match goal with |- shape ($"{{- $" ++ ?b) => change ($"{{- $" ++ b) with ($"{{- " ++ "$" :: b) end. apply sh_var. rewrite !forallb_app, N, V'. destruct o; reflexivity.
  - rewrite SE. assert (S1 := sh_set _ SB).
    assert (SC : forall c : str, forallb tail_char c = true -> shape (($"{{- " ++ ($"assert" ++ c) ++ $" (not (isNil " ++ cell t ++ $")) """ ++ cell t ++ $" does not exist, use := to declare new variable"" }}") ++ $"{{- se" ++ "t" :: ($" " ++ holder t ++ $" """ ++ t_name t ++ $""" " ++ as_argument (value2 t o e) ++ $" }}"))).
    { intros c HC. replace (($"{{- " ++ ($"assert" ++ c) ++ $" (not (isNil " ++ cell t ++ $")) """ ++ cell t ++ $" does not exist, use := to declare new variable"" }}") ++ $"{{- se" ++ "t" :: ($" " ++ holder t ++ $" """ ++ t_name t ++ $""" " ++ as_argument (value2 t o e) ++ $" }}"))
        with ($"{{- asser" ++ "t" :: (c ++ $" (not (isNil " ++ cell t ++ $")) """ ++ cell t ++ $" does not exist, use := to declare new variable"" }") ++ "}" :: $"{{- se" ++ "t" :: ($" " ++ holder t ++ $" """ ++ t_name t ++ $""" " ++ as_argument (value2 t o e) ++ $" }}")) by (rewrite <- !app_assoc; reflexivity).
      apply sh_check; [|exact SB]. rewrite !forallb_app, HC, C. reflexivity. }
    destruct (in_context t); [|exact S1]. destruct o; [exact S1 | |]; unfold check_text; destruct mode; [exact S1 | exact (SC $"Warning" eq_refl) | exact (SC [] eq_refl) | exact S1 | exact (SC $"Warning" eq_refl) | exact (SC [] eq_refl)].
Qed.
Lemma tail_no : forall c s, tail_char c = false -> forallb tail_char s = true -> ~ In c s.
Proof. intros c s N H I. rewrite forallb_forall in H. apply H in I. congruence. Qed.
Definition shape_char (c : ascii) : bool := Ascii.eqb "{" c || tail_char c.
Lemma tail_shape : forall s, forallb tail_char s = true -> forallb shape_char s = true.
Proof. intros s H. rewrite forallb_forall in *. intros c I. unfold shape_char. rewrite (H c I). apply orb_true_r. Qed.
Lemma shape_chars : forall s, shape s -> forallb shape_char s = true.
Proof.
  intros s [b B|b B|a b A B]; rewrite !forallb_app; cbn [forallb]; rewrite ?forallb_app; cbn [forallb]; rewrite ?forallb_app; cbn [forallb]; rewrite ?(tail_shape _ B), ?(tail_shape _ A); reflexivity.
Qed.
Lemma shape_no : forall c s, tail_char c = false -> c <> "{" -> shape s -> ~ In c s.
Proof.
  intros c s N NB S I. apply shape_chars in S. rewrite forallb_forall in S. apply S in I. unfold shape_char in I. rewrite N, orb_false_r in I. apply Ascii.eqb_eq in I. congruence.
Qed.
Lemma missing_char : forall w s c, In c w -> ~ In c s -> contains w s = false.
Proof.
  intros w s c I N. destruct (contains w s) eqn:C; [|reflexivity]. exfalso. apply contains_iff in C. destruct C as (a & b & ->). apply N. apply in_or_app. right. apply in_or_app. left. exact I.
Qed.
Definition raws : list str := [$"""{{ raw"; $"""{{- raw"; $"""{{ ellipsis"; $"""{{- ellipsis"].
Lemma shape_raw : forall w i s, In w raws -> Forall blank_char i -> shape s -> contains w (i ++ s) = false.
Proof.
  intros w i s W B S.
  assert (C : In """" w /\ In "{" w /\ ~ In "t" w /\ ~ In "$" w /\ ~ In "}" w) by (cbn in W; repeat (destruct W as [<-|W]; [cbn; intuition discriminate|]); destruct W).
  destruct C as (CQ & CB & CT & CD & CR).
  assert (T : forall b, forallb tail_char b = true -> contains w b = false) by (intros b H; exact (missing_char w b "{" CB (tail_no "{" b eq_refl H))).
  assert (QI : ~ In """" i) by (intros I; rewrite Forall_forall in B; destruct (B _ I); discriminate).
  assert (Q : forall p, ~ In """" p -> contains w (i ++ p) = false) by (intros p H; apply (missing_char w _ """" CQ); intros I; apply in_app_or in I; destruct I; [contradiction | apply H; assumption]).
  destruct S as [b H|b H|a b HA H].
  - rewrite app_assoc. apply cut_word_false; [exact CD | apply Q; cbn; intuition discriminate | exact (T b H)].
  - rewrite app_assoc. apply cut_word_false; [exact CT | apply Q; cbn; intuition discriminate | exact (T b H)].
  - rewrite app_assoc. apply cut_word_false; [exact CT | apply Q; cbn; intuition discriminate|]. apply cut_word_false; [exact CR | exact (T a HA)|].
    apply cut_word_false; [exact CT | apply (missing_char w _ """" CQ); cbn; intuition discriminate | exact (T b H)].
Qed.

(** ** Words of a document *)
Lemma lines_no : forall w f l, ~ In "010" w -> w <> [] -> (forall x, In x l -> contains w (f x) = false) -> contains w (lines f l) = false.
Proof.
  intros w f l N NE. induction l as [|x l IH]; intros H.
  - cbn [lines]. destruct w; [contradiction | reflexivity].
  - rewrite lines_after. destruct l as [|y l]; [cbn [after]; rewrite app_nil_r; apply H; left; reflexivity|]. cbn [after]. apply cut_word_false; [exact N | apply H; left; reflexivity|].
    apply IH. intros z I. apply H. right. exact I.
Qed.
Lemma line_part : forall f l x, In x l -> exists a b, lines f l = a ++ f x ++ b.
Proof.
  intros f l x. induction l as [|y l IH]; intros I; [destruct I|]. rewrite lines_after. destruct I as [->|I]; [exists [], (after f l); reflexivity|].
  destruct (IH I) as (a & b & E). destruct l as [|z l]; [destruct I|]. cbn [after]. rewrite E. exists (f y ++ "010" :: a), b. rewrite <- !app_assoc. reflexivity.
Qed.
Lemma line_no : forall w f l x, In x l -> contains w (lines f l) = false -> contains w (f x) = false.
Proof.
  intros w f l x I C. destruct (line_part f l x I) as (a & b & E). destruct (contains w (f x)) eqn:H; [|reflexivity]. rewrite E, (contains_mid w a _ b H) in C. discriminate C.
Qed.

(** ** The rows *)
Definition words_0 : list str := [$"`"; $"${"; $"{{ /*"; $"*/ }}"; $"#!"; $"//!"; $"##"; $"///"].
Lemma rows_0 : forall beyond, forallb (asilent true words_0) (res_of (table beyond) 0 45) = true.
Proof. intro beyond. vm_compute. reflexivity. Qed.
Lemma rows_1 : forall beyond, forallb (asilent false []) (res_of (table beyond) 46 6) = true.
Proof. intro beyond. vm_compute. reflexivity. Qed.
Lemma rows_2 : forall beyond, forallb (needy words_c) (res_of (table beyond) 53 108) = true.
Proof. intro beyond. vm_compute. reflexivity. Qed.
Lemma asilent_row : forall open ws r s, asilent open ws r = true -> fits (adelta open) $"L" s -> (forall w, In w ws -> contains w s = false) -> idle r s.
Proof. intros open. exact (asilent_idle open all_bytes 400 all_bytes_ok). Qed.
Lemma table_parts : forall T : list replacement, length T = 165 ->
  T = firstn 45 (skipn 0 T) ++ nth 45 T no_row :: firstn 6 (skipn 46 T) ++ nth 52 T no_row :: firstn 108 (skipn 53 T) ++ nth 161 T no_row :: firstn 3 (skipn 162 T).
Proof.
  intros T L.
  assert (E4 : firstn 3 (skipn 162 T) = skipn 162 T) by (apply firstn_all2; rewrite skipn_length; lia). rewrite E4.
  rewrite <- (skipn_nth _ no_row 161 T) by lia.
  replace (skipn 161 T) with (skipn 108 (skipn 53 T)) by (rewrite skipn_add; reflexivity). rewrite (firstn_skipn 108 (skipn 53 T)).
  rewrite <- (skipn_nth _ no_row 52 T) by lia.
  replace (skipn 52 T) with (skipn 6 (skipn 46 T)) by (rewrite skipn_add; reflexivity). rewrite (firstn_skipn 6 (skipn 46 T)).
  rewrite <- (skipn_nth _ no_row 45 T) by lia. symmetry. apply (firstn_skipn 45 T).
Qed.

Section Main.
Variable beyond : N -> bool.
Variables words signs opers : list (str * str).
Variable parse : str -> option expr.
Variable mode : validation.
Context {P : PrintEnv}.
Hypothesis HW : Permutation words RazorWordsModel.reserved.
Hypothesis HS : Permutation signs symbols.
Hypothesis HO : Permutation opers operator_words.
Hypothesis HU : reads_updates parse.
Variable other : replacement -> parser -> str -> str.
Hypothesis HF : follows_code beyond words signs opers parse mode default_delims other.
Definition result (x : line) : str :=
  match x with
  | Words s => s
  | Asg i t _ o _ _ e => i ++ written_with mode t o (value2 t o e)
  end.
Definition halfway (x : line) : str :=
  match x with
  | Words s => s
  | Asg i t _ o _ _ e => match t_kind t with Braced => line_source x | _ => result x end
  end.
Lemma assign_row : forall r t b1 o b2 E e, Forall name_ok (names t) -> update_ok t o -> text_ok E -> parse E = Some e -> expr_ok e ->
  (let f := multi_match (r_re r) (match_text t b1 o b2 E) in f $"type" = type_text t /\ f $"id" = dotted (names t) /\ f $"assign" = op_text o /\ f $"expr" = E) ->
  other r PAssign (match_text t b1 o b2 E) = written_with mode t o (value2 t o e).
Proof.
  intros r t b1 o b2 E e F U T PE OK (G1 & G2 & G3 & G4). apply HF; [discriminate | discriminate|]. cbn [razor_parser]. unfold assign_expression. rewrite G1, G2, G3, G4.
  assert (N1 : str_eqb (type_text t) [] = false) by (unfold type_text; destruct (t_kind t); reflexivity).
  assert (N2 : str_eqb (dotted (names t)) [] = false) by (destruct (dotted_chars _ (names_not_nil t) F) as (c & s & X & _); rewrite X; reflexivity).
  assert (N3 : str_eqb E [] = false) by (destruct T as (_ & (c & s & X & _) & _); rewrite X; reflexivity).
  assert (N4 : str_eqb (op_text o) [] = false) by (destruct (op_head o (update_op t o U)) as (c & s & X & _); rewrite X; reflexivity).
  rewrite N1, N2, N3, N4. cbn [orb]. apply assigned; assumption.
Qed.
Lemma line_written : forall i t b1 o b2 E e, line_ok parse (Asg i t b1 o b2 E e) -> ~ In "@" (written_with mode t o (value2 t o e)).
Proof. intros i t b1 o b2 E e (B & (F & _) & SP & U & B2 & T & PE & OK). apply shape_no; [reflexivity | discriminate|]. apply written_shape; assumption. Qed.
Lemma row1 : forall r l, c_re (r_re r) = assign1_re beyond -> r_parser r = Some PAssign ->
  (forall t b1 o b2 E, Forall name_ok (names t) -> op_ok o -> spacing_ok t b1 o -> Forall blank_char b2 -> value_line E -> t_kind t <> Braced ->
    let f := multi_match (r_re r) (match_text t b1 o b2 E) in f $"type" = type_text t /\ f $"id" = dotted (names t) /\ f $"assign" = op_text o /\ f $"expr" = E) ->
  Forall (line_ok parse) l -> replace_step other (lines line_source l) r = lines halfway l.
Proof.
  intros r l RR RP RG H. unfold replace_step. rewrite RR, RP. cbn [run_parser]. apply document_replaced.
  - intros t' EA. apply assign1_at in EA. destruct EA as (c & x & X & _). discriminate X.
  - apply skipped1_plain. cbn. intuition discriminate.
  - eapply Forall_impl; [|exact H]. clear H. intros [s|i t b1 o b2 E e] H.
    + left. destruct H as [NA _]. split; [reflexivity | apply skipped1_plain; exact NA].
    + pose proof H as (B & (F & KW) & SP & U & B2 & T & PE & OK). pose proof (update_op t o U) as O. pose proof (text_line E T) as V. destruct SP as (FB & SP).
      destruct (t_kind t) eqn:K.
      5:{ left. split; [cbn [halfway]; rewrite K; reflexivity|]. cbn [line_source]. apply skipped_app; [apply skipped1_plain, blanks_no_at, B|].
          unfold target_text. rewrite K. change (($"@{" ++ dotted (names t) ++ $"}") ++ b1 ++ op_text o ++ b2 ++ E) with ("@" :: "{" :: ((dotted (names t) ++ $"}") ++ b1 ++ op_text o ++ b2 ++ E)).
          apply skipped1_braced. intros I. apply in_app_or in I. destruct I as [I|I]; [apply in_app_or in I; destruct I as [I|[I|[]]]; [exact (dotted_no_at _ F I) | discriminate I]|].
          apply in_app_or in I. destruct I as [I|I]; [exact (blanks_no_at _ FB I)|]. apply in_app_or in I. destruct I as [I|I]; [exact (op_no_at o O I)|].
          apply in_app_or in I. destruct I as [I|I]; [exact (blanks_no_at _ B2 I)|]. destruct T as (TV & _). exact (proj1 (values_no_at E TV) I). }
      all: right; exists i, (match_text t b1 o b2 E), (written_with mode t o (value2 t o e));
        (split; [cbn [line_source]; rewrite match_source; reflexivity|]); (split; [cbn [halfway result]; rewrite K; reflexivity|]);
        (split; [apply skipped1_plain, blanks_no_at, B|]); destruct (match_head t b1 o b2 E) as (mr & MH); (split; [rewrite MH; discriminate|]); (split; [rewrite MH; reflexivity|]); clear mr MH;
        assert (NK : t_kind t <> Braced) by congruence; assert (SPO : spacing_ok t b1 o) by (split; [exact FB | intros X _; apply (SP X); discriminate]);
        intros pv u EN; destruct (assign1_lands beyond t b1 o b2 E u pv F O SPO B2 V EN NK) as (q & Q); exists q; eexists; (split; [exact Q|]);
        apply assign_row with (1 := F) (2 := U) (3 := T) (4 := PE) (5 := OK); exact (RG t b1 o b2 E F O SPO B2 V NK).
Qed.
Lemma row2 : forall r l, c_re (r_re r) = assign2_re beyond -> r_parser r = Some PAssign ->
  (forall t b1 o b2 E, Forall name_ok (names t) -> op_ok o -> Forall blank_char b1 -> Forall blank_char b2 -> value_line E -> t_kind t = Braced ->
    let f := multi_match (r_re r) (match_text t b1 o b2 E) in f $"type" = type_text t /\ f $"id" = dotted (names t) /\ f $"assign" = op_text o /\ f $"expr" = E) ->
  Forall (line_ok parse) l -> replace_step other (lines halfway l) r = lines result l.
Proof.
  intros r l RR RP RG H. unfold replace_step. rewrite RR, RP. cbn [run_parser]. apply document_replaced.
  - intros t' EA. apply assign2_at in EA. destruct EA as (x & X). discriminate X.
  - apply skipped2_plain. cbn. intuition discriminate.
  - eapply Forall_impl; [|exact H]. clear H. intros [s|i t b1 o b2 E e] H.
    + left. destruct H as [NA _]. split; [reflexivity | apply skipped2_plain; exact NA].
    + pose proof (line_written _ _ _ _ _ _ _ H) as NW. pose proof H as (B & (F & KW) & (FB & SP) & U & B2 & T & PE & OK). pose proof (update_op t o U) as O. pose proof (text_line E T) as V.
      destruct (t_kind t) eqn:K.
      1-4: left; (assert (HE : halfway (Asg i t b1 o b2 E e) = result (Asg i t b1 o b2 E e)) by (cbn [halfway]; rewrite K; reflexivity)); (split; [exact HE|]); rewrite HE; cbn [result];
        apply skipped_app; [apply skipped2_plain, blanks_no_at, B | apply skipped2_plain; exact NW].
      right. exists i, (match_text t b1 o b2 E), (written_with mode t o (value2 t o e)). split; [cbn [halfway line_source]; rewrite K, match_source; reflexivity|]. split; [reflexivity|].
      split; [apply skipped2_plain, blanks_no_at, B|]. destruct (match_head t b1 o b2 E) as (mr & MH). split; [rewrite MH; discriminate|]. split; [rewrite MH; reflexivity|]. clear mr MH.
      intros pv u EN. destruct (assign2_lands beyond t b1 o b2 E u pv F O FB B2 V EN K) as (q & Q). exists q. eexists. split; [exact Q|].
      apply assign_row with (1 := F) (2 := U) (3 := T) (4 := PE) (5 := OK). exact (RG t b1 o b2 E F O FB B2 V K).
Qed.
Lemma source_fits : forall l, Forall (line_ok parse) l -> fits (adelta true) $"L" (lines line_source l).
Proof.
  intros l H. apply lines_fit. intros x u I R. rewrite Forall_forall in H. specialize (H x I). destruct x as [s|i t b1 o b2 E e].
  - destruct H as [NA NN]. apply text_fits; [left; reflexivity | exact NA | exact NN | exact R].
  - destruct H as (B & T & SP & U & B2 & TX & _). apply assign_fits; try assumption; [left; reflexivity | exact (update_op t o U)].
Qed.
Lemma written_line : forall i t b1 o b2 E e, line_ok parse (Asg i t b1 o b2 E e) -> ~ In "@" (result (Asg i t b1 o b2 E e)) /\ ~ In "010" (result (Asg i t b1 o b2 E e)).
Proof.
  intros i t b1 o b2 E e H. pose proof (line_written _ _ _ _ _ _ _ H) as NW. destruct H as (B & (F & _) & SP & U & B2 & T & PE & OK). cbn [result].
  assert (NN : ~ In "010" (written_with mode t o (value2 t o e))) by (apply shape_no; [reflexivity | discriminate|]; apply written_shape; assumption).
  split; intros I; apply in_app_or in I; destruct I as [I|I]; try contradiction.
  - exact (blanks_no_at i B I).
  - rewrite Forall_forall in B. destruct (B _ I); discriminate.
Qed.
Lemma halfway_fits : forall l, Forall (line_ok parse) l -> fits (adelta false) $"L" (lines halfway l).
Proof.
  intros l H. apply lines_fit. intros x u I R. rewrite Forall_forall in H. specialize (H x I). destruct x as [s|i t b1 o b2 E e].
  - destruct H as [NA NN]. apply text_fits; [left; reflexivity | exact NA | exact NN | exact R].
  - destruct (written_line _ _ _ _ _ _ _ H) as [NA NN]. destruct H as (B & T & SP & U & B2 & TX & _). cbn [halfway].
    destruct (t_kind t) eqn:K; [apply text_fits; [left; reflexivity | exact NA | exact NN | exact R] .. |].
    apply assign_fits; try assumption; [right; exact K | exact (update_op t o U)].
Qed.
(** Words of the result *)
Lemma result_no : forall w l, Forall (line_ok parse) l -> In w ([$"@"; $"""<<"; $"=!AT!="; $"=!TRIPLE_BT!="; $"=!REPL!="; $"`"] ++ raws) -> (w = $"@" \/ contains w (lines line_source l) = false) -> contains w (lines result l) = false.
Proof.
  intros w l H W Q. rewrite Forall_forall in H.
  assert (NW : ~ In "010" w /\ w <> []) by (cbn in W; repeat (destruct W as [<-|W]; [cbn; split; [intuition discriminate | discriminate]|]); destruct W).
  apply lines_no; [apply NW | apply NW|]. intros x I. specialize (H x I). destruct x as [s|i t b1 o b2 E e].
  - destruct Q as [->|Q]; [|exact (line_no w line_source l (Words s) I Q)]. destruct H as [NA _]. exact (missing_char $"@" s "@" (or_introl eq_refl) NA).
  - destruct H as (B & (F & _) & SP & U & B2 & T & PE & OK). cbn [result]. pose proof (written_shape mode t o e F U OK) as S. apply in_app_or in W. destruct W as [W|W]; [|apply shape_raw; assumption].
    assert (C : exists c, In c w /\ tail_char c = false /\ c <> "{" /\ ~ blank_char c).
    { cbn in W. repeat (destruct W as [<-|W]; [first [exists "@"; repeat split; [cbn; tauto | discriminate | cbv; intuition discriminate] | exists "<"; repeat split; [cbn; tauto | discriminate | cbv; intuition discriminate]
        | exists "!"; repeat split; [cbn; tauto | discriminate | cbv; intuition discriminate] | exists "`"; repeat split; [cbn; tauto | discriminate | cbv; intuition discriminate]]|]). destruct W. }
    destruct C as (c & CW & CT & CB & CN). apply (missing_char w _ c CW). intros J. apply in_app_or in J. destruct J as [J|J]; [rewrite Forall_forall in B; exact (CN (B c J))|]. exact (shape_no c _ CT CB S J).
Qed.
Lemma steps_assign : forall A r1 B0 r2 C r3 D l,
  forallb (asilent true words_0) (map (fun r => c_re (r_re r)) A) = true ->
  forallb (asilent false []) (map (fun r => c_re (r_re r)) B0) = true ->
  forallb (needy words_c) (map (fun r => c_re (r_re r)) C) = true ->
  c_re (r_re r3) = RazorRefMain.Lit AT /\ r_parser r3 = None /\ r_replace r3 = $"@" ->
  forallb (needy words_d) (map (fun r => c_re (r_re r)) D) = true ->
  replace_step other (lines line_source l) r1 = lines halfway l -> replace_step other (lines halfway l) r2 = lines result l ->
  Forall (line_ok parse) l -> (forall w, In w special -> contains w (lines line_source l) = false) ->
  fold_left (replace_step other) (A ++ r1 :: B0 ++ r2 :: C ++ r3 :: D) (lines line_source l) = lines result l.
Proof.
  intros A r1 B0 r2 C r3 D l HA HB HC (R1 & R2 & R3) HD S1 S2 H W.
  rewrite fold_left_app. cbn [fold_left]. rewrite fold_left_app. cbn [fold_left]. rewrite fold_left_app. cbn [fold_left].
  rewrite (rows_idle other (asilent true words_0) (lines line_source l) A); [| |exact HA].
  2:{ intros r RH. apply (asilent_row true words_0 r _ RH (source_fits l H)). intros w I. apply W. repeat (destruct I as [<-|I]; [cbn; tauto|]). destruct I. }
  rewrite S1. rewrite (rows_idle other (asilent false []) (lines halfway l) B0); [| |exact HB].
  2:{ intros r RH. apply (asilent_row false [] r _ RH (halfway_fits l H)). intros w []. }
  rewrite S2. rewrite (rows_idle other (needy words_c) (lines result l) C); [| |exact HC].
  2:{ intros r RH. apply (needy_idle words_c r _ RH). intros w I. apply (result_no w l H).
      - repeat (destruct I as [<-|I]; [cbn; tauto|]). destruct I.
      - destruct I as [<-|I]; [left; reflexivity | right; apply W]. repeat (destruct I as [<-|I]; [cbn; tauto|]). destruct I. }
  rewrite (literal_row other r3 _ _ _ R1 R2 R3); [|discriminate | reflexivity | reflexivity].
  assert (NA : contains AT (lines result l) = false).
  { assert (X : contains $"=!AT!=" (lines result l) = false) by (apply (result_no _ l H); [cbn; tauto | right; apply W; cbn; tauto]).
    destruct (contains AT (lines result l)) eqn:CA; [|reflexivity]. apply contains_iff in CA. destruct CA as (a & b & E). rewrite E in X. change AT with ($"_" ++ $"=!AT!=" ++ $"_") in X.
    replace (a ++ ($"_" ++ $"=!AT!=" ++ $"_") ++ b) with ((a ++ $"_") ++ $"=!AT!=" ++ ($"_" ++ b)) in X by (rewrite <- !app_assoc; reflexivity).
    rewrite (contains_mid $"=!AT!=" (a ++ $"_") $"=!AT!=" ($"_" ++ b)) in X; [discriminate X | reflexivity]. }
  rewrite replace_all_no by exact NA.
  apply (rows_idle other (needy words_d) (lines result l) D); [|exact HD].
  intros r RH. apply (needy_idle words_d r _ RH). intros w I. apply (result_no w l H).
  - repeat (destruct I as [<-|I]; [cbn; tauto|]). destruct I.
  - right. apply W. repeat (destruct I as [<-|I]; [cbn; tauto|]). destruct I.
Qed.
Lemma rows_assign : forall T l, length T = 165 ->
  forallb (asilent true words_0) (res_of T 0 45) = true -> forallb (asilent false []) (res_of T 46 6) = true ->
  forallb (needy words_c) (res_of T 53 108) = true -> forallb (needy words_d) (res_of T 162 3) = true ->
  c_re (r_re (nth 161 T no_row)) = RazorRefMain.Lit AT /\ r_parser (nth 161 T no_row) = None /\ r_replace (nth 161 T no_row) = $"@" ->
  replace_step other (lines line_source l) (nth 45 T no_row) = lines halfway l -> replace_step other (lines halfway l) (nth 52 T no_row) = lines result l ->
  Forall (line_ok parse) l -> (forall w, In w special -> contains w (lines line_source l) = false) ->
  fold_left (replace_step other) T (lines line_source l) = lines result l.
Proof.
  intros T l TL F1 F2 F3 F4 E3 S1 S2 H W. rewrite (table_parts T TL). exact (steps_assign _ _ _ _ _ _ _ l F1 F2 F3 E3 F4 S1 S2 H W).
Qed.
Lemma all_assign : forall l, Forall (line_ok parse) l -> (forall w, In w special -> contains w (lines line_source l) = false) ->
  fold_left (replace_step other) (table beyond) (lines line_source l) = lines result l.
Proof.
  intros l H W. apply (rows_assign (table beyond) l (table_length beyond) (rows_0 beyond) (rows_1 beyond) (rows_2 beyond) (rows_d beyond) (row_restore beyond)); [| |exact H | exact W].
  - destruct (row45_re beyond) as (A & _ & B). exact (row1 (row45 beyond) l A B (groups1 beyond) H).
  - destruct (row52_re beyond) as (A & _ & B). exact (row2 (row52 beyond) l A B (groups2 beyond) H).
Qed.
(** ** The marks of functions disappear *)
Lemma erase_result : forall x, line_ok parse x -> (forall s, x = Words s -> contains func_call s = false) -> erase (result x) = line_output mode x.
Proof.
  intros [s|i t b1 o b2 E e] H N; cbn [result line_output].
  - apply replace_all_no. exact (N s eq_refl).
  - destruct H as (B & (F & _) & SP & U & B2 & T & PE & OK). pose proof (erase_written mode t o e [] F U OK) as EW. rewrite !app_nil_r in EW.
    pose proof (written_shape mode t o e F U OK) as S. assert (HD0 : exists r, written_with mode t o (value2 t o e) = "{" :: r) by (destruct S; eexists; reflexivity). destruct HD0 as (r & HD0).
    rewrite HD0 in *. pose proof (erase_mid [] "{" r eq_refl eq_refl) as E0. cbn [app] in E0. rewrite EW in E0. rewrite E0.
    apply erase_mid; [reflexivity|]. apply (missing_char US2 i "_"); [left; reflexivity|]. intros I. rewrite Forall_forall in B. destruct (B _ I); discriminate.
Qed.
Lemma erase_lines : forall l, Forall (line_ok parse) l -> (forall s, In (Words s) l -> contains func_call s = false) -> erase (lines result l) = lines (line_output mode) l.
Proof.
  induction l as [|x l IH]; intros H N; [reflexivity|]. inversion H as [|? ? HX HL]; subst. rewrite !lines_after.
  assert (EX : erase (result x) = line_output mode x) by (apply erase_result; [exact HX | intros s ->; apply N; left; reflexivity]).
  destruct l as [|y l]; [cbn [after]; rewrite !app_nil_r; exact EX|]. cbn [after]. rewrite erase_cut by reflexivity. rewrite EX. rewrite IH; [reflexivity | exact HL | intros s I; apply N; right; exact I].
Qed.
Theorem assign_document : forall l, Forall (line_ok parse) l -> quiet (lines line_source l) ->
  apply_razor beyond other default_delims (lines line_source l) = Some (lines (line_output mode) l).
Proof.
  intros l H Q. assert (W : forall w, In w special -> contains w (lines line_source l) = false) by (intros w I; exact (quiet_word _ w Q I)).
  destruct (is_razor default_delims (lines line_source l)) eqn:RZ.
  - rewrite (razor_on beyond other _ RZ). rewrite (all_assign l H W). f_equal. apply erase_lines; [exact H|]. intros s I. apply (line_no func_call line_source l (Words s) I). apply W. cbn. tauto.
  - rewrite (razor_off beyond other _ RZ). f_equal. assert (NA : ~ In "@" (lines line_source l)).
    { intros I. assert (C : is_razor default_delims (lines line_source l) = true); [|congruence]. apply razor_iff. split; [|split; apply Q; cbn; tauto].
      apply holds_iff. apply (contains_1_In "@"). exact I. }
    assert (L : forall x, In x l -> line_source x = line_output mode x).
    { intros x I. destruct x as [s|i t b1 o b2 E e]; [reflexivity|]. exfalso. apply NA. destruct (line_part line_source l _ I) as (a & b & EQ). rewrite EQ. apply in_or_app. right. apply in_or_app. left.
      cbn [line_source]. apply in_or_app. right. rewrite <- match_source. destruct (match_head t b1 o b2 E) as (r & MH). rewrite MH. left. reflexivity. }
    clear - L. induction l as [|x l IH]; [reflexivity|]. rewrite !lines_after. rewrite (L x (or_introl eq_refl)). f_equal. destruct l as [|y l]; [reflexivity|]. cbn [after]. f_equal. apply IH. intros z I. apply L. right. exact I.
Qed.
End Main.
