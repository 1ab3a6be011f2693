(** The translation of assigned expressions: what is written. *)
From Coq Require Import String Ascii List ZArith NArith Bool Lia ZifyBool ZifyN Permutation.
From Verif Require Import GoStr GoStrFacts Utf8 QuoteModel TemplateModel TemplateSpec TemplateProofs TextModel TextProofs3 RazorExprModel RazorExprProofs RazorWordsModel RazorWordsSpec RazorWordsProofs
  ReModel ReSyntaxModel RazorTableModel RazorAssignModel ReSound RazorRefSpec RazorRefAuto RazorRefProofs RazorRefMain RazorAsgSpec RazorAsgText RazorAsgExpr RazorAsgExpr2 RazorAsgGo RazorAsgGo2 RazorAsgVal RazorAsgVal2 RazorAsgVal3.
Import ListNotations.
Local Open Scope char_scope.

Section Value.
Variable beyond : N -> bool.
Variables words signs opers : list (str * str).
Variable parse : str -> option expr.
Context {P : PrintEnv}.
Hypothesis HW : Permutation words RazorWordsModel.reserved.
Hypothesis HS : Permutation signs symbols.
Hypothesis HO : Permutation opers operator_words.
Hypothesis HP : reads_updates parse.
Notation go := (RazorAssignModel.go_text beyond words signs opers).
Notation tr := (translate beyond words signs opers parse).

Definition value2 (t : target) (o : assign_op) (e : expr) : str :=
  match o with
  | Update op => updated (function_of op_names op) (cell t) (as_argument (G2 e))
  | _ => G2 e
  end.
Definition inner_value (inner : bool) (v : str) : str := if inner then as_argument v else v.
Lemma text_no : forall E, text_ok E -> E <> [] /\ lows E /\ ~ In "010" E.
Proof.
  intros E H. pose proof (text_clean E H) as C. split; [|split].
  - destruct H as (_ & (c & r & -> & _) & _). discriminate.
  - exact (go_low E (cl_chars E C)).
  - exact (go_missing E "010" eq_refl (cl_chars E C)).
Qed.
Lemma text_dots : forall E, text_ok E -> dots_held false E = true.
Proof. intros E (_ & _ & _ & _ & _ & D & _). exact (held_text E D). Qed.
Lemma simple_value : forall inner E e, text_ok E -> parse E = Some e -> expr_ok e -> tr inner E = Ok (inner_value inner (G2 e), false).
Proof.
  intros inner E e T PE OK. destruct (text_no E T) as (NE & L & NL).
  assert (GO : go E = Ok E) by (apply (go_plain beyond words signs opers HW HS HO); [exact (text_clean E T) | exact (text_dots E T)]).
  apply (translated beyond words signs opers parse inner E E e (inner_value inner (G1 e))); try assumption.
  - destruct inner; cbn [inner_value].
    + unfold node_value_internal. rewrite (node_gen e OK). exact (internal_arg (G1 e) (g1_plain e OK) (g1_no_dot e OK)).
    + exact (node_gen e OK).
  - destruct inner; cbn [inner_value]; [apply agrees_arg; [apply g12_spaced; exact OK|]|]; exact (restored e OK).
  - destruct inner; cbn [inner_value]; [apply unsliced_arg|]; exact (g2_unsliced e OK).
Qed.
Lemma raw_ident : forall t, Forall name_ok (names t) -> ident_text (fst (raw t)) = fst (raw t) /\ tight (fst (raw t)) /\ fst (raw t) <> [] /\ Forall word_char (fst (raw t)) /\ Forall name_ok (snd (raw t)).
Proof.
  intros t F. destruct (names_split t) as (n & l & E). unfold raw. rewrite E in *. inversion F as [|x y N FL]; subst.
  assert (W : forall M, Forall word_char M -> Forall word_char (M ++ n)).
  { intros M WM. apply Forall_app. split; [exact WM|]. apply Forall_forall. intros c I. pose proof (name_words n N) as Q. rewrite Forall_forall in Q. apply is_word_iff. exact (Q c I). }
  assert (T : forall M, forallb plain_char M = true -> spaced M = false -> tight (M ++ n)).
  { intros M A B. split; [rewrite forallb_app, A, (name_plain n N); reflexivity | rewrite spaced_app, B, (name_spaced n N); reflexivity]. }
  assert (WR : Forall word_char $"__REPL_0__") by (apply Forall_forall; intros c I; apply is_word_iff; vm_compute in I; repeat (destruct I as [<-|I]; [reflexivity|]); destruct I).
  assert (WD : Forall word_char dot_rep) by (apply Forall_forall; intros c I; apply is_word_iff; vm_compute in I; repeat (destruct I as [<-|I]; [reflexivity|]); destruct I).
  destruct (t_kind t); cbn [fst snd hd tl].
  1,2: repeat split; try reflexivity; try discriminate; assumption.
  - split; [unfold ident_text; rewrite has_prefix_app; reflexivity|]. split; [apply T; reflexivity|]. split; [discriminate|]. split; [apply W, WD | exact FL].
  - split; [unfold ident_text; change dollar_rep with $"__REPL_0__"; rewrite has_prefix_app; rewrite andb_false_r; reflexivity|]. split; [apply T; reflexivity|]. split; [discriminate|]. split; [apply W, WR | exact FL].
  - split; [unfold ident_text; change dollar_rep with $"__REPL_0__"; rewrite has_prefix_app; rewrite andb_false_r; reflexivity|]. split; [apply T; reflexivity|]. split; [discriminate|]. split; [apply W, WR | exact FL].
Qed.
Lemma spaced_updated : forall f c v, spaced (updated f c v) = true.
Proof. intros f c v. unfold updated. rewrite !spaced_app. change (spaced $" ") with true. rewrite orb_true_l, orb_true_r. reflexivity. Qed.
Lemma go_update : forall t op E, Forall name_ok (names t) -> Forall free_of_words (names t) -> In op update_ops -> text_ok E ->
  go (update_text (cell t) op E) = Ok (update_text (raw_text t) op E).
Proof.
  intros t op E F FF IO T. pose proof (text_clean E T) as C. pose proof (text_dots E T) as D. pose proof (held_update op E IO D) as HU.
  destruct (names_split t) as (n & l & EN). unfold raw_text, raw, cell. rewrite EN in *. inversion F as [|x y N FL]; subst. inversion FF as [|x y NF FFL]; subst.
  assert (PF : path_ok (fields (n :: l))) by (exact (path_fields [] (n :: l) (or_introl eq_refl) (conj F FF))).
  assert (PD : path_ok (n ++ fields l)) by (exact (path_fields n l (or_intror (conj N NF)) (conj FL FFL))).
  assert (HF : dots_held true (update_text (fields (n :: l)) op E) = true) by (unfold update_text; rewrite held_fields by exact F; exact HU).
  assert (HD : dots_held true (update_text (n ++ fields l) op E) = true).
  { unfold update_text. rewrite <- app_assoc. rewrite held_word by (try exact (name_words n N); exact (name_not_nil n N)). rewrite held_fields by exact FL. exact HU. }
  assert (L : go ($"$" ++ update_text (n ++ fields l) op E) = Ok ($"__REPL_0__" ++ update_text (n ++ fields l) op E)).
  { apply (go_dollar beyond words signs opers HW HS HO); [exact (clean_update _ op E PD C IO) | exact HD]. }
  destruct (t_kind t); cbn [fst snd hd tl].
  1,2: apply (go_dollar beyond words signs opers HW HS HO); [exact (clean_update _ op E PF C IO) | exact HF].
  - pose proof (clean_update _ op E PF C IO) as CU. unfold update_text in *. change (fields (n :: l)) with ("." :: n ++ fields l) in *. rewrite <- (app_assoc dot_rep).
    destruct N as (c & r & En & A & WR & U). rewrite <- (app_assoc dot_rep) || idtac. cbn [app] in CU |- *.
    apply (go_dot beyond words signs opers HW HS HO (n ++ fields l) _ c (r ++ fields l)).
    + rewrite En. reflexivity.
    + apply is_word_iff. left. exact A.
    + apply Forall_app. split.
      * eapply Forall_impl; [|exact WR]. intros d Q. apply is_word_iff in Q. rewrite Q. reflexivity.
      * apply Forall_forall. intros d Q. pose proof (fields_chars l FL) as FC. rewrite forallb_forall in FC. exact (FC d Q).
    + split; reflexivity.
    + exact HU.
    + exact CU.
  - rewrite dotted_fields. unfold update_text in *. rewrite !app_assoc in L. rewrite !app_assoc. exact L.
  - rewrite dotted_fields. unfold update_text in *. rewrite !app_assoc in L. rewrite !app_assoc. exact L.
Qed.
Lemma cell_chars : forall t, Forall name_ok (names t) -> lows (cell t) /\ ~ In "010" (cell t) /\ cell t <> [].
Proof.
  intros t F. assert (A : forallb plain_char (cell t) = true /\ cell t <> []).
  { unfold cell. destruct (names_split t) as (n & l & E). rewrite E in *. inversion F as [|x y N FL]; subst.
    assert (B : forallb plain_char (fields (n :: l)) = true).
    { apply forallb_forall. intros c I. pose proof (fields_chars (n :: l) F) as FC. rewrite forallb_forall in FC. specialize (FC c I). apply orb_true_iff in FC. unfold plain_char. destruct FC as [H|H]; [rewrite H; reflexivity | apply Ascii.eqb_eq in H; subst; reflexivity]. }
    pose proof B as B'. change (fields (n :: l)) with ("." :: (n ++ fields l)) in B'. cbn [forallb] in B'. apply andb_true_iff in B'. destruct B' as [_ B'].
    destruct (t_kind t); rewrite ?dotted_fields; (split; [|discriminate]); rewrite ?forallb_app, ?B; try reflexivity; try exact B; rewrite <- forallb_app; exact B'. }
  destruct A as [A NE]. split; [|split; [|exact NE]].
  - apply Forall_forall. intros c I. rewrite forallb_forall in A. specialize (A c I). revert A. destruct c as [[] [] [] [] [] [] [] []]; intro A; (reflexivity || discriminate A).
  - intro I. rewrite forallb_forall in A. apply A in I. discriminate I.
Qed.
Lemma update_value : forall inner t op E e, Forall name_ok (names t) -> update_ok t (Update op) -> text_ok E -> parse E = Some e -> expr_ok e ->
  tr inner (update_text (cell t) op E) = Ok (inner_value inner (value2 t (Update op) e), false).
Proof.
  intros inner t op E e F UO T PE OK. destruct (UO op eq_refl) as (IO & FF & NS). destruct (text_no E T) as (NE & L & NL).
  pose proof (go_update t op E F FF IO T) as GO. destruct (raw_ident t F) as (RI & RT & RN & RW & RF). destruct (cell_chars t F) as (CL & CN & CE).
  assert (NU : node_value (Binary op (selector (Ident (fst (raw t))) (snd (raw t))) (Paren e)) = Ok (updated (function_of op_names op) (raw_text t) (as_argument (G1 e)))).
  { exact (node_update op (fst (raw t)) (snd (raw t)) e IO RI RT RF OK). }
  assert (PO : forallb go_char ($" " ++ op ++ $" (") = true) by (vm_compute in IO; repeat (destruct IO as [<-|IO]; [reflexivity|]); destruct IO).
  assert (AG : agrees (updated (function_of op_names op) (raw_text t) (as_argument (G1 e))) (value2 t (Update op) e)).
  { unfold value2, updated. apply function_agrees; [vm_compute in IO; vm_compute; tauto|].
    apply (agrees_cut _ _ " "); [reflexivity | discriminate | exact (raw_agrees t F) | apply agrees_arg; [apply g12_spaced; exact OK | exact (restored e OK)]]. }
  assert (US : unsliced (value2 t (Update op) e)).
  { unfold value2, updated. apply unsliced_space; [apply unsliced_no, function_dollar; vm_compute in IO; vm_compute; tauto|].
    apply unsliced_space; [exact (cell_unsliced t F NS) | apply unsliced_arg, (g2_unsliced e OK)]. }
  apply (translated beyond words signs opers parse inner _ (update_text (raw_text t) op E) (Binary op (selector (Ident (fst (raw t))) (snd (raw t))) (Paren e))
    (inner_value inner (updated (function_of op_names op) (raw_text t) (as_argument (G1 e))))).
  - unfold update_text. intro Z. apply app_eq_nil in Z. destruct Z as [Z _]. exact (CE Z).
  - unfold update_text. apply Forall_app. split; [exact CL|]. rewrite !app_assoc. apply Forall_app. split; [|repeat constructor]. apply Forall_app. split; [rewrite <- app_assoc; exact (go_low _ PO) | exact L].
  - unfold update_text. rewrite !app_assoc. intro I. apply in_app_or in I. destruct I as [I|I]; [|vm_compute in I; intuition discriminate]. apply in_app_or in I. destruct I as [I|I]; [|exact (NL I)].
    rewrite <- !app_assoc in I. apply in_app_or in I. destruct I as [I|I]; [exact (CN I)|]. revert I. exact (go_missing _ "010" eq_refl PO).
  - exact GO.
  - unfold update_text, raw_text. intro Z. apply app_eq_nil in Z. destruct Z as [Z _]. apply app_eq_nil in Z. destruct Z as [Z _]. exact (RN Z).
  - unfold update_text, raw_text. rewrite <- app_assoc. exact (HP (fst (raw t)) (snd (raw t)) op E e RN RW RF IO PE).
  - destruct inner; cbn [inner_value]; [|exact NU]. unfold node_value_internal. rewrite NU. apply internal_arg.
    + unfold updated. rewrite !forallb_app. assert (A : forallb plain_char (function_of op_names op) = true) by (vm_compute in IO; repeat (destruct IO as [<-|IO]; [reflexivity|]); destruct IO).
      rewrite A. destruct (selected (snd (raw t)) (Ident (fst (raw t))) (fst (raw t))) as [_ [S2 _]]; [cbn [node_value]; rewrite RI; reflexivity | exact RT | exact RF|]. unfold raw_text. rewrite S2.
      rewrite (plain_arg _ (g1_plain e OK)). reflexivity.
    + unfold updated. vm_compute in IO. repeat (destruct IO as [<-|IO]; [reflexivity|]). destruct IO.
  - destruct inner; cbn [inner_value]; [|exact AG]. apply agrees_arg; [|exact AG]. unfold value2. rewrite !spaced_updated. reflexivity.
  - destruct inner; cbn [inner_value]; [apply unsliced_arg|]; exact US.
Qed.
End Value.
