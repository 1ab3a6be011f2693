(** Razor documents with calls: the rows of the table, one after the other. *)
From Coq Require Import String Ascii List ZArith NArith Bool Lia ZifyBool ZifyN Permutation.
From Verif Require Import GoStr GoStrFacts Utf8 QuoteModel TemplateModel TemplateSpec TemplateProofs TextModel TextProofs3 RazorExprModel RazorExprProofs RazorWordsModel RazorWordsSpec RazorWordsProofs
  ReModel ReSyntaxModel RazorTableModel RazorAssignModel ReSound RazorRefSpec RazorRefAuto RazorRefProofs RazorRefMain RazorAsgSpec RazorAsgAuto RazorAsgText RazorAsgExpr RazorAsgExpr2 RazorAsgGo RazorAsgGo2 RazorAsgVal RazorAsgVal2 RazorAsgVal3 RazorAsgWrite RazorAsgWrite2
  RazorAsgMatch RazorAsgFits RazorAsgDoc RazorAsgMain BlockSpec BlockAuto BlockFits BlockMatch BlockMatch2 BlockMatch3 BlockValue BlockRows BlockMain BlockMain2 CallSpec CallAuto CallDoc CallFits CallMatch CallValue CallRows.
Import ListNotations.
Local Open Scope char_scope.

(** ** The document after the rows *)
Definition shown_as (p : str) (m : mark) (e : expr) (z : str) : str := p ++ action m (G2 e) ++ z.
Definition src80 (x : call_line) : str := match x with Called p m _ _ e _ z => shown_as p m e z | x => call_source x end.
Definition src142 (x : call_line) : str := match x with Shown p m _ E e _ z => if is_name E then shown_as p m e z else call_source x | x => src80 x end.
Definition src150 (x : call_line) : str := match x with Prose s => s | Shown p m _ _ e _ z | Called p m _ _ e _ z => shown_as p m e z end.
Lemma shown_shape : forall p m b E e c z, call_source (Shown p m b E e c z) = p ++ shown_match m b E c ++ z.
Proof. intros. cbn [call_source]. unfold shown_match. apply (f_equal (app p)). cbn [app]. apply (f_equal (cons "@")). rewrite <- !app_assoc. reflexivity. Qed.
Lemma called_shape : forall p m f A e c z, call_source (Called p m f A e c z) = p ++ call_match m f A c ++ z.
Proof. intros. cbn [call_source]. unfold call_match. apply (f_equal (app p)). cbn [app]. apply (f_equal (cons "@")). rewrite <- !app_assoc. reflexivity. Qed.

Section Paths.
Variable parse : str -> option expr.
Lemma behind_line : forall c bad z, text_behind c bad z -> ~ In "@" z /\ ~ In "010" z.
Proof. intros c bad z (Z & _). rewrite Forall_forall in Z. split; intros I; apply Z in I; apply (proj2 I); cbn; tauto. Qed.
Lemma shown_line : forall p m e c bad z, text_before p -> expr_ok e -> text_behind c bad z -> ~ In "@" (shown_as p m e z) /\ ~ In "010" (shown_as p m e z).
Proof.
  intros p m e c bad z (A & N & _) OK Z. apply parts_out; [split; assumption | destruct (plain_out _ (g2_plain e OK)); apply action_out; assumption | exact (behind_line c bad z Z)].
Qed.
Lemma path_0 : forall track x, call_ok parse x -> call_path true track true (call_source x).
Proof.
  intros track x H. destruct x as [s|p m b E e c z|p m f A e c z].
  - destruct H as [A N]. apply prose_path; assumption.
  - apply (shown_path true track true parse); [exact H | reflexivity].
  - apply (called_path true track true parse); [reflexivity | exact H].
Qed.
Lemma path_80 : forall x, call_ok parse x -> call_path false false true (src80 x).
Proof.
  intros x H. destruct x as [s|p m b E e c z|p m f A e c z]; cbn [src80].
  - destruct H as [A N]. apply prose_path; assumption.
  - apply (shown_path false false true parse); [exact H | reflexivity].
  - destruct H as (B & _ & _ & _ & _ & OK & Z). destruct (shown_line p m e c _ z B OK Z) as [A' N]. apply prose_path; assumption.
Qed.
Lemma path_142 : forall x, call_ok parse x -> call_path false false false (src142 x).
Proof.
  intros x H. destruct x as [s|p m b E e c z|p m f A e c z]; cbn [src142 src80].
  - destruct H as [A N]. apply prose_path; assumption.
  - destruct (is_name E) eqn:NM.
    + destruct H as (B & _ & _ & _ & _ & _ & _ & OK & Z). destruct (shown_line p m e c _ z B OK Z) as [A' N]. apply prose_path; assumption.
    + apply (shown_path false false false parse); [exact H | rewrite NM; discriminate].
  - destruct H as (B & _ & _ & _ & _ & OK & Z). destruct (shown_line p m e c _ z B OK Z) as [A' N]. apply prose_path; assumption.
Qed.
Lemma text_150 : forall x, call_ok parse x -> ~ In "@" (src150 x) /\ ~ In "010" (src150 x).
Proof.
  intros x H. destruct x as [s|p m b E e c z|p m f A e c z]; cbn [src150]; [exact H | |].
  - destruct H as (B & _ & _ & _ & _ & _ & _ & OK & Z). exact (shown_line p m e c _ z B OK Z).
  - destruct H as (B & _ & _ & _ & _ & OK & Z). exact (shown_line p m e c _ z B OK Z).
Qed.
Lemma esilent_row : forall calls track names ws r s, esilent calls track names ws r = true -> fits (edelta calls track names) $"P" s -> (forall w, In w ws -> contains w s = false) -> idle r s.
Proof. intros calls track names ws r s. exact (esilent_idle calls track names all_bytes 400 all_bytes_ok ws r s). Qed.

Variable beyond : N -> bool.
Variables words signs opers : list (str * str).
Variable mode : validation.
Context {P : PrintEnv}.
Hypothesis HW : Permutation words RazorWordsModel.reserved.
Hypothesis HS : Permutation signs symbols.
Hypothesis HO : Permutation opers operator_words.
Variable other : replacement -> parser -> str -> str.
Hypothesis HF : follows_code beyond words signs opers parse mode default_delims other.

Lemma step_80 : forall r l, c_re (r_re r) = call_re beyond -> c_names (r_re r) = short_names -> r_parser r = Some PExprSkip -> r_replace r = short_repl -> eforeign false false true (c_re (r_re r)) = true ->
  Forall (call_ok parse) l -> replace_step other (call_lines call_source l) r = call_lines src80 l.
Proof.
  intros r l RE RN RP RR FR H. unfold replace_step. rewrite RP. cbn [run_parser]. rewrite RE in FR. rewrite RE. apply calls_document; [apply at_empty; reflexivity | apply at_newline; reflexivity|].
  eapply Forall_impl; [|exact H]. clear H. intros x H. pose proof (path_80 x H) as P8.
  destruct x as [s|p m b E e c z|p m f A e c z]; [left; split; [reflexivity | exact (eforeign_skips false false true _ _ FR P8)] .. |].
  right. destruct H as (B & FO & T & ND & PE & OK & Z). exists p, (call_match m f A c), z, (action m (G2 e)).
  assert (VA : Forall value_char A) by (destruct T as (V & _); unfold call_text in V; apply Forall_app in V; destruct V as [_ V]; apply Forall_app in V; destruct V as [_ V]; apply Forall_app in V; apply V).
  split; [apply called_shape|]. split; [reflexivity|]. split; [apply at_skipped; [reflexivity | apply B]|]. split; [apply at_skipped; [reflexivity | apply (behind_line c _ z Z)]|].
  split; [discriminate|]. split; [reflexivity|]. intros pv u EN. destruct (call_lands beyond m f A c _ z u pv FO VA Z EN) as (pv' & Q). exists pv', (call_groups m f A). split; [exact Q|].
  apply (shown_value beyond words signs opers parse mode HW HS HO other HF r short_names short_parts m (call_text f A) e (call_match m f A c) (call_groups m f A)); try assumption; try (destruct m; reflexivity).
  - left. reflexivity.
  - intro v. rewrite RR. apply short_template.
  - discriminate.
  - rewrite RE. assert (Z0 : text_behind c ["["; "."] []).
    { split; [constructor|]. destruct Z as (_ & Z). destruct c as [b|]; [exact Z|]. split; [intros b r0 _ X; destruct b; discriminate X | intros x y X; discriminate X]. }
    pose proof (call_lands beyond m f A c _ [] [] None FO VA Z0 (or_introl eq_refl)) as L. cbn [app] in L. rewrite app_nil_r in L. destruct L as (q & L). exists q. exact L.
  - intro q. rewrite RE. reflexivity.
Qed.
Lemma empty_behind : forall c bad z, text_behind c bad z -> text_behind c bad [].
Proof. intros c bad z (_ & Z). split; [constructor|]. destruct c as [b|]; [exact Z|]. split; [intros b r0 _ X; destruct b; discriminate X | intros x y X; discriminate X]. Qed.
Lemma step_142 : forall r l, c_re (r_re r) = name_re beyond -> c_names (r_re r) = short_names -> r_parser r = Some PExprSkip -> r_replace r = short_repl -> eforeign false false false (c_re (r_re r)) = true ->
  Forall (call_ok parse) l -> replace_step other (call_lines src80 l) r = call_lines src142 l.
Proof.
  intros r l RE RN RP RR FR H. unfold replace_step. rewrite RP. cbn [run_parser]. rewrite RE in FR. rewrite RE. apply calls_document; [apply at_empty; reflexivity | apply at_newline; reflexivity|].
  eapply Forall_impl; [|exact H]. clear H. intros x H. pose proof (path_142 x H) as P8.
  assert (K : src80 x = src142 x -> call_keeps (name_re beyond) src80 src142 x) by (intros E; split; [exact E | rewrite E; exact (eforeign_skips false false false _ _ FR P8)]).
  destruct x as [s|p m b E e c z|p m f A e c z]; try (left; apply K; reflexivity).
  destruct (is_name E) eqn:NM; [|left; apply K; cbn [src142 src80]; rewrite NM; reflexivity].
  right. destruct H as (B & IM & FB & T & BA & LB & PE & OK & Z). exists p, (shown_match m b E c), z, (action m (G2 e)).
  split; [apply shown_shape|]. split; [cbn [src142]; rewrite NM; reflexivity|]. split; [apply at_skipped; [reflexivity | apply B]|]. split; [apply at_skipped; [reflexivity | apply (behind_line c _ z Z)]|].
  split; [discriminate|]. split; [reflexivity|]. intros pv u EN. destruct (named_lands beyond m b E c _ z u pv FB NM Z EN) as (pv' & Q). exists pv', (name_groups m E). split; [exact Q|].
  apply (shown_value beyond words signs opers parse mode HW HS HO other HF r short_names short_parts m E e (shown_match m b E c) (name_groups m E)); try assumption; try (destruct m; reflexivity).
  - left. reflexivity.
  - intro v. rewrite RR. apply short_template.
  - discriminate.
  - rewrite RE. pose proof (named_lands beyond m b E c _ [] [] None FB NM (empty_behind c _ z Z) (or_introl eq_refl)) as L. cbn [app] in L. rewrite app_nil_r in L. destruct L as (q & L). exists q. exact L.
  - intro q. rewrite RE. reflexivity.
Qed.
Lemma step_150 : forall r a l, c_re (r_re r) = shown_re a -> c_names (r_re r) = long_names -> r_parser r = Some PExprSkip -> r_replace r = long_repl -> dead all_bytes adelta2 [$"E"] (RSeq (RGroup 5 a) rest_of_value) = true ->
  Forall (call_ok parse) l -> replace_step other (call_lines src142 l) r = call_lines src150 l.
Proof.
  intros r a l RE RN RP RR FR H. unfold replace_step. rewrite RP. cbn [run_parser]. rewrite RE. apply calls_document; [apply at_empty; reflexivity | apply at_newline; reflexivity|].
  eapply Forall_impl; [|exact H]. clear H. intros x H. pose proof (text_150 x H) as [TA _].
  assert (K : src142 x = src150 x -> call_keeps (shown_re a) src142 src150 x) by (intros E; split; [exact E | rewrite E; apply skipped_skips, at_skipped; [reflexivity | exact TA]]).
  destruct x as [s|p m b E e c z|p m f A e c z]; try (left; apply K; reflexivity).
  destruct (is_name E) eqn:NM; [left; apply K; cbn [src142 src150]; rewrite NM; reflexivity|].
  right. destruct H as (B & IM & FB & T & BA & LB & PE & OK & Z). exists p, (shown_match m b E c), z, (action m (G2 e)).
  assert (HA : forall v u t, ~ In ")" v -> ~ In "010" v -> ends u -> ~ eats (RSeq (RGroup 5 a) rest_of_value) (E ++ $")" ++ v ++ u) t).
  { intros v u t NP NN EN. apply (dead_sound all_bytes all_bytes_ok adelta2 [$"E"] _ $"E"); [exact FR | left; reflexivity|]. apply E_fits; [apply T | exact NP | exact NN | exact EN]. }
  split; [cbn [src142]; rewrite NM; apply shown_shape|]. split; [reflexivity|]. split; [apply at_skipped; [reflexivity | apply B]|]. split; [apply at_skipped; [reflexivity | apply (behind_line c _ z Z)]|].
  split; [discriminate|]. split; [reflexivity|]. intros pv u EN. destruct (shown_lands a m b E c _ z u pv HA FB T Z EN) as (pv' & Q). exists pv', (shown_groups m E). split; [exact Q|].
  apply (shown_value beyond words signs opers parse mode HW HS HO other HF r long_names long_parts m E e (shown_match m b E c) (shown_groups m E)); try assumption; try (destruct m; reflexivity).
  - right. reflexivity.
  - intro v. rewrite RR. apply long_template.
  - discriminate.
  - rewrite RE. pose proof (shown_lands a m b E c _ [] [] None HA FB T (empty_behind c _ z Z) (or_introl eq_refl)) as L. cbn [app] in L. rewrite app_nil_r in L. destruct L as (q & L). exists q. exact L.
  - intro q. rewrite RE. reflexivity.
Qed.
End Paths.
