(** Checks of the conditions of razor documents with calls, for the examples. *)
From Coq Require Import String Ascii List NArith Bool Lia.
From Verif Require Import GoStr GoStrFacts TemplateModel TemplateSpec TemplateProofs RazorExprModel RazorRefSpec RazorRefAuto RazorRefProofs RazorAsgSpec RazorAsgSample BlockSpec CallSpec.
Import ListNotations.
Local Open Scope char_scope.

Fixpoint depth_ok (n : nat) (s : str) : bool :=
  match s with
  | [] => true
  | c :: s => if Ascii.eqb c "(" then depth_ok (S n) s else if Ascii.eqb c ")" then match n with 0 => false | S n => depth_ok n s end else depth_ok n s
  end.
Lemma depth_sound : forall s n, depth_ok n s = true -> forall a r, s = a ++ r -> count ")" a <= n + count "(" a.
Proof.
  induction s as [|c s IH]; intros n H a r E; [symmetry in E; apply app_eq_nil in E; destruct E as [-> _]; cbn; lia|]. destruct a as [|d a]; [cbn; lia|]. cbn [app] in E. injection E as <- E. cbn [depth_ok] in H.
  unfold count in *. cbn [count_occ]. destruct (Ascii.eqb_spec c "(") as [->|N1].
  - destruct (ascii_dec "(" "("); [|contradiction]. destruct (ascii_dec "(" ")") as [X|_]; [discriminate X|]. specialize (IH _ H a r E). lia.
  - destruct (ascii_dec c "(") as [X|_]; [contradiction|]. destruct (Ascii.eqb_spec c ")") as [->|N2].
    + destruct (ascii_dec ")" ")"); [|contradiction]. destruct n as [|n]; [discriminate H|]. specialize (IH _ H a r E). lia.
    + destruct (ascii_dec c ")") as [X|_]; [contradiction|]. exact (IH _ H a r E).
Qed.
Lemma balanced_sound : forall s, depth_ok 0 s = true -> balanced s.
Proof. intros s H a r E. exact (depth_sound s 0 H a r E). Qed.
Definition no_char (c : ascii) (s : str) : bool := negb (existsb (Ascii.eqb c) s).
Lemma no_char_sound : forall c s, no_char c s = true -> ~ In c s.
Proof. intros c s H I. apply negb_true_iff in H. assert (X : existsb (Ascii.eqb c) s = true) by (apply existsb_exists; exists c; split; [exact I | apply Ascii.eqb_refl]). congruence. Qed.
Definition before_okb (p : str) : bool := no_char "@" p && no_char "010" p && negb (Ascii.eqb (last p "a") """").
Lemma before_sound : forall p, before_okb p = true -> text_before p.
Proof.
  intros p H. apply andb_true_iff in H. destruct H as [H H3]. apply andb_true_iff in H. destruct H as [H1 H2]. split; [exact (no_char_sound _ _ H1)|]. split; [exact (no_char_sound _ _ H2)|]. intros a ->. rewrite last_last in H3. discriminate H3.
Qed.
Fixpoint semi_first (z : str) : bool := match z with c :: z => Ascii.eqb c ";" || (is_blank c && semi_first z) | [] => false end.
Lemma semi_sound : forall z, semi_first z = false -> forall b r, Forall blank_char b -> z <> b ++ ";" :: r.
Proof.
  intros z H b. revert z H. induction b as [|c b IH]; intros z H r F E; subst z; cbn [app semi_first] in H; [discriminate H|]. inversion F as [|? ? C F']; subst. apply orb_false_iff in H. destruct H as [_ H]. apply is_blank_iff in C. rewrite C in H. cbn [andb] in H. exact (IH _ H r F' eq_refl).
Qed.
Definition behind_okb (c : option str) (bad : list ascii) (z : str) : bool :=
  forallb (fun x => (N_of_ascii x <? 128)%N && no_char x [")"; "@"; "010"]) z &&
  match c with Some b => forallb is_blank b | None => negb (semi_first z) && match z with x :: _ => no_char x bad | [] => true end end.
Lemma behind_sound : forall c bad z, behind_okb c bad z = true -> text_behind c bad z.
Proof.
  intros c bad z H. apply andb_true_iff in H. destruct H as [H1 H2]. split.
  - apply Forall_forall. intros x I. rewrite forallb_forall in H1. apply H1, andb_true_iff in I. destruct I as [I1 I2]. split; [unfold ascii_char; apply N.ltb_lt; exact I1 | exact (no_char_sound _ _ I2)].
  - destruct c as [b|]; [exact (blanks_sound b H2)|]. apply andb_true_iff in H2. destruct H2 as [H2 H3]. split; [apply semi_sound; apply negb_true_iff; exact H2|]. intros x r ->. exact (no_char_sound _ _ H3).
Qed.
Definition function_okb (f : str) : bool :=
  match f with c :: r => is_alpha c && forallb is_word r | [] => false end && negb (has_prefix $"else" f) && negb (has_prefix $"end" f) && negb (existsb (str_eqb f) (reserved ++ indenters)).
Lemma function_sound : forall f, function_okb f = true -> function_ok f.
Proof.
  intros f H. apply andb_true_iff in H. destruct H as [H H4]. apply andb_true_iff in H. destruct H as [H H3]. apply andb_true_iff in H. destruct H as [H1 H2].
  assert (P : forall p, negb (has_prefix p f) = true -> ~ prefix_of p f) by (intros p N (r & E); apply negb_true_iff in N; assert (X : has_prefix p f = true) by (rewrite E; apply has_prefix_app); congruence).
  assert (N : ~ In f (reserved ++ indenters)) by (intros I; apply negb_true_iff in H4; assert (X : existsb (str_eqb f) (reserved ++ indenters) = true) by (apply existsb_exists; exists f; split; [exact I | apply str_eqb_refl]); congruence).
  split; [|intros I; apply N; apply in_or_app; right; exact I]. split; [|split; [exact (P _ H2) | split; [exact (P _ H3) | intros I; apply N; apply in_or_app; left; exact I]]].
  destruct f as [|c r]; [discriminate H1|]. apply andb_true_iff in H1. destruct H1 as [A W]. exists c, r. split; [reflexivity|]. split; [apply is_alpha_iff; exact A|]. apply Forall_forall. intros x I. rewrite forallb_forall in W. apply is_word_iff. exact (W x I).
Qed.
Lemma last_sound : forall E : str, negb (is_blank (last E "a")) = true -> forall a x, E = a ++ [x] -> ~ blank_char x.
Proof. intros E H a x -> X. rewrite last_last in H. apply is_blank_iff in X. rewrite X in H. discriminate H. Qed.
Lemma no_holds : forall s w, contains w s = false -> ~ holds s w.
Proof. intros s w H. apply holds_not. exact H. Qed.
