(** Messages of errors are read as they are written. *)
From Coq Require Import String Ascii List ZArith NArith Bool Lia ZifyBool ZifyN.
From Verif Require Import GoStr GoStrFacts Utf8 TemplateModel TemplateSpec TemplateProofs ProcessModel TextModel ReModel ReSyntaxModel RazorTableModel RazorAssignModel ReSound RazorRefMain RazorAsgGo RazorAsgMatch ErrorModel ErrorSpec ErrorMatch.
Import ListNotations.
Local Open Scope char_scope.

Lemma ascii_low : forall c, (N_of_ascii c < 128)%N -> low c = true.
Proof. intros c H. unfold low. apply N.ltb_lt. exact H. Qed.
Lemma ascii_lows : forall s, ascii_text s -> lows s.
Proof. intros s H. eapply Forall_impl; [|exact H]. exact ascii_low. Qed.
Lemma group_inner : forall n r w t k g h pv T G0,
  (forall k', (forall pv', lands (k' (pv', t) h) T G0) -> lands (rmatch r (pv, w ++ t) g k') T G0) ->
  (forall pv', lands (k (pv', t) ((n, w) :: h)) T G0) -> lands (rmatch (RGroup n r) (pv, w ++ t) g k) T G0.
Proof.
  intros n r w t k g h pv T G0 H K. change (lands (rmatch r (pv, w ++ t) g (fun p' g' => k p' ((n, taken (pv, w ++ t) p') :: g'))) T G0).
  apply H. intro pv'. rewrite taken_app. apply K.
Qed.
Lemma group_greedy : forall n cl k g T G0 u v pv, all_in cl u -> lows v -> (forall x y pv' g', v = x ++ y -> x <> [] -> k (pv', y) g' = None) -> (forall pv', lands (k (pv', v) ((n, u) :: g)) T G0) ->
  lands (rmatch (RGroup n (RStar true (RRune cl))) (pv, u ++ v) g k) T G0.
Proof.
  intros n cl k g T G0 u v pv A L H K. change (lands (rmatch (RStar true (RRune cl)) (pv, u ++ v) g (fun p' g' => k p' ((n, taken (pv, u ++ v) p') :: g'))) T G0).
  apply greedy_lands; [exact A | exact L | intros x y pv' E NE; apply (H x y pv' _ E NE) | intros pv'; rewrite taken_app; apply K].
Qed.
Lemma group_lazy : forall n cl k g T G0 v u pv, all_in cl u -> (forall x y pv' g', u = x ++ y -> y <> [] -> k (pv', y ++ v) g' = None) -> (forall pv', lands (k (pv', v) ((n, u) :: g)) T G0) ->
  lands (rmatch (RGroup n (RStar false (RRune cl))) (pv, u ++ v) g k) T G0.
Proof.
  intros n cl k g T G0 v u pv A H K. change (lands (rmatch (RStar false (RRune cl)) (pv, u ++ v) g (fun p' g' => k p' ((n, taken (pv, u ++ v) p') :: g'))) T G0).
  apply lazy_lands; [exact A | intros x y pv' E NE; apply (H x y pv' _ E NE) | intros pv'; rewrite taken_app; apply K].
Qed.
Lemma digit_in : forall c, (48 <= N_of_ascii c <= 57)%N -> low c = true /\ in_class c_digit (N_of_ascii c) = true.
Proof. intros c H. split; [apply ascii_low; lia|]. cbn [c_digit in_class]. apply andb_true_iff. split; apply N.leb_le; lia. Qed.
Lemma number_lands : forall w t k g T G0 pv, number_text w -> stops c_digit t -> (forall pv', lands (k (pv', t) g) T G0) -> lands (rmatch digits1 (pv, w ++ t) g k) T G0.
Proof.
  intros w t k g T G0 pv [NE F] ST K. destruct w as [|c w]; [contradiction|]. inversion F as [|? ? H1 H2]; subst. destruct (digit_in c H1). unfold digits1, digit1.
  apply plus_lands; [exact ST | assumption | assumption | eapply Forall_impl; [|exact H2]; exact digit_in | exact K].
Qed.
Definition place_groups (file line : str) (column : option str) : groups :=
  (1, location file line column) :: match column with Some c => [(4, $":" ++ c); (5, c)] | None => [] end ++ [(3, line); (2, file)].
Lemma colon_prefix : forall x y z, ~ In ":" (x ++ y) -> y <> [] -> has_prefix $":" (y ++ z) = false.
Proof.
  intros x y z N NE. destruct y as [|c y]; [contradiction|]. cbn [app]. change (has_prefix $":" (c :: y ++ z)) with (Ascii.eqb ":" c && true). destruct (Ascii.eqb_spec ":" c) as [<-|_]; [|reflexivity].
  exfalso. apply N. apply in_or_app. right. left. reflexivity.
Qed.
Definition column_ok (column : option str) : Prop := match column with Some c => number_text c | None => True end.
Lemma place_lands : forall cl file line column t k T G0 pv, all_in cl file -> ~ In ":" file -> number_text line -> column_ok column ->
  (forall pv', lands (k (pv', t) (place_groups file line column)) T G0) -> lands (rmatch (place_re cl) (pv, location file line column ++ t) [] k) T G0.
Proof.
  intros cl file line column t k T G0 pv A NC NL CO K. unfold place_re. eapply group_inner; [|exact K].
  intros k' K'. unfold location. rewrite <- !app_assoc. apply seq_lands.
  apply group_lazy; [exact A | |].
  { intros x y pv' g' E NE. apply lits_none. apply (colon_prefix x); [rewrite <- E; exact NC | exact NE]. }
  intros p1. apply lits_lands. intros p2. apply seq_lands.
  assert (ST : forall s, stops c_digit (":" :: s)) by (intros s; split; reflexivity).
  assert (S1 : stops c_digit ((match column with Some c => $":" ++ c | None => [] end) ++ $": " ++ t)) by (destruct column; apply ST).
  eapply group_inner; [intros k2 K2; apply number_lands; [exact NL | exact S1 | exact K2]|]. intros p3. apply seq_lands.
  destruct column as [c|].
  - apply opt_lands. rewrite <- app_assoc. rewrite (app_assoc $":" c). eapply group_inner.
    + intros k2 K2. rewrite <- app_assoc. apply lits_lands. intros p4. eapply group_inner; [intros k3 K3; apply number_lands; [exact CO | apply ST | exact K3]|]. exact K2.
    + intros p4. apply lit_lands; [discriminate|]. intros p5. exact (K' p5).
  - apply opt_skip; [reflexivity|]. cbn [app]. apply lit_lands; [discriminate|]. intros p4. exact (K' p4).
Qed.
Lemma prefix_lands : forall cl r file line column t T G0 pv, all_in cl file -> ~ In ":" file -> number_text line -> column_ok column ->
  (forall pv', lands (rmatch r (pv', t) (place_groups file line column) finish) T G0) ->
  lands (rmatch (prefix_re cl r) (pv, $"template: " ++ location file line column ++ t) [] finish) T G0.
Proof.
  intros cl r file line column t T G0 pv A NC NL CO K. unfold prefix_re. apply lits_lands. intros p1. apply seq_lands. apply place_lands; assumption.
Qed.
(** ** Texts *)
Lemma any_in : forall s, ascii_text s -> all_in anyc s.
Proof. intros s H. eapply Forall_impl; [|exact H]. intros c L. split; [apply ascii_low; exact L|]. cbn [in_class anyc CNone]. destruct (N.leb_spec 1 (N_of_ascii c)), (N.leb_spec (N_of_ascii c) 0); try reflexivity; lia. Qed.
Lemma dot_in : forall s, ascii_text s -> ~ In "010" s -> all_in dot s.
Proof.
  intros s H N. apply Forall_forall. intros c I. unfold ascii_text in H. rewrite Forall_forall in H. split; [apply ascii_low; exact (H c I)|]. cbn [dot in_class c_char].
  destruct (N.leb_spec 10 (N_of_ascii c)) as [A|A]; [|reflexivity]. destruct (N.leb_spec (N_of_ascii c) 10) as [B|B]; [|reflexivity]. exfalso. apply N.
  replace "010" with c; [exact I|]. rewrite <- (ascii_N_embedding c). replace (N_of_ascii c) with 10%N by lia. reflexivity.
Qed.
(** ** A separator *)
(** No end of it is a start of it. *)
Definition clean (sep : str) : Prop := forallb (fun i => negb (str_eqb (skipn i sep) (firstn (length sep - i) sep))) (seq 1 (length sep - 1)) = true.
Lemma app_cut : forall A (a b c d : list A), a ++ b = c ++ d -> (exists x, c = a ++ x /\ b = x ++ d) \/ (exists x, a = c ++ x /\ d = x ++ b).
Proof.
  intros A. induction a as [|y a IH]; intros b c d E; [left; exists c; split; [reflexivity | exact E]|]. destruct c as [|z c]; [right; exists (y :: a); split; [reflexivity | symmetry; exact E]|].
  injection E as <- E. destruct (IH _ _ _ E) as [(x & -> & ->)|(x & -> & ->)]; [left | right]; exists x; split; reflexivity.
Qed.
Lemma sep_inside : forall sep x s b z, clean sep -> sep = x ++ s -> x <> [] -> s <> [] -> s ++ b <> sep ++ z.
Proof.
  intros sep x s b z C E NX NS H. unfold clean in C. rewrite forallb_forall in C.
  assert (LX : length x <> 0) by (destruct x; [contradiction | discriminate]). assert (LS : length s <> 0) by (destruct s; [contradiction | discriminate]).
  assert (LE : length sep = length x + length s) by (rewrite E; apply app_length).
  specialize (C (length x) ltac:(apply in_seq; lia)). apply negb_true_iff in C. rewrite <- not_true_iff_false in C. apply C. apply str_eqb_eq.
  assert (SK : skipn (length x) sep = s) by (rewrite E, skipn_app, skipn_all, Nat.sub_diag; reflexivity). replace (length sep - length x) with (length s) by lia. rewrite SK.
  assert (F : firstn (length s) (s ++ b) = firstn (length s) (sep ++ z)) by (rewrite H; reflexivity).
  rewrite firstn_app, firstn_all, Nat.sub_diag in F. cbn [firstn] in F. rewrite app_nil_r in F. rewrite firstn_app in F. replace (length s - length sep) with 0 in F by lia. cbn [firstn] in F. rewrite app_nil_r in F. exact F.
Qed.
Lemma sep_once : forall sep rest x y, clean sep -> ~ holds rest sep -> sep ++ rest = x ++ y -> x <> [] -> has_prefix sep y = false.
Proof.
  intros sep rest x y C H E NX. destruct (has_prefix sep y) eqn:P; [|reflexivity]. exfalso. apply has_prefix_iff in P. destruct P as (z & ->).
  destruct (app_cut _ _ _ _ _ E) as [(u & -> & E2)|(u & E1 & E2)].
  - apply H. exists u, z. exact E2.
  - destruct u as [|c u]; [apply H; exists [], z; cbn [app] in E2 |- *; symmetry; exact E2|]. exact (sep_inside sep x (c :: u) rest z C E1 NX ltac:(discriminate) (eq_sym E2)).
Qed.
Lemma sep_unique : forall sep P X A B, clean sep -> ~ holds P sep -> ~ holds X sep -> P ++ sep ++ X = A ++ sep ++ B -> X = B.
Proof.
  intros sep P X A B C HP HX E. destruct (app_cut _ _ _ _ _ E) as [(u & -> & E2)|(u & -> & E2)].
  - destruct u as [|c u]; [cbn [app] in E2; apply app_inv_head in E2; exact E2|]. exfalso.
    pose proof (sep_once sep X (c :: u) (sep ++ B) C HX E2 ltac:(discriminate)) as F. rewrite has_prefix_app in F. discriminate.
  - destruct (app_cut _ _ _ _ _ E2) as [(v & -> & E4)|(v & E3 & E4)].
    + exfalso. apply HP. exists A, v. reflexivity.
    + destruct u as [|c u]; [cbn [app] in E2; apply app_inv_head in E2; symmetry; exact E2|].
      exfalso. destruct v as [|d v]; [apply HP; exists A, []; rewrite app_nil_r; rewrite E3, app_nil_r; reflexivity|].
      exact (sep_inside sep (c :: u) (d :: v) B X C E3 ltac:(discriminate) ltac:(discriminate) (eq_sym E4)).
Qed.
(** ** Expressions that cannot match *)
Lemma eats_lits : forall w r s s', eats (Lits w r) s s' -> exists s1, s = w ++ s1 /\ eats r s1 s'.
Proof.
  induction w as [|c w IH]; intros r s s' H; [exists s; split; [reflexivity | exact H]|]. cbn [Lits fold_right] in H. inversion H as [| | |? ? ? s1 ? E1 E2| | | | | | | | | |]; subst. inversion E1 as [|f d t F| | | | | | | | | | | |]; subst.
  apply Ascii.eqb_eq in F. subst d. destruct (IH _ _ _ E2) as (x & -> & X). exists x. split; [reflexivity | exact X].
Qed.
Lemma eats_seq : forall a b s s', eats (RSeq a b) s s' -> exists u s1, s = u ++ s1 /\ eats a s s1 /\ eats b s1 s'.
Proof. intros a b s s' H. inversion H as [| | |? ? ? s1 ? E1 E2| | | | | | | | | |]; subst. destruct (eats_prefix _ _ _ E1) as (u & ->). exists u, s1. repeat split; assumption. Qed.
Lemma eats_exec : forall r s s', eats (exec_re r) s s' -> (exists a b, s = a ++ $">: " ++ b /\ eats r b s') /\ holds s $"executing """.
Proof.
  intros r s s' H. unfold exec_re, prefix_re in H. apply eats_seq in H. destruct H as (u0 & s0 & -> & _ & H). apply eats_lits in H. destruct H as (s1 & -> & H).
  apply eats_seq in H. destruct H as (u2 & s2 & -> & _ & H). apply eats_lits in H. destruct H as (s3 & -> & H). apply eats_seq in H. destruct H as (u4 & s4 & -> & _ & H).
  apply eats_lits in H. destruct H as (s5 & -> & H). apply eats_seq in H. destruct H as (u6 & s6 & -> & _ & H). apply eats_lits in H. destruct H as (s7 & -> & H).
  split.
  - exists (u0 ++ $"template: " ++ u2 ++ $"executing """ ++ u4 ++ $""" at <" ++ u6), s7. split; [|exact H]. rewrite !app_assoc. reflexivity.
  - exists (u0 ++ $"template: " ++ u2). eexists. rewrite <- !app_assoc. reflexivity.
Qed.
Lemma holds_suffix : forall u t w, holds t w -> holds (u ++ t) w.
Proof. intros u t w (a & b & ->). exists (u ++ a), b. rewrite !app_assoc. reflexivity. Qed.
Lemma exec_none : forall (K : str -> Prop) r n pv P X, ~ holds P $">: " -> ~ holds X $">: " -> ~ K X -> (forall s s', eats r s s' -> K s) ->
  search n (exec_re r) (pv, P ++ $">: " ++ X) = None.
Proof.
  intros K r n pv P X HP HX W R. apply search_none. intros u t E t' H. cbn [snd] in E. apply eats_exec in H. destruct H as [(a & b & -> & H) _].
  assert (C : clean $">: ") by reflexivity. rewrite (app_assoc u) in E.
  pose proof (sep_unique $">: " P X (u ++ a) b C HP HX E) as <-. exact (W (R _ _ H)).
Qed.
Lemma eats_lit : forall w s s', w <> [] -> eats (lit w) s s' -> s = w ++ s'.
Proof.
  induction w as [|c w IH]; intros s s' NE H; [contradiction|]. destruct w as [|d w].
  - cbn [lit] in H. inversion H as [|f x t F| | | | | | | | | | | |]; subst. apply Ascii.eqb_eq in F. subst x. reflexivity.
  - change (lit (c :: d :: w)) with (RSeq (RByte (Ascii.eqb c)) (lit (d :: w))) in H. inversion H as [| | |? ? ? s1 ? E1 E2| | | | | | | | | |]; subst.
    inversion E1 as [|f x t F| | | | | | | | | | | |]; subst. apply Ascii.eqb_eq in F. subst x. rewrite (IH s1 s' ltac:(discriminate) E2). reflexivity.
Qed.
Lemma parse_none : forall w r n pv s, ~ holds s w -> search n (prefix_re dot (RGroup 6 (Lits w r))) (pv, s) = None.
Proof.
  intros w r n pv s H. apply search_none. intros u t E t' X. cbn [snd] in E. subst s. unfold prefix_re in X. apply eats_lits in X. destruct X as (s1 & -> & X).
  apply eats_seq in X. destruct X as (v & s2 & -> & _ & X). inversion X as [| | | | | | | |? ? ? ? X1| | | | |]; subst. apply eats_lits in X1. destruct X1 as (s3 & -> & _).
  apply H. exists (u ++ $"template: " ++ v), s3. rewrite <- !app_assoc. reflexivity.
Qed.
Lemma exec_none_parse : forall r n pv s, ~ holds s $"executing """ -> search n (exec_re r) (pv, s) = None.
Proof.
  intros r n pv s H. apply search_none. intros u t E t' X. cbn [snd] in E. subst s. apply eats_exec in X. destruct X as [_ X]. apply H. apply holds_suffix. exact X.
Qed.
