(** The expressions that read messages of errors. *)
From Coq Require Import String Ascii List ZArith NArith Bool Lia ZifyBool ZifyN.
From Verif Require Import GoStr GoStrFacts Utf8 TemplateModel TemplateSpec TemplateProofs ProcessModel TextModel ReModel ReSyntaxModel RazorTableModel RazorAssignModel ReSound RazorRefMain RazorAsgGo RazorAsgMatch ErrorModel.
Import ListNotations.
Local Open Scope char_scope.

Definition Lits (w : str) (r : re) : re := fold_right (fun c r => RSeq (RByte (Ascii.eqb c)) r) r w.
Definition digit1 : re := RRune c_digit.
Definition digits1 : re := RSeq digit1 (RStar true digit1).
Definition dot : rclass := CNot (c_char 10).
Definition anyc : rclass := CNot CNone.
Definition place_re (c : rclass) : re :=
  RGroup 1 (RSeq (RGroup 2 (RStar false (RRune c))) (Lits $":" (RSeq (RGroup 3 digits1) (RSeq (ROpt (RGroup 4 (Lits $":" (RGroup 5 digits1)))) (lit $": "))))).
Definition prefix_re (c : rclass) (r : re) : re := Lits $"template: " (RSeq (place_re c) r).
Definition exec_re (r : re) : re :=
  RSeq RBot (prefix_re anyc (Lits $"executing """ (RSeq (RStar true (RRune anyc)) (Lits $""" at <" (RSeq (RGroup 6 (RStar true (RRune anyc))) (Lits $">: " r)))))).
Section Match.
Variable beyond : N -> bool.
Notation comp := (compiled_of beyond).
Lemma line_re : c_re (comp line_prefix) = Lits $"template: " (place_re dot).
Proof. vm_compute. reflexivity. Qed.
Definition star_of (c : rclass) : re := RStar true (RRune c).
Lemma errors_re : map (fun s => c_re (comp s)) template_errors =
  [exec_re (Lits $"map has no entry for key """ (RSeq (RGroup 7 (star_of anyc)) (lit $"""")));
   exec_re (Lits $"error calling " (RSeq (RGroup 7 (RAlt (lit $"raise") (lit $"assert"))) (Lits $": " (RGroup 8 (star_of anyc)))));
   exec_re (RGroup 7 (star_of anyc));
   prefix_re dot (RGroup 6 (Lits $"undefined variable """ (RSeq (RGroup 7 (star_of dot)) (lit $""""))));
   prefix_re dot (RGroup 6 (Lits $"unclosed action started at " (RSeq (star_of dot) (Lits $":" (RGroup 7 digits1)))));
   prefix_re dot (RGroup 6 (star_of dot))].
Proof. vm_compute. reflexivity. Qed.
Lemma errors_names : map (fun s => c_names (comp s)) template_errors =
  let base := [($"column", 5); ($"line", 3); ($"file", 2); ($"location", 1)] in
  [($"key", 7) :: ($"code", 6) :: base; ($"message", 8) :: ($"code", 6) :: base; ($"error", 7) :: ($"code", 6) :: base; ($"value", 7) :: ($"error", 6) :: base; ($"actual_line", 7) :: ($"error", 6) :: base; ($"error", 6) :: base].
Proof. vm_compute. reflexivity. Qed.
End Match.

(** ** Where matches land *)
Lemma lits_lands : forall w r t k g T G0 pv, (forall pv', lands (rmatch r (pv', t) g k) T G0) -> lands (rmatch (Lits w r) (pv, w ++ t) g k) T G0.
Proof.
  induction w as [|c w IH]; intros r t k g T G0 pv H; [apply H|]. cbn [Lits fold_right app rmatch snd]. rewrite Ascii.eqb_refl. apply (IH r t k g T G0). exact H.
Qed.
Lemma lits_none : forall w r s (k : place -> groups -> option (place * groups)) g pv, has_prefix w s = false -> rmatch (Lits w r) (pv, s) g k = None.
Proof.
  induction w as [|c w IH]; intros r s k g pv H; [discriminate|]. cbn [Lits fold_right rmatch snd]. destruct s as [|d s]; [reflexivity|]. cbn [has_prefix] in H.
  destruct (Ascii.eqb_spec c d) as [<-|NE]; [|reflexivity]. cbn [andb] in H. apply (IH r s k g). exact H.
Qed.
Lemma lit_lands : forall w t k g T G0 pv, w <> [] -> (forall pv', lands (k (pv', t) g) T G0) -> lands (rmatch (lit w) (pv, w ++ t) g k) T G0.
Proof.
  induction w as [|c w IH]; intros t k g T G0 pv NE H; [contradiction|]. destruct w as [|d w].
  - cbn [lit app rmatch snd]. rewrite Ascii.eqb_refl. apply H.
  - change (lit (c :: d :: w)) with (RSeq (RByte (Ascii.eqb c)) (lit (d :: w))). cbn [app rmatch snd]. rewrite Ascii.eqb_refl. apply IH; [discriminate | exact H].
Qed.
Lemma opt_lands : forall a p g k T G0, lands (rmatch a p g k) T G0 -> lands (rmatch (ROpt a) p g k) T G0.
Proof. intros a p g k T G0 (q & Q). exists q. cbn [ROpt rmatch]. rewrite Q. reflexivity. Qed.
Lemma opt_skip : forall a p g (k : place -> groups -> option (place * groups)) T G0, rmatch a p g k = None -> lands (k p g) T G0 -> lands (rmatch (ROpt a) p g k) T G0.
Proof. intros a p g k T G0 N (q & Q). exists q. cbn [ROpt rmatch]. rewrite N. exact Q. Qed.

Definition star_m (cl : rclass) := fun (p : place) (g : groups) (k : place -> groups -> option (place * groups)) => rmatch (RRune cl) p g k.
Lemma loop_none : forall b cl k g n v pv, lows v -> (forall x y pv', v = x ++ y -> k (pv', y) g = None) -> star_loop b (star_m cl) k n (pv, v) g = None.
Proof.
  intros b cl k g. induction n as [|n IH]; intros v pv L H; [exact (H [] v pv eq_refl)|]. cbn [star_loop].
  assert (M : rmatch (RRune cl) (pv, v) g (fun p' g' => if Nat.ltb (length (snd p')) (length (snd (pv, v))) then star_loop b (star_m cl) k n p' g' else None) = None).
  { destruct v as [|c v]; [reflexivity|]. inversion L as [|? ? LC LV]; subst. rewrite rune_low by exact LC. destruct (in_class cl (N_of_ascii c)); [|reflexivity]. cbn [snd].
    destruct (Nat.ltb (length v) (length (c :: v))); [|reflexivity]. apply IH; [exact LV|]. intros x y pv' E. apply (H (c :: x)). rewrite E. reflexivity. }
  pose proof (H [] v pv eq_refl) as K0. destruct b; [exact (eq_trans (f_equal (fun z => match z with Some x => Some x | None => k (pv, v) g end) M) K0)|].
  match type of M with ?y = None => exact (eq_trans (f_equal (fun z => match z with Some x => Some x | None => y end) K0) M) end.
Qed.
Definition all_in (cl : rclass) (s : str) : Prop := Forall (fun c => low c = true /\ in_class cl (N_of_ascii c) = true) s.
Lemma greedy_loop : forall cl k g T G0 v, lows v -> (forall x y pv', v = x ++ y -> x <> [] -> k (pv', y) g = None) -> (forall pv', lands (k (pv', v) g) T G0) ->
  forall u n pv, all_in cl u -> length (u ++ v) <= n -> lands (star_loop true (star_m cl) k n (pv, u ++ v) g) T G0.
Proof.
  intros cl k g T G0 v LV H K. induction u as [|c u IH]; intros n pv A LN.
  - cbn [app] in *. destruct n as [|n]; [apply K|]. cbn [star_loop].
    assert (M : rmatch (RRune cl) (pv, v) g (fun p' g' => if Nat.ltb (length (snd p')) (length (snd (pv, v))) then star_loop true (star_m cl) k n p' g' else None) = None).
    { destruct v as [|c v]; [reflexivity|]. inversion LV as [|? ? LC LV']; subst. rewrite rune_low by exact LC. destruct (in_class cl (N_of_ascii c)); [|reflexivity]. cbn [snd].
      destruct (Nat.ltb (length v) (length (c :: v))); [|reflexivity]. apply loop_none; [exact LV'|]. intros x y pv' E. apply (H (c :: x)); [rewrite E; reflexivity | discriminate]. }
    destruct (K pv) as (q & Q). exists q. exact (eq_trans (f_equal (fun z => match z with Some x => Some x | None => k (pv, v) g end) M) Q).
  - destruct n as [|n]; [cbn in LN; lia|]. inversion A as [|? ? [LC IC] A']; subst. cbn [star_loop app]. unfold star_m at 1. rewrite rune_low by exact LC. rewrite IC. cbn [snd length].
    destruct (Nat.ltb_spec (length (u ++ v)) (S (length (u ++ v)))) as [_|B]; [|lia]. destruct (IH n (Some c) A') as (q & Q); [cbn in LN; lia|]. exists q. rewrite Q. reflexivity.
Qed.
Lemma greedy_lands : forall cl k g T G0 u v pv, all_in cl u -> lows v -> (forall x y pv', v = x ++ y -> x <> [] -> k (pv', y) g = None) -> (forall pv', lands (k (pv', v) g) T G0) ->
  lands (rmatch (RStar true (RRune cl)) (pv, u ++ v) g k) T G0.
Proof.
  intros cl k g T G0 u v pv A L H K. change (lands (star_loop true (star_m cl) k (length (u ++ v)) (pv, u ++ v) g) T G0). apply greedy_loop; [exact L | exact H | exact K | exact A | lia].
Qed.
Lemma lazy_lands : forall cl k g T G0 v u pv, all_in cl u -> (forall x y pv', u = x ++ y -> y <> [] -> k (pv', y ++ v) g = None) -> (forall pv', lands (k (pv', v) g) T G0) ->
  lands (rmatch (RStar false (RRune cl)) (pv, u ++ v) g k) T G0.
Proof.
  intros cl k g T G0 v u pv A H K. change (lands (star_loop false (star_m cl) k (length (u ++ v)) (pv, u ++ v) g) T G0).
  assert (X : forall n u pv, all_in cl u -> length (u ++ v) <= n -> (forall x y pv', u = x ++ y -> y <> [] -> k (pv', y ++ v) g = None) -> lands (star_loop false (star_m cl) k n (pv, u ++ v) g) T G0); [|apply X; [exact A | lia | exact H]].
  clear A H u pv. induction n as [|n IH]; intros u pv A LN H.
  - destruct u; [apply K | cbn in LN; lia].
  - cbn [star_loop]. destruct u as [|c u]; [destruct (K pv) as (q & Q); exists q; cbn [app]; rewrite Q; reflexivity|].
    pose proof (H [] (c :: u) pv eq_refl ltac:(discriminate)) as N0. cbn [app] in N0 |- *. rewrite N0. inversion A as [|? ? [LC IC] A']; subst. unfold star_m at 1. rewrite rune_low by exact LC. rewrite IC. cbn [snd length].
    destruct (Nat.ltb_spec (length (u ++ v)) (S (length (u ++ v)))) as [_|B]; [|lia]. apply IH; [exact A' | cbn in LN; lia|]. intros x y pv' E NE. apply (H (c :: x)); [rewrite E; reflexivity | exact NE].
Qed.
