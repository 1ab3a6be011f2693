(** Facts about the matching of regular expressions. *)
From Coq Require Import String Ascii List ZArith NArith Bool Lia.
From Verif Require Import GoStr ReModel.
Import ListNotations.

(** The byte before the place reached after w. *)
Fixpoint lastc (p : option ascii) (w : str) : option ascii :=
  match w with
  | [] => p
  | c :: w => lastc (Some c) w
  end.

(** A greedy star on the run w of a class: the longest part first. *)
Fixpoint desc {R} (k : place -> option R) (p : option ascii) (w s : str) : option R :=
  match w with
  | [] => k (p, s)
  | c :: w' => match desc k (Some c) w' s with Some x => Some x | None => k (p, w ++ s) end
  end.

(** s does not start with a byte of the class. *)
Definition stops (f : ascii -> bool) (s : str) : Prop := match s with [] => True | c :: _ => f c = false end.

Lemma span_class f s : exists w r, s = w ++ r /\ Forall (fun c => f c = true) w /\ stops f r.
Proof.
  induction s as [|c s (w & r & E & W & T)].
  - exists [], []. repeat split; constructor.
  - destruct (f c) eqn:F.
    + exists (c :: w), r. rewrite E. repeat split; [constructor; assumption|exact T].
    + exists [], (c :: s). repeat split; [constructor|exact F].
Qed.

Lemma loop_class {R} f (k : place -> groups -> option R) g w s : Forall (fun c => f c = true) w -> stops f s -> forall n p, length (w ++ s) <= n ->
  star_loop true (fun p g k => rmatch (RByte f) p g k) k n (p, w ++ s) g = desc (fun p => k p g) p w s.
Proof.
  intros W T. induction W as [|c w C W IH]; intros n p L.
  - cbn [app desc]. destruct n as [|n]; [reflexivity|]. cbn [star_loop rmatch snd].
    destruct s as [|c s]; [reflexivity|]. cbn in T. rewrite T. reflexivity.
  - destruct n as [|n]; [cbn in L; lia|]. cbn [star_loop rmatch snd app desc]. rewrite C.
    assert (Nat.ltb (length (w ++ s)) (length (c :: w ++ s)) = true) as -> by (apply Nat.ltb_lt; cbn; lia).
    rewrite IH by (cbn in L; lia). reflexivity.
Qed.

Lemma star_class {R} f (k : place -> groups -> option R) g w s p : Forall (fun c => f c = true) w -> stops f s ->
  rmatch (RStar true (RByte f)) (p, w ++ s) g k = desc (fun p => k p g) p w s.
Proof. intros W T. cbn [rmatch]. exact (loop_class f k g w s W T _ p (le_n _)). Qed.

Lemma desc_first {R} (k : place -> option R) w s x : forall p, k (lastc p w, s) = Some x -> desc k p w s = Some x.
Proof. induction w as [|c w IH]; intros p H; [exact H|]. cbn [desc]. rewrite (IH _ H). reflexivity. Qed.

Lemma desc_none {R} (k : place -> option R) w s : forall p, (forall a b, w = a ++ b -> k (lastc p a, b ++ s) = None) -> desc k p w s = None.
Proof.
  induction w as [|c w IH]; intros p H; [exact (H [] [] eq_refl)|]. cbn [desc]. rewrite IH.
  - exact (H [] (c :: w) eq_refl).
  - intros a b ->. exact (H (c :: a) b eq_refl).
Qed.

Lemma desc_all {R} (k : place -> option R) w s x : forall p, (forall a b, w = a ++ b -> k (lastc p a, b ++ s) = None \/ k (lastc p a, b ++ s) = Some x) ->
  (exists a b, w = a ++ b /\ k (lastc p a, b ++ s) = Some x) -> desc k p w s = Some x.
Proof.
  induction w as [|c w IH]; intros p H (a & b & E & X).
  - symmetry in E. apply app_eq_nil in E as (-> & ->). exact X.
  - cbn [desc]. destruct a as [|d a].
    + cbn in E. subst b. destruct (desc k (Some c) w s) as [y|] eqn:D; [|exact X].
      assert (N : desc k (Some c) w s = None \/ desc k (Some c) w s = Some x).
      { clear -H. assert (H' : forall a b, w = a ++ b -> k (lastc (Some c) a, b ++ s) = None \/ k (lastc (Some c) a, b ++ s) = Some x) by (intros a b ->; exact (H (c :: a) b eq_refl)).
        clear H. revert H'. generalize (Some c). induction w as [|d w IH]; intros q H.
        - exact (H [] [] eq_refl).
        - cbn [desc]. destruct (IH (Some d)) as [->| ->].
          + intros a b ->. exact (H (d :: a) b eq_refl).
          + exact (H [] (d :: w) eq_refl).
          + right. reflexivity. }
      destruct N as [N|N]; congruence.
    + cbn in E. injection E as <- E. rewrite (IH (Some c)); [reflexivity| |].
      * intros a' b' ->. exact (H (c :: a') b' eq_refl).
      * exists a, b. split; [exact E|exact X].
Qed.

Lemma taken_app p w s : forall q, taken (p, w ++ s) (q, s) = w.
Proof.
  intros q. unfold taken. cbn [snd]. rewrite app_length. replace (length w + length s - length s) with (length w) by lia.
  rewrite firstn_app, Nat.sub_diag, firstn_all. cbn. apply app_nil_r.
Qed.

Lemma rm_group {R} n r p g (k : place -> groups -> option R) : rmatch (RGroup n r) p g k = rmatch r p g (fun p' g' => k p' ((n, taken p p') :: g')).
Proof. reflexivity. Qed.
Lemma rm_seq {R} a b p g (k : place -> groups -> option R) : rmatch (RSeq a b) p g k = rmatch a p g (fun p g => rmatch b p g k).
Proof. reflexivity. Qed.
Lemma rm_opt {R} a p g (k : place -> groups -> option R) : rmatch (ROpt a) p g k = match rmatch a p g k with Some x => Some x | None => k p g end.
Proof. reflexivity. Qed.

(** A greedy star of a class at the end of an expression takes everything. *)
Lemma star_any {R} (k : place -> groups -> option R) g s p x : k (lastc p s, []) g = Some x ->
  rmatch (RStar true (RByte (fun _ => true))) (p, s) g k = Some x.
Proof.
  intros H. rewrite <- (app_nil_r s). rewrite star_class; [|apply Forall_forall; reflexivity|exact I].
  apply desc_first. exact H.
Qed.
