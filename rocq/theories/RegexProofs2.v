(** Classes and characters: what is written is what is read. *)
From Coq Require Import String Ascii List ZArith NArith Bool Lia ZifyBool ZifyN.
From Verif Require Import GoStr GoStrFacts NumFacts Utf8 Utf8Facts ReModel ReSyntaxModel ReSound RegexSpec RegexProofs.
Import ListNotations.
Local Open Scope char_scope.

Lemma rmatch_ext : forall R r p g (k k' : place -> groups -> option R), (forall p g, k p g = k' p g) -> rmatch r p g k = rmatch r p g k'.
Proof. intros R r p g k k' E. rewrite !rmatch_preferred. apply first_of_ext. intros x. apply E. Qed.
Lemma same_refl : forall a, same a a.
Proof. intros a R p g k. reflexivity. Qed.
Lemma same_sym : forall a b, same a b -> same b a.
Proof. intros a b H R p g k. symmetry. apply H. Qed.
Lemma same_trans : forall a b c, same a b -> same b c -> same a c.
Proof. intros a b c H1 H2 R p g k. rewrite H1. apply H2. Qed.
Lemma same_seq : forall a a' b b', same a a' -> same b b' -> same (RSeq a b) (RSeq a' b').
Proof. intros a a' b b' H1 H2 R p g k. cbn [rmatch]. rewrite H1. apply rmatch_ext. intros p1 g1. apply H2. Qed.
Lemma same_alt : forall a a' b b', same a a' -> same b b' -> same (RAlt a b) (RAlt a' b').
Proof. intros a a' b b' H1 H2 R p g k. cbn [rmatch]. rewrite H1, H2. reflexivity. Qed.
Lemma same_group : forall n a a', same a a' -> same (RGroup n a) (RGroup n a').
Proof. intros n a a' H R p g k. cbn [rmatch]. apply H. Qed.
Lemma same_star : forall gr a a', same a a' -> same (RStar gr a) (RStar gr a').
Proof.
  intros gr a a' H R p g k. cbn [rmatch]. generalize (List.length (snd p)). intros n. revert p g. induction n as [|n IH]; intros p g; cbn [star_loop]; [reflexivity|].
  rewrite H. assert (E : forall K K' : place -> groups -> option R, (forall p g, K p g = K' p g) -> rmatch a' p g K = rmatch a' p g K') by (intros; apply rmatch_ext; assumption).
  rewrite (E _ (fun p' g' => if Nat.ltb (List.length (snd p')) (List.length (snd p)) then star_loop gr (fun p0 g0 k0 => rmatch a' p0 g0 k0) k n p' g' else None)); [reflexivity|].
  intros p1 g1. destruct (Nat.ltb _ _); [apply IH | reflexivity].
Qed.
Lemma same_rune : forall c c', (forall n, in_class c n = in_class c' n) -> same (RRune c) (RRune c').
Proof. intros c c' H R p g k. cbn [rmatch]. destruct (snd p) as [|b s]; [reflexivity|]. destruct (decode (b :: s)) as [n w]. rewrite H. reflexivity. Qed.
Lemma same_nil_r : forall a, same a (RSeq a RNil).
Proof. intros a R p g k. cbn [rmatch]. apply rmatch_ext. reflexivity. Qed.

Ltac chars c := destruct c as [[] [] [] [] [] [] [] []].
Lemma escape_quoted : forall c r, is_word_rune (N_of_ascii c) = false -> parse_escape (fun _ => false) (c :: r) = Some (EChar (N_of_ascii c), r).
Proof. intros c r H. chars c; vm_compute in H; try discriminate H; reflexivity. Qed.
Ltac plain_cases c L N := chars c; try (exfalso; apply N; vm_compute; tauto); try (exfalso; vm_compute in L; discriminate L).
