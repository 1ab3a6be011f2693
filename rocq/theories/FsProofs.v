(** Proofs about files. *)
From Coq Require Import String Ascii List ZArith NArith Bool Lia.
From Verif Require Import GoStr GoStrFacts ValueModel ValueFacts PathModel PathSpec PathProofs SearchModel FsModel FsSpec.
Import ListNotations.

Lemma spot_eqb_eq : forall a b, spot_eqb a b = true <-> a = b.
Proof.
  induction a as [|x a IH]; intros [|y b]; cbn [spot_eqb]; try (split; congruence). rewrite Bool.andb_true_iff, str_eqb_eq, IH. split; [intros (-> & ->); reflexivity | intros H; injection H as -> ->; split; reflexivity].
Qed.
Lemma put_same w e f : put w e f w = Some e.
Proof. unfold put. rewrite (proj2 (spot_eqb_eq w w) eq_refl). reflexivity. Qed.
Lemma put_other w e f v : v <> w -> put w e f v = f v.
Proof. intros N. unfold put. destruct (spot_eqb v w) eqn:E; [apply spot_eqb_eq in E; contradiction | reflexivity]. Qed.

Lemma land_bit k m : (N.land (N.shiftl 1 k) m =? 0)%N = negb (N.testbit m k).
Proof.
  destruct (N.testbit m k) eqn:T; cbn [negb].
  - apply N.eqb_neq. intros Z. assert (X : N.testbit (N.land (N.shiftl 1 k) m) k = true). { rewrite N.land_spec, T, N.shiftl_spec_high by lia. rewrite N.sub_diag. reflexivity. } rewrite Z, N.bits_0 in X. discriminate X.
  - apply N.eqb_eq. apply N.bits_inj. intros j. rewrite N.land_spec, N.bits_0. destruct (N.eq_dec j k) as [->|NE]; [rewrite T; apply andb_false_r|].
    destruct (N.lt_ge_cases j k) as [LT|GE]; [rewrite N.shiftl_spec_low by exact LT; reflexivity|]. rewrite N.shiftl_spec_high by lia. destruct (j - k)%N as [|p] eqn:D; [lia|]. destruct p; reflexivity.
Qed.

Section Fs.
Variables (here : place) (user umask : N).
Notation allowed := (allowed user).
Notation lookup := (lookup user).
Notation stat := (stat here user).
Notation follow := (follow here).
Notation there := (there user).
Notation reachable := (reachable user).

Lemma allowed_bit n bit e : bit = N.shiftl 1 n -> allowed bit e = true <-> may user n e.
Proof.
  intros ->. unfold FsModel.allowed, may, has_bit. rewrite Bool.orb_true_iff, N.eqb_eq. rewrite N.shiftl_shiftl. destruct (n_owner e =? user)%N eqn:O.
  - apply N.eqb_eq in O. rewrite land_bit, Bool.negb_involutive. tauto.
  - apply N.eqb_neq in O. rewrite land_bit, Bool.negb_involutive. tauto.
Qed.
Lemma allowed1 e : allowed 1 e = true <-> may user 0 e.
Proof. exact (allowed_bit 0 1 e eq_refl). Qed.
Lemma allowed2 e : allowed 2 e = true <-> may user 1 e.
Proof. exact (allowed_bit 1 2 e eq_refl). Qed.
Lemma allowed4 e : allowed 4 e = true <-> may user 2 e.
Proof. exact (allowed_bit 2 4 e eq_refl). Qed.

Lemma lookup_there f w e : lookup f w = inl e <-> there f w e.
Proof.
  revert e. induction w as [|x w IH]; intros e; cbn [FsModel.lookup]; unfold FsSpec.there; cbn [FsSpec.reachable].
  - destruct (f []) as [d|]; split; [intros H; injection H as ->; auto | intros (_ & H); congruence | discriminate | intros (_ & H); discriminate].
  - destruct (lookup f w) as [d|er] eqn:L.
    + destruct (proj1 (IH d) eq_refl) as (R & FW). destruct (n_dir d) eqn:D; cbn [negb].
      * destruct (allowed 1 d) eqn:A; cbn [negb].
        -- destruct (f (x :: w)) as [y|]; split; try discriminate; [intros H; injection H as ->; split; [split; [exact R|exists d; split; [exact FW|]; split; [exact D | apply allowed1; exact A]]|reflexivity] | intros (_ & H); congruence | intros (_ & H); discriminate].
        -- split; [discriminate|]. intros ((_ & d' & H1 & _ & H2) & _). rewrite FW in H1. injection H1 as <-. apply allowed1 in H2. congruence.
      * split; [discriminate|]. intros ((_ & d' & H1 & H2 & _) & _). congruence.
    + split; [discriminate|]. intros ((R & d & H1 & _ & _) & _). discriminate (proj2 (IH d) (conj R H1)).
Qed.
Lemma lookup_missing f w : reachable f w -> f w = None -> lookup f w = inr NotExist.
Proof.
  destruct w as [|x w]; cbn [FsModel.lookup FsSpec.reachable]; [intros _ ->; reflexivity|]. intros (R & d & F & D & M) N. rewrite (proj2 (lookup_there f w d) (conj R F)), D, (proj2 (allowed1 d) M), N. reflexivity.
Qed.
Lemma missing_lookup f w : lookup f w = inr NotExist -> (exists e, lookup f (List.tl w) = inl e) -> reachable f w /\ (w <> [] -> f w = None).
Proof.
  destruct w as [|x w]; cbn [FsModel.lookup FsSpec.reachable List.tl]; [intros _ _; split; [exact I | congruence]|]. intros H (e & L). rewrite L in H. destruct (proj1 (lookup_there f w e) L) as (R & F). destruct (n_dir e) eqn:D; [|discriminate H]. cbn [negb] in H. destruct (allowed 1 e) eqn:A; [|discriminate H]. cbn [negb] in H.
  destruct (f (x :: w)); [discriminate H|]. split; [|reflexivity]. split; [exact R|]. exists e. split; [exact F|]. split; [exact D | apply allowed1; exact A].
Qed.
Lemma reachable_ext f f' w : (forall a, List.length a < List.length w -> f' a = f a) -> reachable f w -> reachable f' w.
Proof.
  induction w as [|x w IH]; cbn [FsSpec.reachable]; [auto|]. intros S (R & d & F & X). split; [apply IH; [|exact R]; intros a L; apply S; cbn [List.length]; lia|]. exists d. split; [|exact X]. rewrite S; [exact F | cbn [List.length]; lia].
Qed.
Lemma reachable_put f w v e : List.length w <= List.length v -> reachable f w -> reachable (put v e f) w.
Proof. intros L. apply reachable_ext. intros a LA. apply put_other. intros ->. lia. Qed.

(** ** Names *)
Lemma go_step w e : go w e = step w e.
Proof.
  unfold go, step. destruct (list_eq_dec ascii_dec e []) as [->|N]; [reflexivity|]. destruct (str_eqb_spec e []); [congruence|]. destruct (list_eq_dec ascii_dec e $".") as [->|N2]; [reflexivity|]. destruct (str_eqb_spec e $"."); [congruence|]. cbn [orb].
  destruct (list_eq_dec ascii_dec e $"..") as [->|N3]; [reflexivity|]. destruct (str_eqb_spec e $".."); [congruence|reflexivity].
Qed.
Lemma follow_walk name : follow name = walk (if is_abs name then [] else here) name.
Proof.
  unfold FsModel.follow, walk. change $"/" with [SLASH]. assert (X : forall l w, fold_left go l w = fold_left step l w); [|apply X].
  induction l as [|x l IH]; intros w; [reflexivity|]. cbn [fold_left]. rewrite go_step. apply IH.
Qed.
Lemma follow_leads name w : leads here name w <-> follow name = w.
Proof.
  rewrite follow_walk. unfold leads. destruct (is_abs name) eqn:A.
  - apply abs_iff in A. split; [intros [(_ & ->)|(N & _)]; [reflexivity|contradiction] | intros <-; left; split; [exact A|reflexivity]].
  - assert (N : ~ absolute name) by (intros X; apply abs_iff in X; congruence). split; [intros [(X & _)|(_ & ->)]; [contradiction|reflexivity] | intros <-; right; split; [exact N|reflexivity]].
Qed.
Lemma drop_name_no e r : ~ In SLASH e -> drop_name (e ++ r) = drop_name r.
Proof. induction e as [|c e IH]; intros N; [reflexivity|]. cbn [app drop_name]. destruct (Ascii.eqb_spec c SLASH) as [->|_]; [exfalso; apply N; left; reflexivity|]. apply IH. intros X. apply N. right. exact X. Qed.
Lemma dir_plain e : ~ In SLASH e -> path_dir e = $".".
Proof. intros N. unfold path_dir. pose proof (drop_name_no (rev e) [] ltac:(rewrite <- in_rev; exact N)) as X. rewrite app_nil_r in X. rewrite X. reflexivity. Qed.
Lemma dir_slash a e : ~ In SLASH e -> path_dir (a ++ [SLASH] ++ e) = clean (a ++ [SLASH]).
Proof. intros N. unfold path_dir. rewrite app_assoc, rev_app_distr. rewrite (drop_name_no (rev e)) by (rewrite <- in_rev; exact N). rewrite rev_app_distr. cbn [rev app drop_name]. change (Ascii.eqb SLASH SLASH) with true. cbv iota. cbn [rev]. rewrite rev_involutive. reflexivity. Qed.
Lemma walk_slash w a e : walk w (a ++ [SLASH] ++ e) = walk (walk w a) e.
Proof. unfold walk. change $"/" with [SLASH]. change ([SLASH] ++ e) with (SLASH :: e). rewrite split_slash, fold_left_app. reflexivity. Qed.
Lemma walk_plain w e : e <> [] -> e <> $"." -> e <> $".." -> ~ In SLASH e -> walk w e = e :: w.
Proof.
  intros N1 N2 N3 N4. unfold walk. change $"/" with [SLASH]. rewrite split1_notIn by exact N4. cbn [fold_left]. unfold step. destruct (list_eq_dec ascii_dec e []); [contradiction|]. destruct (list_eq_dec ascii_dec e $"."); [contradiction|]. destruct (list_eq_dec ascii_dec e $".."); [contradiction|]. reflexivity.
Qed.
Lemma abs_app a e : a <> [] -> is_abs (a ++ e) = is_abs a.
Proof. destruct a as [|c a]; [congruence|]. intros _. cbn. destruct a; destruct e; reflexivity. Qed.
Lemma clean_nonempty p : clean p <> [].
Proof.
  unfold clean. destruct (is_abs p); [discriminate|]. pose proof (norm_elem p) as E. destruct (norm p) as [|x l]; [discriminate|]. inversion E as [|? ? (N & _) _]; subst. intros H. destruct l; cbn in H; [congruence|]. destruct x; [congruence|discriminate H].
Qed.
Lemma follow_dir name e : ends_with name e -> follow name = e :: follow (path_dir name) /\ path_dir name <> [].
Proof.
  intros (N1 & N2 & N3 & N4 & [->|(a & ->)]).
  - rewrite (dir_plain e N4). split; [|discriminate]. rewrite !follow_walk. rewrite walk_plain by assumption. f_equal. destruct (is_abs e) eqn:A; [|reflexivity]. apply abs_iff in A. destruct A as (r & ->). exfalso. apply N4. left. reflexivity.
  - change $"/" with [SLASH]. pose proof (dir_slash a e N4) as X. rewrite X. split; [|apply clean_nonempty]. rewrite !follow_walk. rewrite walk_slash, walk_plain by assumption. f_equal.
    assert (AB : is_abs (clean (a ++ [SLASH])) = is_abs (a ++ [SLASH] ++ e)).
    { apply Bool.eq_true_iff_eq. rewrite !abs_iff, clean_absolute, <- !abs_iff. destruct a as [|c a]; [reflexivity|]. rewrite !abs_app by discriminate. reflexivity. }
    unfold str in *. rewrite AB. rewrite walk_clean.
    + pose proof (walk_slash (if is_abs (a ++ [SLASH] ++ e) then [] else here) a []) as Y. rewrite app_nil_r in Y. unfold str in *. rewrite Y. reflexivity.
    + intros A. rewrite <- clean_absolute, <- abs_iff in A. unfold str in *. rewrite <- AB, A. reflexivity.
Qed.
End Fs.
