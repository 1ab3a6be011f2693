(** Iteration orders and the conversion to native data. *)
From Coq Require Import String Ascii List ZArith NArith Bool Lia Permutation Sorted.
From Verif Require Import GoStr GoStrFacts ValueModel ValueFacts CollSpec ListModel ListProofs DictModel DictProofs ConvModel ConvSpec ConvProofs.
Import ListNotations.

Section WithEnv.
Context {E : Env}.

(** Distinct keys at every level, also when printed. *)
Inductive keyed : value -> Prop :=
| keyed_nil : keyed VNil
| keyed_scal s : keyed (VScal s)
| keyed_opaque t c n : keyed (VOpaque t c n)
| keyed_slice t l : Forall keyed l -> keyed (VSlice t l)
| keyed_list i l : Forall keyed l -> keyed (VList i l)
| keyed_map t m : NoDup (mkeys m) -> Forall (fun kv => keyed (snd kv)) m -> keyed (VMap t m)
| keyed_dict i m : NoDup (mkeys m) -> Forall (fun kv => keyed (snd kv)) m -> keyed (VDict i m)
| keyed_mapk t m : NoDup (map (fun kv => sprint_scalar (fst kv)) m) -> Forall (fun kv => keyed (snd kv)) m -> keyed (VMapK t m).

Lemma marshal_mapk (m : list (scalar * value)) : NoDup (map (fun kv => sprint_scalar (fst kv)) m) ->
  mset_all (map (fun kv => (sprint_scalar (fst kv), marshal_go (snd kv))) m) [] = map (fun kv => (sprint_scalar (fst kv), marshal_go (snd kv))) m.
Proof. intro N. apply mset_all_nodup_id. unfold mkeys. rewrite map_map. exact N. Qed.

Lemma each_pair (Q : value -> Prop) (R : value -> value -> Prop) (m m1 m' : list (str * value)) :
  Forall (fun kv => forall w, Q (snd kv) -> veq (snd kv) w -> R (snd kv) w) m -> Forall (fun kv => Q (snd kv)) m ->
  Permutation m m1 -> Forall2 (fun a b => fst a = fst b /\ veq (snd a) (snd b)) m1 m' ->
  Forall2 (fun a b => fst a = fst b /\ R (snd a) (snd b)) m1 m'.
Proof.
  intros H D P F. rewrite (Permutation_Forall_iff P) in H. rewrite (Permutation_Forall_iff P) in D. clear P m.
  induction F as [|a b m1 m' [Ek Ev] F IH]; [constructor|]. inversion H; inversion D; subst. constructor; [|auto].
  split; [exact Ek|auto].
Qed.
Lemma each (Q : value -> Prop) (R : value -> value -> Prop) l l' :
  Forall (fun v => forall w, Q v -> veq v w -> R v w) l -> Forall Q l -> Forall2 veq l l' -> Forall2 R l l'.
Proof. intros H K F. induction F; constructor; inversion H; inversion K; subst; auto. Qed.
Lemma Forall2_map2 {A B C D} (R : C -> D -> Prop) (f : A -> C) (g : B -> D) l l' :
  Forall2 (fun a b => R (f a) (g b)) l l' -> Forall2 R (map f l) (map g l').
Proof. induction 1; cbn [map]; constructor; auto. Qed.
Lemma Forall2_right {A B} (P : B -> Prop) (l : list A) l' : Forall2 (fun _ b => P b) l l' -> Forall P l'.
Proof. induction 1; constructor; auto. Qed.

Lemma veq_each (f : value -> value) l l' : Forall (fun v => forall w, keyed v -> veq v w -> veq (f v) (f w)) l -> Forall keyed l ->
  Forall2 veq l l' -> Forall2 veq (map f l) (map f l').
Proof. intros H K F. induction F; cbn [map]; constructor; inversion H; inversion K; subst; auto. Qed.
Lemma veq_each_pair {K} (g : K -> str) (f : value -> value) (m m1 m' : list (K * value)) :
  Forall (fun kv => forall w, keyed (snd kv) -> veq (snd kv) w -> veq (f (snd kv)) (f w)) m -> Forall (fun kv => keyed (snd kv)) m ->
  Permutation m m1 -> Forall2 (fun a b => fst a = fst b /\ veq (snd a) (snd b)) m1 m' ->
  Forall2 (fun a b => fst a = fst b /\ veq (snd a) (snd b)) (map (fun kv => (g (fst kv), f (snd kv))) m1) (map (fun kv => (g (fst kv), f (snd kv))) m').
Proof.
  intros H D P F. rewrite (Permutation_Forall_iff P) in H. rewrite (Permutation_Forall_iff P) in D. clear P m.
  induction F as [|a b m1 m' [Ek Ev] F IH]; cbn [map]; [constructor|]. inversion H; inversion D; subst. constructor; [|auto].
  cbn [fst snd]. split; [congruence|auto].
Qed.

Lemma marshal_veq v : forall w, keyed v -> veq v w -> veq (marshal_go v) (marshal_go w).
Proof.
  induction v as [|s|t l IH|t m IH|t m IH|i l IH|i m IH|t c n] using value_ind'; intros w K Q; inversion Q; inversion K; subst; cbn [marshal_go]; try constructor.
  - apply veq_each; assumption.
  - assert (N' : NoDup (mkeys m')).
    { erewrite <- Forall2_keys by eassumption. eapply Permutation_NoDup; [|eassumption]. apply Permutation_map. assumption. }
    rewrite !marshal_map by assumption. apply veq_map with (m1 := map (onto marshal_go) m1); [apply Permutation_map; assumption|].
    apply (veq_each_pair (fun k : str => k)) with (m := m); assumption.
  - assert (Ek : map fst m1 = map fst m').
    { match goal with F : Forall2 _ m1 m' |- _ => clear -F; induction F as [|a b x y [Ea _] F IHF]; [reflexivity|]; cbn; congruence end. }
    assert (N' : NoDup (map (fun kv => sprint_scalar (fst kv)) m')).
    { rewrite <- map_map, <- Ek, map_map. eapply Permutation_NoDup; [|eassumption]. apply Permutation_map. assumption. }
    rewrite !marshal_mapk by assumption.
    apply veq_map with (m1 := map (fun kv => (sprint_scalar (fst kv), marshal_go (snd kv))) m1); [apply Permutation_map; assumption|].
    apply veq_each_pair with (m := m); assumption.
  - apply veq_each; assumption.
  - assert (N' : NoDup (mkeys m')).
    { erewrite <- Forall2_keys by eassumption. eapply Permutation_NoDup; [|eassumption]. apply Permutation_map. assumption. }
    rewrite !marshal_map by assumption. apply veq_map with (m1 := map (onto marshal_go) m1); [apply Permutation_map; assumption|].
    apply (veq_each_pair (fun k : str => k)) with (m := m); assumption.
Qed.

(** Everything is converted to native data when printed keys are distinct. *)
Lemma marshal_keyed v : keyed v -> native (marshal_go v).
Proof.
  induction v as [|s|t l IH|t m IH|t m IH|i l IH|i m IH|t c n] using value_ind'; intro K; inversion K; subst; cbn [marshal_go].
  - constructor.
  - destruct s as [b|k z|f|n s]; cbn [marshal_scalar]; constructor. destruct k; cbn; auto.
  - constructor. apply Forall_map. rewrite Forall_forall in *. auto.
  - rewrite marshal_map by assumption. constructor; [rewrite mkeys_onto; assumption|]. apply Forall_map. rewrite Forall_forall in *. cbn. auto.
  - rewrite marshal_mapk by assumption. constructor; [unfold mkeys; rewrite map_map; assumption|]. apply Forall_map. rewrite Forall_forall in *. cbn. auto.
  - constructor. apply Forall_map. rewrite Forall_forall in *. auto.
  - rewrite marshal_map by assumption. constructor; [rewrite mkeys_onto; assumption|]. apply Forall_map. rewrite Forall_forall in *. cbn. auto.
  - constructor.
Qed.

Lemma native_keyed v : native v -> keyed v.
Proof.
  induction v as [|s|t l IH|t m IH|t m IH|i l IH|i m IH|t c n] using value_ind'; intro N; inversion N; subst; constructor; auto;
    rewrite Forall_forall in *; auto.
Qed.

Lemma conv_veq i v : forall w, native v -> veq v w -> veq (conv i v) (conv i w).
Proof.
  induction v as [|s|t l IH|t m IH|t m IH|j l IH|j m IH|t c n] using value_ind'; intros w K Q; inversion Q; inversion K; subst; try (cbn [conv]; constructor; fail).
  - rewrite !conv_native_slice. constructor. apply Forall2_map2. eapply (each native (fun v w => veq (conv i v) (conv i w))); eassumption.
  - rewrite !conv_native_map. apply veq_dict with (m1 := map (onto (conv i)) m1); [apply Permutation_map; assumption|].
    apply Forall2_map2. eapply (each_pair native (fun v w => veq (conv i v) (conv i w))); eassumption.
Qed.

Lemma veq_native v : forall w, native v -> veq v w -> native w.
Proof.
  induction v as [|s|t l IH|t m IH|t m IH|j l IH|j m IH|t c n] using value_ind'; intros w K Q; inversion Q; inversion K; subst; try (constructor; fail); try (constructor; assumption).
  - constructor. eapply Forall2_right. eapply (each native (fun _ w => native w)); eassumption.
  - constructor.
    + erewrite <- Forall2_keys by eassumption. eapply Permutation_NoDup; [|eassumption]. apply Permutation_map. assumption.
    + assert (F : Forall2 (fun a b => fst a = fst b /\ native (snd b)) m1 m') by (eapply (each_pair native (fun _ w => native w)); eassumption).
      clear -F. induction F as [|a b x y [_ H] F IHF]; [apply Forall_nil|apply Forall_cons; assumption].
Qed.

(** The nesting does not depend on the order. *)
Lemma list_max_perm l l' : Permutation l l' -> list_max l = list_max l'.
Proof. induction 1; cbn [list_max fold_right] in *; unfold list_max in *; cbn [fold_right]; lia. Qed.
Lemma depth_list l l' : Forall (fun v => forall w, veq v w -> depth v = depth w) l -> Forall2 veq l l' -> map depth l = map depth l'.
Proof. intros IH F. induction F; [reflexivity|]. cbn [map]. inversion IH; subst. f_equal; auto. Qed.
Lemma depth_pairs {K} (m m1 m' : list (K * value)) : Forall (fun kv => forall w, veq (snd kv) w -> depth (snd kv) = depth w) m -> Permutation m m1 ->
  Forall2 (fun a b => fst a = fst b /\ veq (snd a) (snd b)) m1 m' ->
  list_max (map (fun kv => depth (snd kv)) m) = list_max (map (fun kv => depth (snd kv)) m').
Proof.
  intros IH P F. rewrite (list_max_perm _ _ (Permutation_map (fun kv => depth (snd kv)) P)). rewrite (Permutation_Forall_iff P) in IH. f_equal.
  clear P m. induction F as [|a b m1 m' [Ek Ev] F IHF]; [reflexivity|]. cbn [map]. inversion IH; subst. f_equal; auto.
Qed.
Lemma depth_veq v : forall w, veq v w -> depth v = depth w.
Proof.
  induction v as [|s|t l IH|t m IH|t m IH|i l IH|i m IH|t c n] using value_ind'; intros w Q; inversion Q; subst; cbn [depth]; try reflexivity; f_equal.
  - f_equal. apply depth_list; assumption.
  - eapply depth_pairs; eassumption.
  - eapply depth_pairs; eassumption.
  - f_equal. apply depth_list; assumption.
  - eapply depth_pairs; eassumption.
Qed.

End WithEnv.
