(** Proofs about native conversion and decoded documents. *)
From Coq Require Import String Ascii List ZArith NArith Bool Lia Permutation Sorted.
From Coq Require Import SpecFloat.
From Verif Require Import GoStr GoStrFacts ValueModel ValueFacts CollSpec ListModel DictModel ListProofs DictProofs FloatModel FloatFacts MathModel NumFacts ConvModel ConvSpec.
Import ListNotations.

(** Instantiate a property of all the members of a list. *)
Ltac use_in I := match goal with H : forall x, In x _ -> _ |- _ => exact (H _ I) end.

Section WithEnv.
Context {E : Env} {NE : NumEnv}.

(** ** Association lists *)

Lemma mset_all_nodup_id {A} (m : list (str * A)) : NoDup (mkeys m) -> mset_all m [] = m.
Proof. intro N. rewrite mset_all_fresh; [reflexivity|exact N]. Qed.

Definition onto {A B} (g : A -> B) (kv : str * A) : str * B := (fst kv, g (snd kv)).
Lemma mkeys_onto {A B} (g : A -> B) m : mkeys (map (onto g) m) = mkeys m.
Proof. unfold mkeys. rewrite map_map. reflexivity. Qed.
Lemma mset_onto {A B} (g : A -> B) m k v : mset (map (onto g) m) k (g v) = map (onto g) (mset m k v).
Proof.
  induction m as [|[j w] m IH]; [reflexivity|]. cbn [map mset onto fst snd]. destruct (str_eqb k j); [reflexivity|].
  cbn [map onto fst snd]. rewrite <- IH. reflexivity.
Qed.
Lemma mset_all_onto {A B} (g : A -> B) kvs : forall m, mset_all (map (onto g) kvs) (map (onto g) m) = map (onto g) (mset_all kvs m).
Proof.
  induction kvs as [|[k v] kvs IH]; intro m; [reflexivity|]. unfold mset_all in *. cbn [map fold_left onto fst snd].
  rewrite mset_onto. apply IH.
Qed.
Lemma mget_onto {A B} (g : A -> B) m k : mget (map (onto g) m) k = option_map g (mget m k).
Proof. induction m as [|[j w] m IH]; [reflexivity|]. cbn [map mget onto fst snd]. destruct (str_eqb k j); [reflexivity|exact IH]. Qed.

Lemma marshal_map m : NoDup (mkeys m) -> mset_all (map (fun kv => (fst kv, marshal_go (snd kv))) m) [] = map (onto marshal_go) m.
Proof.
  intro N. change (fun kv : str * value => (fst kv, marshal_go (snd kv))) with (onto marshal_go).
  apply mset_all_nodup_id. rewrite mkeys_onto. exact N.
Qed.
Lemma mset_all_rev_get {A} (kvs : list (str * A)) k : mget (mset_all kvs []) k = mget (rev kvs) k.
Proof. rewrite mget_mset_all. destruct (mget (rev kvs) k); reflexivity. Qed.

(** ** MarshalGo *)

Lemma marshal_native v : data v -> native (marshal_go v).
Proof.
  induction v as [|s|t l IH|t m IH|t m IH|i l IH|i m IH|t c n] using value_ind'; intro D; inversion D; subst; cbn [marshal_go].
  - constructor.
  - destruct s as [b|k z|f|n s]; try constructor. destruct k; cbn; auto 6.
  - constructor. apply Forall_map. rewrite Forall_forall in *. auto.
  - rewrite marshal_map by assumption. constructor; [rewrite mkeys_onto; assumption|].
    apply Forall_map. rewrite Forall_forall in *. cbn [onto fst snd]. auto.
  - constructor; [apply NoDup_mset_all; constructor|]. apply (mset_all_Forall native); [|constructor].
    apply Forall_map. cbn [fst snd]. rewrite Forall_forall in *. auto.
  - constructor. apply Forall_map. rewrite Forall_forall in *. auto.
  - rewrite marshal_map by assumption. constructor; [rewrite mkeys_onto; assumption|].
    apply Forall_map. rewrite Forall_forall in *. cbn [onto fst snd]. auto.
Qed.

Lemma map_fix {A} (f : A -> A) l : Forall (fun x => f x = x) l -> map f l = l.
Proof. induction 1 as [|x l H F IH]; [reflexivity|]. cbn. rewrite H, IH. reflexivity. Qed.

Lemma marshal_fixed v : native v -> marshal_go v = v.
Proof.
  induction v as [|s|t l IH|t m IH|t m IH|i l IH|i m IH|t c n] using value_ind'; intro D; inversion D; subst; cbn [marshal_go marshal_scalar]; try reflexivity.
  - match goal with H : In _ _ |- _ => destruct H as [<-|[<-|[<-|[<-|[]]]]] end; reflexivity.
  - f_equal. apply map_fix. rewrite Forall_forall in *. auto.
  - rewrite marshal_map by assumption. f_equal. apply map_fix. rewrite Forall_forall in *. intros [k v] I. unfold onto. cbn [fst snd].
    f_equal. apply (IH (k, v) I). use_in I.
Qed.

Lemma same_scalar_marshal s : same_scalar s (marshal_scalar s).
Proof. destruct s as [b|k z|f|n s]; constructor; destruct k; cbn; split; congruence || reflexivity || idtac. Qed.

Lemma Forall2_map_r' {A B} (R : A -> B -> Prop) (f : A -> B) l : Forall (fun x => R x (f x)) l -> Forall2 R l (map f l).
Proof. induction 1; cbn; constructor; auto. Qed.

Lemma marshal_same v : data v -> same_content v (marshal_go v).
Proof.
  induction v as [|s|t l IH|t m IH|t m IH|i l IH|i m IH|t c n] using value_ind'; intro D; inversion D; subst; cbn [marshal_go].
  - constructor.
  - constructor. apply same_scalar_marshal.
  - eapply sc_list; [constructor|constructor|]. apply Forall2_map_r'. rewrite Forall_forall in *. auto.
  - rewrite marshal_map by assumption. eapply sc_map; [constructor|constructor|]. apply Forall2_map_r'. rewrite Forall_forall in *. cbn [onto fst snd]. auto.
  - eapply (sc_mapk _ _ (map (fun kv => (sprint_scalar (fst kv), marshal_go (snd kv))) m)); [constructor|apply NoDup_mset_all; constructor|intro k; apply mset_all_rev_get|].
    apply (Forall2_map_r' _ (fun kv => (sprint_scalar (fst kv), marshal_go (snd kv)))). rewrite Forall_forall in *. cbn [fst snd]. auto.
  - eapply sc_list; [constructor|constructor|]. apply Forall2_map_r'. rewrite Forall_forall in *. auto.
  - rewrite marshal_map by assumption. eapply sc_map; [constructor|constructor|]. apply Forall2_map_r'. rewrite Forall_forall in *. cbn [onto fst snd]. auto.
Qed.

(** ** Conversion of native data *)

Lemma conv_native_slice i t l : conv i (VSlice t l) = VList i (map (conv i) l).
Proof.
  cbn [conv]. destruct (existsb need_conv l) eqn:Ex; [reflexivity|]. apply Forall_need_conv in Ex. rewrite map_conv_converted by exact Ex. reflexivity.
Qed.
Lemma conv_pairs i m : existsb (fun kv : str * value => need_conv (snd kv)) m = false -> map (onto (conv i)) m = m.
Proof.
  intro Ex. apply Forall_need_conv_pairs in Ex. apply map_fix. eapply Forall_impl; [|exact Ex]. intros [k v] C. unfold onto. cbn [fst snd] in *.
  rewrite conv_of_converted by exact C. reflexivity.
Qed.
Lemma conv_native_map i t m : conv i (VMap t m) = VDict i (map (onto (conv i)) m).
Proof.
  cbn [conv]. change (fun kv : str * value => (fst kv, conv i (snd kv))) with (onto (conv i)).
  destruct (existsb _ m) eqn:Ex; [reflexivity|]. rewrite conv_pairs by exact Ex. reflexivity.
Qed.

(** Printed keys. *)
Definition printed {A} (g : value -> A) (kv : scalar * value) : str * A := (sprint_scalar (fst kv), g (snd kv)).
Lemma onto_printed {A B} (h : A -> B) (g : value -> A) m :
  map (onto h) (mset_all (map (printed g) m) []) = mset_all (map (printed (fun v => h (g v))) m) [].
Proof. rewrite <- (mset_all_onto h (map (printed g) m) []). rewrite map_map. reflexivity. Qed.

Lemma back_same i v : data v -> same_content v (conv i (marshal_go v)).
Proof.
  induction v as [|s|t l IH|t m IH|t m IH|j l IH|j m IH|t c n] using value_ind'; intro D; inversion D; subst; cbn [marshal_go].
  - constructor.
  - constructor. apply same_scalar_marshal.
  - rewrite conv_native_slice, map_map. eapply sc_list; [constructor|constructor|].
    apply (Forall2_map_r' _ (fun x => conv i (marshal_go x))). rewrite Forall_forall in *. auto.
  - rewrite marshal_map, conv_native_map, map_map by assumption. eapply sc_map; [constructor|constructor|].
    apply (Forall2_map_r' _ (fun x => onto (conv i) (onto marshal_go x))). rewrite Forall_forall in *. cbn [onto fst snd]. auto.
  - change (fun kv : scalar * value => (sprint_scalar (fst kv), marshal_go (snd kv))) with (printed marshal_go).
    rewrite conv_native_map. rewrite (onto_printed (conv i) marshal_go m).
    eapply (sc_mapk _ _ (map (printed (fun v => conv i (marshal_go v))) m)); [constructor|apply NoDup_mset_all; constructor|intro k; apply mset_all_rev_get|].
    apply (Forall2_map_r' _ (printed (fun v => conv i (marshal_go v)))). rewrite Forall_forall in *. cbn [printed fst snd]. auto.
  - rewrite conv_native_slice, map_map. eapply sc_list; [constructor|constructor|].
    apply (Forall2_map_r' _ (fun x => conv i (marshal_go x))). rewrite Forall_forall in *. auto.
  - rewrite marshal_map, conv_native_map, map_map by assumption. eapply sc_map; [constructor|constructor|].
    apply (Forall2_map_r' _ (fun x => onto (conv i) (onto marshal_go x))). rewrite Forall_forall in *. cbn [onto fst snd]. auto.
Qed.

(** Nothing is lost by converting before. *)
Lemma conv_list_map i j l : conv i (VList j l) = VList (if existsb need_conv l then i else j) (map (conv i) l).
Proof.
  cbn [conv]. destruct (existsb need_conv l) eqn:Ex; [reflexivity|]. apply Forall_need_conv in Ex. rewrite map_conv_converted by exact Ex. reflexivity.
Qed.
Lemma conv_dict_map i j m : conv i (VDict j m) = VDict (if existsb (fun kv => need_conv (snd kv)) m then i else j) (map (onto (conv i)) m).
Proof.
  cbn [conv]. change (fun kv : str * value => (fst kv, conv i (snd kv))) with (onto (conv i)).
  destruct (existsb _ m) eqn:Ex; [reflexivity|]. rewrite conv_pairs by exact Ex. reflexivity.
Qed.

Lemma marshal_conv i v : data v -> marshal_go (conv i v) = marshal_go v.
Proof.
  induction v as [|s|t l IH|t m IH|t m IH|j l IH|j m IH|t c n] using value_ind'; intro D; inversion D; subst; try reflexivity.
  - rewrite conv_native_slice. cbn [marshal_go]. rewrite map_map. f_equal. apply map_ext_in. rewrite Forall_forall in *. auto.
  - rewrite conv_native_map. cbn [marshal_go]. rewrite !marshal_map, map_map by (rewrite ?mkeys_onto; assumption). f_equal. apply map_ext_in.
    intros [k v] I. unfold onto. cbn [fst snd]. f_equal. rewrite Forall_forall in *. apply (IH (k, v) I). use_in I.
  - cbn [conv marshal_go]. f_equal.
    change (fun kv : scalar * value => (sprint_scalar (fst kv), conv i (snd kv))) with (printed (conv i)).
    rewrite marshal_map by (apply NoDup_mset_all; constructor). rewrite onto_printed. f_equal. apply map_ext_in.
    intros [k v] I. unfold printed. cbn [fst snd]. f_equal. rewrite Forall_forall in *. apply (IH (k, v) I). use_in I.
  - rewrite conv_list_map. cbn [marshal_go]. rewrite map_map. f_equal. apply map_ext_in. rewrite Forall_forall in *. auto.
  - rewrite conv_dict_map. cbn [marshal_go]. rewrite !marshal_map, map_map by (rewrite ?mkeys_onto; assumption). f_equal. apply map_ext_in.
    intros [k v] I. unfold onto. cbn [fst snd]. f_equal. rewrite Forall_forall in *. apply (IH (k, v) I). use_in I.
Qed.

(** ** Integral floats *)

Lemma eqb_sval f g : SFeqb f g = true -> valid f -> valid g -> sval f = sval g.
Proof.
  unfold SFeqb, SFcompare. destruct f as [s|s| |s m e], g as [s'|s'| |s' m' e']; cbn [valid]; intros H V V'; try contradiction; try reflexivity; try discriminate.
  - destruct s'; discriminate.
  - destruct s; discriminate.
  - destruct s, s'; try discriminate.
    + destruct (Z.compare_spec e e') as [->|L|L]; try discriminate. destruct (Pos.compare_cont Eq m m') eqn:Ec; try discriminate.
      apply Pos.compare_eq in Ec. subst. reflexivity.
    + destruct (Z.compare_spec e e') as [->|L|L]; try discriminate. destruct (Pos.compare_cont Eq m m') eqn:Ec; try discriminate.
      apply Pos.compare_eq in Ec. subst. reflexivity.
Qed.
Lemma eqb_refl_valid f : valid f -> SFeqb f f = true.
Proof.
  unfold SFeqb, SFcompare. destruct f as [s|s| |s m e]; cbn [valid]; intro V; try contradiction; [reflexivity|].
  rewrite Z.compare_refl. change (Pos.compare_cont Eq m m) with (Pos.compare m m). rewrite Pos.compare_refl. destruct s; reflexivity.
Qed.

Local Open Scope Z_scope.

Lemma canon_bound m e : canon m e -> Z.pos m < 2 ^ 53.
Proof. intros [H _]. apply Z.log2_lt_pow2; lia. Qed.

Lemma mval_ge m e : 0 <= e -> mval m e = Z.pos m * 2 ^ e * 2 ^ 1074.
Proof. intro H. unfold mval. rewrite Z.pow_add_r by lia. ring. Qed.
Lemma mval_lt m e : - 1074 <= e -> e < 0 -> mval m e * 2 ^ (- e) = Z.pos m * 2 ^ 1074.
Proof. intros H L. unfold mval. rewrite <- Z.mul_assoc, <- Z.pow_add_r by lia. do 2 f_equal. lia. Qed.

(** The value of an integral float with a negative exponent is below 2^53. *)
Lemma is_int_small s m e z : is_int (S754_finite s m e) z -> e < 0 -> small z.
Proof.
  intros [V H] L. cbn [valid sval] in *. pose proof (canon_bound m e V) as B. pose proof (canon_min m e V) as M. pose proof p1074 as P.
  pose proof (mval_lt m e M L) as ML.
  assert (A : Z.abs z * 2 ^ (- e) = Z.pos m).
  { apply (Z.mul_cancel_r _ _ (2 ^ 1074)); [lia|]. rewrite <- ML.
    assert (Z.abs (cond_Zopp s (mval m e)) = mval m e) as X by (pose proof (mval_pos m e M); destruct s; cbn [cond_Zopp]; lia).
    rewrite <- X, H, Z.abs_mul, (Z.abs_eq (2 ^ 1074)) by lia. ring. }
  assert (1 <= 2 ^ (- e)) by (apply (Z.pow_le_mono_r 2 0); lia).
  assert (Z.abs z <= Z.pos m) by nia. unfold small. lia.
Qed.

Lemma floor_int f z : is_int f z -> ffloor f = f.
Proof.
  intros I. destruct f as [s|s| |s m e] eqn:Ef; try reflexivity. destruct (Z.leb_spec 0 e) as [L|L].
  - cbn [ffloor]. replace (0 <=? e) with true by (symmetry; apply Z.leb_le; exact L). reflexivity.
  - apply (ffloor_int _ z I). exact (is_int_small s m e z I L).
Qed.

Lemma trunc_any f z : is_int f z -> trunc_z f = z.
Proof.
  intros I. destruct f as [s|s| |s m e] eqn:Ef; pose proof I as [V H]; cbn [valid sval] in V, H; try contradiction.
  - cbn [trunc_z]. pose proof p1074. nia.
  - destruct (Z.leb_spec 0 e) as [L|L].
    + cbn [trunc_z]. replace (0 <=? e) with true by (symmetry; apply Z.leb_le; exact L).
      rewrite mval_ge in H by exact L. apply (Z.mul_cancel_r _ _ (2 ^ 1074)); [pose proof p1074; lia|]. rewrite <- H. destruct s; cbn [cond_Zopp]; ring.
    + apply trunc_int; [exact I|]. exact (is_int_small s m e z I L).
Qed.

Lemma floor_z_bound s m e : canon m e -> e < 0 -> small (floor_z (S754_finite s m e)).
Proof.
  intros C L. pose proof (canon_bound m e C). cbn [floor_z]. replace (0 <=? e) with false by (symmetry; apply Z.leb_gt; exact L).
  assert (1 <= 2 ^ (- e)) by (apply (Z.pow_le_mono_r 2 0); lia). unfold small. destruct s.
  - split; [|apply Z.lt_le_incl; apply Z.div_lt_upper_bound; nia]. apply Z.div_le_lower_bound; nia.
  - split; [transitivity 0; [lia|apply Z.div_pos; lia]|]. apply Z.div_le_upper_bound; nia.
Qed.

Lemma floor_conv f : valid f -> SFeqb (ffloor f) f = true -> exists z, is_int f z.
Proof.
  intros V H. destruct f as [s|s| |s m e]; cbn [valid] in V; try contradiction.
  - exists 0. apply is_int_zero.
  - destruct (Z.leb_spec 0 e) as [L|L].
    + exists (cond_Zopp s (Z.pos m * 2 ^ e)). split; [exact V|]. cbn [sval]. rewrite mval_ge by exact L. destruct s; cbn [cond_Zopp]; ring.
    + cbn [ffloor] in H. replace (0 <=? e) with false in H by (symmetry; apply Z.leb_gt; exact L).
      destruct (Z.eqb_spec (floor_z (S754_finite s m e)) 0) as [Z0|NZ].
      * destruct s; discriminate H.
      * exists (floor_z (S754_finite s m e)). pose proof (floor_z_bound s m e V L) as B. destruct (of_int_spec _ B) as [V1 S1].
        split; [exact V|]. rewrite <- S1. symmetry. apply eqb_sval; [exact H|exact V1|exact V].
Qed.

Lemma json_number_int f z : is_int f z -> - 2 ^ 63 <= z < 2 ^ 63 -> json_number (VScal (SFloat f)) = vint z.
Proof.
  intros I B. cbn [json_number]. rewrite (floor_int f z I), (eqb_refl_valid f (proj1 I)).
  assert (T := trunc_any f z I). unfold f_int64. destruct f as [s|s| |s m e]; try (destruct I as [V _]; contradiction V);
    rewrite T; (replace (in_int64 z) with true by (symmetry; apply in_int64_iff; exact B)); reflexivity.
Qed.
Lemma json_number_other f : valid f -> (forall z, ~ is_int f z) -> json_number (VScal (SFloat f)) = VScal (SFloat f).
Proof.
  intros V N. cbn [json_number]. destruct (SFeqb (ffloor f) f) eqn:Eb; [|reflexivity]. destruct (floor_conv f V Eb) as [z I]. exfalso. exact (N z I).
Qed.
Local Close Scope Z_scope.

(** ** Decoded documents *)

(** The transformation of converted data, structurally. *)
Fixpoint tr (i : impl) (v : value) : value :=
  match v with
  | VNil => VDict i []
  | VScal _ => match i with Json => json_number v | _ => v end
  | VList j l => VList j (map (tr i) l)
  | VDict j m => VDict j (map (fun kv => (fst kv, tr i (snd kv))) m)
  | _ => v
  end.

Lemma json_number_scal s : exists s', json_number (VScal s) = VScal s'.
Proof. destruct s as [b|k z|f|n s]; try (eexists; reflexivity). cbn [json_number]. destruct (SFeqb (ffloor f) f); eexists; reflexivity. Qed.

Lemma tr_converted i v : converted v -> converted (tr i v).
Proof.
  induction v as [|s|t l IH|t m IH|t m IH|j l IH|j m IH|t c n] using value_ind'; intro C; inversion C; subst; cbn [tr]; try constructor.
  - constructor.
  - destruct i; try constructor. destruct (json_number_scal s) as [s' ->]. constructor.
  - apply Forall_map. rewrite Forall_forall in *. auto.
  - apply Forall_map. cbn [snd]. rewrite Forall_forall in *. auto.
Qed.

(** Successive assignments of transformed values. *)
Lemma fold_set (g : value -> value) : forall ks m, NoDup ks -> NoDup (mkeys m) -> (forall k, In k ks -> In k (mkeys m)) ->
  forall k, mget (fold_left (fun m k => mset m k (g (mget0 m k))) ks m) k =
    (if in_dec str_eq_dec k ks then option_map g (mget m k) else mget m k).
Proof.
  induction ks as [|j ks IH]; intros m N Nm S k; [reflexivity|]. cbn [fold_left]. inversion N; subst.
  rewrite IH; [|assumption|apply NoDup_mset; exact Nm|].
  - rewrite mget_mset. destruct (str_eqb_spec k j) as [->|Nk].
    + destruct (in_dec str_eq_dec j ks); [contradiction|]. destruct (in_dec str_eq_dec j (j :: ks)) as [_|X]; [|exfalso; apply X; left; reflexivity].
      unfold mget0. assert (In j (mkeys m)) by (apply S; left; reflexivity). apply mget_keys in H. destruct H as [v ->]. reflexivity.
    + destruct (in_dec str_eq_dec k ks) as [I|I]; destruct (in_dec str_eq_dec k (j :: ks)) as [I'|I']; try reflexivity.
      * exfalso. apply I'. right. exact I.
      * destruct I' as [I'|I']; [congruence|contradiction].
  - intros k' I. apply mget_keys. rewrite mget_mset. destruct (str_eqb k' j); [eexists; reflexivity|]. apply mget_keys. apply S. right. exact I.
Qed.

Lemma mset_keys {A} (m : list (str * A)) k v : In k (mkeys m) -> mkeys (mset m k v) = mkeys m.
Proof.
  induction m as [|[j w] m IH]; intro I; [destruct I|]. cbn [mset]. destruct (str_eqb_spec k j) as [->|N]; [reflexivity|].
  cbn [mkeys map fst] in *. f_equal. apply IH. destruct I as [I|I]; [congruence|exact I].
Qed.
Lemma fold_set_keys (g : value -> value) : forall ks m, (forall k, In k ks -> In k (mkeys m)) ->
  mkeys (fold_left (fun m k => mset m k (g (mget0 m k))) ks m) = mkeys m.
Proof.
  induction ks as [|j ks IH]; intros m S; [reflexivity|]. cbn [fold_left].
  assert (K : mkeys (mset m j (g (mget0 m j))) = mkeys m) by (apply mset_keys; apply S; left; reflexivity).
  rewrite IH; [exact K|]. intros k I. rewrite K. apply S. right. exact I.
Qed.
Lemma maps_equal {A} (m m' : list (str * A)) : mkeys m = mkeys m' -> NoDup (mkeys m) -> (forall k, mget m k = mget m' k) -> m = m'.
Proof.
  revert m'. induction m as [|[k v] m IH]; intros [|[k' v'] m'] K N G; try discriminate; [reflexivity|].
  cbn [mkeys map fst] in K, N. inversion K as [[K1 K2]]. subst k'. inversion N as [|? ? N1 N2]; subst.
  pose proof (G k) as Gk. cbn [mget] in Gk. rewrite str_eqb_refl in Gk. inversion Gk; subst v'. f_equal. apply IH; [exact K2|exact N2|].
  intro j. pose proof (G j) as Gj. cbn [mget] in Gj. destruct (str_eqb_spec j k) as [Ej|Ej]; [rewrite Ej|exact Gj].
  transitivity (@None A); [apply mget_None; exact N1|symmetry; apply mget_None; fold (mkeys m') in K2; rewrite <- K2; exact N1].
Qed.
Lemma fold_set_map (g : value -> value) m : NoDup (mkeys m) ->
  fold_left (fun m k => mset m k (g (mget0 m k))) (dict_keys_as_string m) m = map (onto g) m.
Proof.
  intro N. destruct (keys_as_string_spec m m N (Permutation_refl m)) as (P & ND & _ & _ & _).
  assert (S : forall k, In k (dict_keys_as_string m) <-> In k (mkeys m)).
  { intro k. split; intro I; eapply Permutation_in; try exact I; [exact P|apply Permutation_sym; exact P]. }
  assert (K : mkeys (fold_left (fun m k => mset m k (g (mget0 m k))) (dict_keys_as_string m) m) = mkeys m).
  { apply fold_set_keys. intros k I. apply S. exact I. }
  apply maps_equal.
  - rewrite K, mkeys_onto. reflexivity.
  - rewrite K. exact N.
  - intro k. rewrite fold_set; [|exact ND|exact N|intros j I; apply S; exact I]. rewrite mget_onto.
    destruct (in_dec str_eq_dec k (dict_keys_as_string m)) as [I|I]; [reflexivity|].
    assert (G : mget m k = None) by (apply mget_None; intro J; apply I; apply S; exact J). rewrite G. reflexivity.
Qed.
Lemma fold_left_ext {A B} (f g : A -> B -> A) l : (forall a b, In b l -> f a b = g a b) -> forall a, fold_left f l a = fold_left g l a.
Proof. induction l as [|b l IH]; intros H a; [reflexivity|]. cbn. rewrite H by (left; reflexivity). apply IH. intros. apply H. right. assumption. Qed.

Lemma list_max_le l n : list_max l <= n <-> Forall (fun k => k <= n) l.
Proof. apply list_max_le. Qed.

Lemma yaml_keys_id v : (forall t m, v <> VMapK t m) -> yaml_keys v = v.
Proof. destruct v; intro N; try reflexivity. exfalso. eapply N. reflexivity. Qed.

Lemma source_id i v : (forall t m, v <> VMapK t m) -> match i with Yaml => yaml_keys v | _ => v end = v.
Proof. intro N. destruct i; try reflexivity. apply yaml_keys_id. exact N. Qed.

Lemma transform_converted i : forall fuel v, converted v -> wf v -> depth v < fuel -> transform_element fuel i v = tr i v.
Proof.
  induction fuel as [|fuel IH]; intros v C W D; [lia|].
  cbn [transform_element]. rewrite source_id by (intros t m ->; inversion C).
  destruct v as [|s|t l|t m|t m|j l|j m|t c n]; inversion C; subst.
  - reflexivity.
  - destruct i; reflexivity.
  - cbn [try_as_dict try_as_list]. rewrite conv_of_converted by exact C. cbn [tr]. f_equal. apply map_ext_in. intros x I.
    inversion W; subst. rewrite Forall_forall in *. rewrite IH; [|apply H0; exact I|auto|].
    + apply conv_of_converted. apply tr_converted. apply H0. exact I.
    + cbn [depth] in D. assert (X : list_max (map depth l) <= fuel - 1) by lia. apply list_max_le in X. rewrite Forall_forall in X.
      assert (depth x <= fuel - 1) by (apply X; apply in_map; exact I). lia.
  - cbn [try_as_dict]. rewrite conv_of_converted by exact C. cbn [tr]. f_equal. inversion W; subst.
    assert (Dx : forall kv, In kv m -> depth (snd kv) < fuel).
    { intros kv I. cbn [depth] in D. assert (X : list_max (map (fun kv => depth (snd kv)) m) <= fuel - 1) by lia. apply list_max_le in X.
      rewrite Forall_forall in X. assert (depth (snd kv) <= fuel - 1) by (apply X; apply (in_map (fun kv => depth (snd kv)) m); exact I). lia. }
    transitivity (map (onto (fun v => conv j (transform_element fuel i v))) m).
    + rewrite <- fold_set_map by assumption. reflexivity.
    + apply map_ext_in. intros [k v] I. unfold onto. cbn [fst snd]. f_equal. rewrite Forall_forall in *.
      rewrite IH; [|apply (H0 (k, v) I)|apply (H3 (k, v) I)|apply (Dx (k, v) I)].
      apply conv_of_converted. apply tr_converted. apply (H0 (k, v) I).
  - destruct i; reflexivity.
Qed.

Lemma conv_idem' i v : conv i (conv i v) = conv i v.
Proof. apply conv_of_converted. apply conv_converted. Qed.

Lemma depth_mset_all (kvs : list (str * value)) n : Forall (fun kv => depth (snd kv) <= n) kvs ->
  forall m, Forall (fun kv => depth (snd kv) <= n) m -> Forall (fun kv => depth (snd kv) <= n) (mset_all kvs m).
Proof.
  intros F m Fm. apply (mset_all_Forall (fun v => depth v <= n)); assumption.
Qed.

Lemma conv_depth i v : depth (conv i v) <= depth v.
Proof.
  induction v as [|s|t l IH|t m IH|t m IH|j l IH|j m IH|t c n] using value_ind'; try (apply le_n).
  - rewrite conv_native_slice. cbn [depth]. apply le_n_S. rewrite map_map. apply list_max_le, Forall_map.
    rewrite Forall_forall in *. intros x I. etransitivity; [apply IH; exact I|].
    assert (X : list_max (map depth l) <= list_max (map depth l)) by lia. apply list_max_le in X. rewrite Forall_forall in X. apply X. apply in_map. exact I.
  - rewrite conv_native_map. cbn [depth]. apply le_n_S. rewrite map_map. apply list_max_le, Forall_map.
    rewrite Forall_forall in *. intros x I. cbn [onto snd]. etransitivity; [apply IH; exact I|].
    assert (X : list_max (map (fun kv => depth (snd kv)) m) <= list_max (map (fun kv => depth (snd kv)) m)) by lia. apply list_max_le in X. rewrite Forall_forall in X. apply X. apply (in_map (fun kv => depth (snd kv))). exact I.
  - cbn [conv depth]. apply le_n_S. apply list_max_le, Forall_map. apply depth_mset_all; [|constructor].
    apply Forall_map. cbn [snd]. rewrite Forall_forall in *. intros x I. etransitivity; [apply IH; exact I|].
    assert (X : list_max (map (fun kv => depth (snd kv)) m) <= list_max (map (fun kv => depth (snd kv)) m)) by lia. apply list_max_le in X. rewrite Forall_forall in X. apply X. apply (in_map (fun kv => depth (snd kv))). exact I.
  - rewrite conv_list_map. cbn [depth]. apply le_n_S. rewrite map_map. apply list_max_le, Forall_map.
    rewrite Forall_forall in *. intros x I. etransitivity; [apply IH; exact I|].
    assert (X : list_max (map depth l) <= list_max (map depth l)) by lia. apply list_max_le in X. rewrite Forall_forall in X. apply X. apply in_map. exact I.
  - rewrite conv_dict_map. cbn [depth]. apply le_n_S. rewrite map_map. apply list_max_le, Forall_map.
    rewrite Forall_forall in *. intros x I. cbn [onto snd]. etransitivity; [apply IH; exact I|].
    assert (X : list_max (map (fun kv => depth (snd kv)) m) <= list_max (map (fun kv => depth (snd kv)) m)) by lia. apply list_max_le in X. rewrite Forall_forall in X. apply X. apply (in_map (fun kv => depth (snd kv))). exact I.
Qed.

Lemma wf_conv i v : wf v -> wf (conv i v).
Proof.
  induction v as [|s|t l IH|t m IH|t m IH|j l IH|j m IH|t c n] using value_ind'; intro W; inversion W; subst; try (constructor; fail).
  - rewrite conv_native_slice. constructor. apply Forall_map. rewrite Forall_forall in *. auto.
  - rewrite conv_native_map. constructor; [rewrite mkeys_onto; assumption|]. apply Forall_map. cbn [onto snd]. rewrite Forall_forall in *. auto.
  - cbn [conv]. constructor; [apply NoDup_mset_all; constructor|]. apply (mset_all_Forall wf); [|constructor]. apply Forall_map. cbn [snd]. rewrite Forall_forall in *. auto.
  - rewrite conv_list_map. constructor. apply Forall_map. rewrite Forall_forall in *. auto.
  - rewrite conv_dict_map. constructor; [rewrite mkeys_onto; assumption|]. apply Forall_map. cbn [onto snd]. rewrite Forall_forall in *. auto.
Qed.

(** yaml_keys does not change what the conversion gives. *)
Lemma conv_yaml_keys i v : conv i (yaml_keys v) = conv i v.
Proof.
  destruct v as [|s|t l|t m|t m|j l|j m|t c n]; try reflexivity. cbn [yaml_keys]. destruct (N.eqb t 0); [|reflexivity].
  rewrite conv_native_map. cbn [conv]. f_equal.
  change (fun kv : scalar * value => (sprint_scalar (fst kv), snd kv)) with (printed (fun v => v)).
  change (fun kv : scalar * value => (sprint_scalar (fst kv), conv i (snd kv))) with (printed (conv i)).
  rewrite (onto_printed (conv i) (fun v => v) m). reflexivity.
Qed.

Lemma yaml_keys_shape v : yaml_keys v = v \/ exists t m, v = VMapK t m /\ exists m', yaml_keys v = VMap 0 m'.
Proof.
  destruct v as [|s|t l|t m|t m|j l|j m|t c n]; try (left; reflexivity). cbn [yaml_keys]. destruct (N.eqb t 0); [|left; reflexivity].
  right. exists t, m. split; [reflexivity|]. eexists. reflexivity.
Qed.

(** The conversion decides. *)
Definition step (fuel : nat) (i : impl) (c : value) : value :=
  match c with
  | VNil => VDict i []
  | VDict j m => VDict j (fold_left (fun m key => dict_set j m (vnstr key) (transform_element fuel i (dict_get1 m (vnstr key)))) (dict_keys_as_string m) m)
  | VList j l => VList j (map (fun sub => conv j (transform_element fuel i sub)) l)
  | _ => match i with Json => json_number c | _ => c end
  end.
Lemma step_conv fuel i v : transform_element (S fuel) i v = step fuel i (conv i v).
Proof.
  cbn [transform_element].
  assert (H : forall w, match try_as_dict i w with
      | Some (j, m) => VDict j (fold_left (fun m key => dict_set j m (vnstr key) (transform_element fuel i (dict_get1 m (vnstr key)))) (dict_keys_as_string m) m)
      | None => match try_as_list i w with
          | Some (j, l) => VList j (map (fun sub => conv j (transform_element fuel i sub)) l)
          | None => match i with Json => json_number w | _ => w end end end = step fuel i (conv i w)).
  { intro w. destruct w as [|s|t l|t m|t m|j l|j m|t c n].
    - reflexivity.
    - destruct i; reflexivity.
    - cbn [try_as_dict try_as_list]. rewrite conv_native_slice. reflexivity.
    - cbn [try_as_dict]. rewrite conv_native_map. reflexivity.
    - reflexivity.
    - cbn [try_as_dict try_as_list]. rewrite conv_list_map. reflexivity.
    - cbn [try_as_dict]. rewrite conv_dict_map. reflexivity.
    - destruct i; reflexivity. }
  destruct i; try apply H. rewrite (H (yaml_keys v)), conv_yaml_keys. reflexivity.
Qed.

Lemma transform_eq i v : wf v -> forall fuel, depth v < fuel -> transform_element fuel i v = tr i (conv i v).
Proof.
  intros W [|fuel] D; [lia|]. rewrite step_conv, <- (conv_idem' i v), <- step_conv, conv_idem'.
  apply transform_converted; [apply conv_converted|apply wf_conv; exact W|]. pose proof (conv_depth i v). lia.
Qed.

(** A document is well formed except that the keys of other maps may be equal. *)
Lemma tr_processed json i v : (json = true <-> i = Json) -> document json v -> processed json i v (tr i (conv i v)).
Proof.
  intro J. induction v as [|s|t l IH|t m IH|t m IH|j l IH|j m IH|t c n] using value_ind'; intro D; inversion D; subst.
  - constructor.
  - cbn [conv tr]. destruct json.
    + rewrite (proj1 J eq_refl). destruct s as [b|k z|f|n s]; try (apply pr_scal; intros _ f' X; discriminate X).
      destruct (H0 eq_refl f eq_refl) as [V B]. destruct (SFeqb (ffloor f) f) eqn:Ef.
      * destruct (floor_conv f V Ef) as [z I]. rewrite (json_number_int f z I (B z I)). apply pr_int; [reflexivity|exact I].
      * assert (N : forall z, ~ is_int f z). { intros z I. rewrite (floor_int f z I), (eqb_refl_valid f V) in Ef. discriminate. }
        rewrite (json_number_other f V N). apply pr_scal. intros _ f' X. injection X as <-. exact N.
    + destruct i; try (apply pr_scal; intro X; discriminate X). exfalso. assert (false = true) by (apply J; reflexivity). discriminate.
  - rewrite conv_native_slice. cbn [tr]. rewrite map_map. apply pr_slice. apply (Forall2_map_r' _ (fun x => tr i (conv i x))). rewrite Forall_forall in *. auto.
  - rewrite conv_native_map. cbn [tr]. rewrite map_map. apply pr_map.
    apply (Forall2_map_r' _ (fun x => (fst (onto (conv i) x), tr i (snd (onto (conv i) x))))). cbn [onto fst snd]. rewrite Forall_forall in *. auto.
  - cbn [conv tr].
    change (fun kv : scalar * value => (sprint_scalar (fst kv), conv i (snd kv))) with (printed (conv i)).
    change (fun kv : str * value => (fst kv, tr i (snd kv))) with (onto (tr i)). rewrite onto_printed.
    apply (pr_mapk _ _ _ _ (map (printed (fun v => tr i (conv i v))) m)); [|apply NoDup_mset_all; constructor|intro k; apply mset_all_rev_get].
    apply (Forall2_map_r' _ (printed (fun v => tr i (conv i v)))). cbn [printed fst snd]. rewrite Forall_forall in *. auto.
  - constructor.
Qed.

Lemma document_wf json v : document json v -> wf v.
Proof.
  induction v as [|s|t l IH|t m IH|t m IH|j l IH|j m IH|t c n] using value_ind'; intro D; inversion D; subst; constructor; try assumption;
    rewrite Forall_forall in *; auto.
Qed.

Lemma transform_spec json i v : (json = true <-> i = Json) -> i <> Hcl -> document json v -> processed json i v (transform i false v).
Proof.
  intros J N D. unfold transform. replace (match i with Hcl => flatten v | _ => v end) with v by (destruct i; congruence).
  rewrite transform_eq; [|exact (document_wf json v D)|lia]. apply tr_processed; assumption.
Qed.

Lemma flatten_spec v : hcl_document v -> unwrapped v (flatten v) /\ document false (flatten v).
Proof.
  induction v as [|s|t l IH|t m IH|t m IH|j l IH|j m IH|t c n] using value_ind'; intro D; inversion D; subst; cbn [flatten].
  - split; constructor.
  - split; constructor. intro X; discriminate X.
  - change (N.eqb 1 maps_type) with true. cbn iota.
    assert (G : Forall (fun x => unwrapped x (flatten x) /\ document false (flatten x)) l) by (rewrite Forall_forall in *; auto).
    assert (R : List.length l <> 1 -> unwrapped (VSlice 1 l) (VSlice 1 (map flatten l)) /\ document false (VSlice 1 (map flatten l))).
    { intro L. split.
      - apply uw_maps; [exact L|]. apply Forall2_map_r'. eapply Forall_impl; [|exact G]. cbn beta. intuition.
      - constructor. apply Forall_map. eapply Forall_impl; [|exact G]. cbn beta. intuition. }
    destruct l as [|x [|y l]]; try (apply R; discriminate).
    inversion G as [|? ? [G1 G2] _]; subst. split; [apply uw_one; exact G1|exact G2].
  - change (N.eqb 0 maps_type) with false. change (N.eqb 0 0) with true. cbn iota.
    assert (G : Forall (fun x => unwrapped x (flatten x) /\ document false (flatten x)) l) by (rewrite Forall_forall in *; auto). split.
    + apply uw_slice. apply Forall2_map_r'. eapply Forall_impl; [|exact G]. cbn beta. intuition.
    + constructor. apply Forall_map. eapply Forall_impl; [|exact G]. cbn beta. intuition.
  - change (N.eqb 0 0) with true. cbn iota.
    assert (G : Forall (fun x => unwrapped (snd x) (flatten (snd x)) /\ document false (flatten (snd x))) m) by (rewrite Forall_forall in *; auto). split.
    + apply uw_map. apply (Forall2_map_r' _ (fun kv => (fst kv, flatten (snd kv)))). eapply Forall_impl; [|exact G]. cbn [fst snd]. intuition.
    + constructor.
      * unfold mkeys. rewrite map_map. assumption.
      * apply Forall_map. eapply Forall_impl; [|exact G]. cbn [snd]. intuition.
  - split; constructor.
Qed.

Lemma transform_hcl v : hcl_document v -> exists u, unwrapped v u /\ processed false Hcl u (transform Hcl false v).
Proof.
  intro D. destruct (flatten_spec v D) as [U F]. exists (flatten v). split; [exact U|].
  unfold transform. rewrite transform_eq; [|exact (document_wf false _ F)|lia]. apply tr_processed; [split; discriminate|exact F].
Qed.

(** A target of type map[string]interface{} receives the native form of the same. *)
Lemma transform_map i v : transform i true v = native_of (transform i false v).
Proof. reflexivity. Qed.

Lemma tr_data i v : converted v -> data v -> data (tr i v).
Proof.
  induction v as [|s|t l IH|t m IH|t m IH|j l IH|j m IH|t c n] using value_ind'; intros C D; inversion D; subst; cbn [tr]; try (inversion C; fail).
  - constructor; constructor.
  - destruct i; try constructor. destruct (json_number_scal s) as [s' ->]. constructor.
  - inversion C; subst. constructor. apply Forall_map. rewrite Forall_forall in *. auto.
  - inversion C; subst. constructor.
    + unfold mkeys. rewrite map_map. assumption.
    + apply Forall_map. cbn [snd]. rewrite Forall_forall in *. auto.
Qed.

Lemma data_conv i v : data v -> data (conv i v).
Proof.
  induction v as [|s|t l IH|t m IH|t m IH|j l IH|j m IH|t c n] using value_ind'; intro W; inversion W; subst; try (constructor; fail).
  - rewrite conv_native_slice. constructor. apply Forall_map. rewrite Forall_forall in *. auto.
  - rewrite conv_native_map. constructor; [rewrite mkeys_onto; assumption|]. apply Forall_map. cbn [onto snd]. rewrite Forall_forall in *. auto.
  - cbn [conv]. constructor; [apply NoDup_mset_all; constructor|]. apply (mset_all_Forall data); [|constructor]. apply Forall_map. cbn [snd]. rewrite Forall_forall in *. auto.
  - rewrite conv_list_map. constructor. apply Forall_map. rewrite Forall_forall in *. auto.
  - rewrite conv_dict_map. constructor; [rewrite mkeys_onto; assumption|]. apply Forall_map. cbn [onto snd]. rewrite Forall_forall in *. auto.
Qed.

Lemma transform_map_spec json i v : i <> Hcl -> document json v -> data v ->
  native (transform i true v) /\ same_content (transform i false v) (transform i true v).
Proof.
  intros N W D. rewrite transform_map.
  assert (T : data (transform i false v)).
  { unfold transform. replace (match i with Hcl => flatten v | _ => v end) with v by (destruct i; congruence).
    rewrite transform_eq; [|exact (document_wf json v W)|lia]. apply tr_data; [apply conv_converted|apply data_conv; exact D]. }
  split; [apply marshal_native; exact T|apply marshal_same; exact T].
Qed.

End WithEnv.
