(** Proofs about dictionaries. *)
From Coq Require Import String Ascii List ZArith NArith Bool Lia Permutation Sorted.
From Verif Require Import GoStr GoStrFacts ValueModel ValueFacts CollSpec ListModel ListProofs DictModel.
Import ListNotations.

(** ** Iteration order *)

Lemma Forall2_keys (R : value -> value -> Prop) (m m' : list (str * value)) :
  Forall2 (fun a b => fst a = fst b /\ R (snd a) (snd b)) m m' -> mkeys m = mkeys m'.
Proof. induction 1 as [|a b m m' [H _] F IH]; simpl; auto. congruence. Qed.

Lemma Forall2_mget (R : value -> value -> Prop) (m m' : list (str * value)) k :
  Forall2 (fun a b => fst a = fst b /\ R (snd a) (snd b)) m m' ->
  match mget m k, mget m' k with
  | None, None => True
  | Some a, Some b => R a b
  | _, _ => False
  end.
Proof.
  induction 1 as [|[a x] [b y] m m' [H1 H2] F IH]; simpl in *; auto.
  subst. destruct (str_eqb k b); auto.
Qed.

Lemma Permutation_Forall_iff {A} {P : A -> Prop} {l l' : list A} : Permutation l l' -> Forall P l <-> Forall P l'.
Proof.
  intros H. rewrite !Forall_forall. split; intros F x Hx; apply F.
  - eapply Permutation_in; [apply Permutation_sym, H|exact Hx].
  - eapply Permutation_in; [apply H|exact Hx].
Qed.

Section WithEnv.
Context {E : Env}.

Lemma veq_list_sprint l l' :
  Forall (fun v => forall w, wf v -> veq v w -> sprint v = sprint w) l ->
  Forall wf l -> Forall2 veq l l' -> map sprint l = map sprint l'.
Proof.
  intros H W F. induction F; simpl; auto. inversion H; inversion W; subst. f_equal; auto.
Qed.

Lemma veq_entries_sprint (m m1 m' : list (str * value)) :
  Forall (fun kv => forall w, wf (snd kv) -> veq (snd kv) w -> sprint (snd kv) = sprint w) m ->
  NoDup (mkeys m) -> Forall (fun kv => wf (snd kv)) m -> Permutation m m1 ->
  Forall2 (fun a b => fst a = fst b /\ veq (snd a) (snd b)) m1 m' ->
  render_entries (map (fun kv => (fst kv, sprint (snd kv))) m) =
  render_entries (map (fun kv => (fst kv, sprint (snd kv))) m').
Proof.
  intros H N W P F.
  rewrite (render_entries_perm _ (map (fun kv => (fst kv, sprint (snd kv))) m1)).
  - f_equal. rewrite (Permutation_Forall_iff P) in H. rewrite (Permutation_Forall_iff P) in W.
    clear -F H W. induction F as [|a b m1 m' [K V] F IH]; simpl; auto.
    inversion H as [|? ? Ha Ht]; inversion W as [|? ? Wa Wt]; subst.
    rewrite IH by assumption. rewrite K, (Ha _ Wa V). reflexivity.
  - rewrite mkeys_map. assumption.
  - apply Permutation_map. assumption.
Qed.

Lemma veq_sprint v w : (forall a b, veq a b -> fmtx a = fmtx b) -> wf v -> veq v w -> sprint v = sprint w.
Proof.
  intros Hf. revert w. induction v using value_ind'; intros w W Q.
  - inversion Q; subst; auto.
  - inversion Q; subst; auto.
  - inversion Q; inversion W; subst. simpl. rewrite (veq_list_sprint l l'); auto.
  - inversion Q; inversion W; subst. simpl. rewrite (veq_entries_sprint m m1 m'); auto.
  - simpl. inversion Q; subst. apply Hf. assumption.
  - inversion Q; inversion W; subst. destruct i; try (simpl; apply Hf; assumption).
    simpl. rewrite (veq_list_sprint l l'); auto.
  - inversion Q; inversion W; subst. destruct i; try (simpl; apply Hf; assumption).
    simpl. rewrite (veq_entries_sprint m m1 m'); auto.
  - inversion Q; subst; auto.
Qed.

(** The text of a base dictionary: "dict[k1:v1 k2:v2 ...]" in key order. *)
Lemma sprint_dict m : NoDup (mkeys m) ->
  exists ks, Permutation ks (mkeys m) /\ Sorted (fun a b => str_leb a b = true) ks /\
  sprint (VDict Base m) =
    $"dict[" ++ join $" " (map (fun k => k ++ $":" ++ sprint (mget0 m k)) ks) ++ $"]".
Proof.
  intros N. exists (sort_strings (mkeys m)).
  split; [apply sort_strings_perm|]. split; [apply sort_strings_sorted|].
  change (sprint (VDict Base m)) with
    ($"dict[" ++ render_entries (map (fun kv => (fst kv, sprint (snd kv))) m) ++ $"]").
  unfold render_entries. rewrite mkeys_map.
  erewrite map_ext_in; [reflexivity|].
  intros k Hk. cbv beta. do 2 f_equal.
  rewrite (mget_map sprint). unfold mget0.
  destruct (mget m k) eqn:G; auto. exfalso. apply mget_None in G. apply G.
  eapply Permutation_in; [apply sort_strings_perm|exact Hk].
Qed.

Lemma keys_as_string_spec m m' : NoDup (mkeys m) -> Permutation m m' ->
  let ks := dict_keys_as_string m in
  Permutation ks (mkeys m) /\ NoDup ks /\ Sorted (fun a b => str_leb a b = true) ks /\
  dict_keys_as_string m' = ks /\ dict_get_keys m' = map vnstr ks.
Proof.
  intros N P ks. assert (Q : Permutation ks (mkeys m)) by apply sort_strings_perm.
  split; auto. split. { eapply Permutation_NoDup; [apply Permutation_sym, Q|assumption]. }
  split; [apply sort_strings_sorted|].
  assert (dict_keys_as_string m' = ks) as Z.
  { apply sort_strings_unique. apply Permutation_sym, Permutation_map. assumption. }
  split; auto. unfold dict_get_keys. rewrite Z. reflexivity.
Qed.

Lemma mget0_perm (m m' : list (str * value)) k : NoDup (mkeys m) -> Permutation m m' -> mget0 m k = mget0 m' k.
Proof. intros N P. unfold mget0. rewrite (mget_perm m m'); auto. Qed.

Lemma get_values_spec i m m' : NoDup (mkeys m) -> Permutation m m' ->
  Forall2 (fun k w => exists v, mget m k = Some v /\ converts i v w)
          (dict_keys_as_string m) (dict_get_values i m) /\
  dict_get_values i m' = dict_get_values i m.
Proof.
  intros N P. split.
  - unfold dict_get_values. apply Forall2_map_r. apply Forall_forall. intros k Hk.
    eapply Permutation_in in Hk; [|apply sort_strings_perm].
    apply mget_keys in Hk as [v Hv]. exists v. split; auto. unfold mget0. rewrite Hv. apply conv_converts.
  - unfold dict_get_values. destruct (keys_as_string_spec m m' N P) as (_ & _ & _ & -> & _).
    apply map_ext. intros k. rewrite (mget0_perm m m'); auto.
Qed.

Lemma transpose_perm i m m' : NoDup (mkeys m) -> Permutation m m' -> dict_transpose i m' = dict_transpose i m.
Proof.
  intros N P. unfold dict_transpose.
  destruct (keys_as_string_spec m m' N P) as (_ & _ & _ & Z & _).
  unfold dict_get_keys. rewrite Z.
  assert (G : forall k, dict_get1 m' k = dict_get1 m k).
  { intros k. unfold dict_get1. symmetry. apply mget0_perm; auto. }
  set (f := fun acc key => _). set (g := fun acc key => _).
  assert (FG : forall a k, f a k = g a k).
  { intros a k. unfold f, g. rewrite G. reflexivity. }
  generalize (map vnstr (dict_keys_as_string m)). intros l.
  generalize (@nil (str * value)). induction l; intros acc; simpl; auto. rewrite FG. apply IHl.
Qed.

(** ** Set, Get, Has, Default *)

Lemma get_set_spec i m k v k' :
  exists v', converts i v v' /\
  dict_get i (dict_set i m k v) [k'] = if str_eqb (sprint k') (sprint k) then v' else dict_get i m [k'].
Proof.
  exists (conv i v). split; [apply conv_converts|].
  unfold dict_get, dict_get1, dict_set, mget0. rewrite mget_mset.
  destruct (str_eqb (sprint k') (sprint k)); reflexivity.
Qed.

Lemma set_nodup i m k v : NoDup (mkeys m) -> NoDup (mkeys (dict_set i m k v)).
Proof. apply NoDup_mset. Qed.

Lemma has_spec m keys :
  dict_has m keys = true <-> m <> [] /\ forall k, In k keys -> In (sprint k) (mkeys m).
Proof.
  unfold dict_has. rewrite andb_true_iff, zlen_pos, forallb_forall. split; intros [A B]; split; auto.
  - intros k Hk. apply mhas_keys. auto.
  - intros k Hk. apply mhas_keys. auto.
Qed.

Lemma has1_spec m k : dict_has m [k] = true <-> In (sprint k) (mkeys m).
Proof.
  rewrite has_spec. split.
  - intros [_ H]. apply H. simpl. auto.
  - intros H. split; [intros ->; contradiction|]. intros j [<-|[]]. assumption.
Qed.

Lemma default_spec m k d :
  dict_default m k d = match mget m (sprint k) with Some v => v | None => d end.
Proof.
  unfold dict_default. destruct (dict_has m [k]) eqn:H; simpl.
  - apply has1_spec, mget_keys in H as [v Hv]. unfold dict_get1, mget0. rewrite Hv. reflexivity.
  - destruct (mget m (sprint k)) eqn:G; auto.
    assert (dict_has m [k] = true) by (apply has1_spec, mget_keys; eauto). congruence.
Qed.

Lemma get_many_spec i m k1 k2 ks :
  exists vs, dict_get i m (k1 :: k2 :: ks) = VList i vs /\
    Forall2 (fun k w => exists v, converts i v w /\ v = match mget m (sprint k) with Some v => v | None => VNil end)
            (k1 :: k2 :: ks) vs.
Proof.
  exists (map (fun k => conv i (dict_get1 m k)) (k1 :: k2 :: ks)). split; [reflexivity|].
  apply Forall2_map_r. apply Forall_forall. intros k _. eexists. split; [apply conv_converts|reflexivity].
Qed.

(** ** Delete, Flush, Pop *)

Lemma delete_loop_false m keys :
  snd (dict_delete_loop m keys false) = None /\
  forall k, mget (fst (dict_delete_loop m keys false)) k =
            if mem_str k (map sprint keys) then None else mget m k.
Proof.
  revert m; induction keys as [|x keys IH]; intros m; simpl; auto.
  destruct (IH (mdel m (sprint x))) as [A B]. split; auto.
  intros k. rewrite B, mget_mdel. destruct (str_eqb k (sprint x)); simpl; auto.
  destruct (mem_str k (map sprint keys)); reflexivity.
Qed.

Lemma delete_loop_nodup m keys b : NoDup (mkeys m) -> NoDup (mkeys (fst (dict_delete_loop m keys b))).
Proof.
  revert m; induction keys as [|x keys IH]; intros m N; simpl; auto.
  destruct (b && negb (dict_has m [x])); auto. apply IH. apply NoDup_mdel. assumption.
Qed.

Lemma flush_spec m k ks k' :
  mget (dict_flush m (k :: ks)) k' = if mem_str k' (map sprint (k :: ks)) then None else mget m k'.
Proof. apply (proj2 (delete_loop_false m (k :: ks))). Qed.

Lemma flush_all m : dict_flush m [] = [].
Proof.
  unfold dict_flush.
  assert (G : forall k, mget (fst (dict_delete_loop m (dict_get_keys m) false)) k = None).
  { intros k. rewrite (proj2 (delete_loop_false m (dict_get_keys m))).
    destruct (mem_str k _) eqn:I; auto. apply mget_None. intros H.
    assert (mem_str k (map sprint (dict_get_keys m)) = true); [|congruence].
    apply mem_str_In. unfold dict_get_keys. rewrite map_map. simpl. rewrite map_id.
    eapply Permutation_in; [apply Permutation_sym, sort_strings_perm|exact H]. }
  destruct (fst _) as [|[k v] r]; auto.
  specialize (G k). simpl in G. rewrite str_eqb_refl in G. discriminate.
Qed.

Lemma pop_dict_spec i m k ks :
  fst (dict_pop i m (k :: ks)) = dict_get i m (k :: ks) /\
  (forall k', mget (snd (dict_pop i m (k :: ks))) k' =
              if mem_str k' (map sprint (k :: ks)) then None else mget m k') /\
  dict_pop i m [] = (VNil, m).
Proof.
  split; [reflexivity|]. split; [|reflexivity].
  intros k'. apply (proj2 (delete_loop_false m (k :: ks))).
Qed.

(** Delete: the removed prefix, the first failing key, and the state left behind. *)
Lemma delete_loop_true m keys :
  (exists m', dict_delete_loop m keys true = (m', None) /\
     (forall k, In k keys -> In (sprint k) (mkeys m)) /\ NoDup (map sprint keys) /\
     (forall k, mget m' k = if mem_str k (map sprint keys) then None else mget m k))
  \/
  (exists m' pre bad post, dict_delete_loop m keys true = (m', Some ($"key " ++ sprint bad ++ $" not found")) /\
     keys = pre ++ bad :: post /\
     (forall k, In k pre -> In (sprint k) (mkeys m)) /\ NoDup (map sprint pre) /\
     (~ In (sprint bad) (mkeys m) \/ In (sprint bad) (map sprint pre)) /\
     (forall k, mget m' k = if mem_str k (map sprint pre) then None else mget m k)).
Proof.
  revert m; induction keys as [|x keys IH]; intros m; simpl.
  - left. exists m. repeat split; auto. intros k []. constructor.
  - destruct (dict_has m [x]) eqn:H; simpl.
    + apply has1_spec in H.
      assert (Hsub : forall k, In k (mkeys (mdel m (sprint x))) <-> In k (mkeys m) /\ k <> sprint x).
      { intros k. rewrite !mget_keys, mget_mdel. destruct (str_eqb_spec k (sprint x)).
        - split; [intros [v Hv]; discriminate|]. intros [_ ?]. contradiction.
        - tauto. }
      destruct (IH (mdel m (sprint x))) as [(m' & Q & A & N & G)|(m' & pre & bad & post & Q & -> & A & N & B & G)].
      * left. exists m'. split; auto. split; [|split].
        -- intros k [<-|Hk]; auto. apply Hsub. auto.
        -- constructor; auto. intros I. apply in_map_iff in I as (y & Sy & Hy).
           apply A, Hsub in Hy as [_ Hy]. congruence.
        -- intros k. rewrite G, mget_mdel. destruct (str_eqb k (sprint x)); simpl; auto.
           destruct (mem_str k (map sprint keys)); auto.
      * right. exists m', (x :: pre), bad, post. split; auto. split; auto. split; [|split; [|split]].
        -- intros k [<-|Hk]; auto. apply Hsub. auto.
        -- simpl. constructor; auto. intros I. apply in_map_iff in I as (y & Sy & Hy).
           apply A, Hsub in Hy as [_ Hy]. congruence.
        -- simpl. destruct B as [B|B]; auto.
           destruct (str_eq_dec (sprint x) (sprint bad)); auto.
           left. intros I. apply B. apply Hsub. auto.
        -- intros k. simpl. rewrite G, mget_mdel. destruct (str_eqb k (sprint x)); simpl; auto.
           destruct (mem_str k (map sprint pre)); auto.
    + right. exists m, [], x, keys. split; auto. split; auto. split; [intros k []|].
      split; [constructor|]. split; [|auto].
      left. intros I. apply has1_spec in I. congruence.
Qed.

(** ** Clone, Omit *)

Lemma dict_keys_text m : map sprint (dict_get_keys m) = dict_keys_as_string m.
Proof. unfold dict_get_keys. rewrite map_map. simpl. apply map_id. Qed.

Lemma clone_fold i m keys acc k :
  mget (fold_left (fun acc k => dict_set i acc k (clone_value i (dict_get1 m k))) keys acc) k =
  if mem_str k (map sprint keys) then Some (conv i (clone_value i (mget0 m k))) else mget acc k.
Proof.
  revert acc; induction keys as [|x keys IH]; intros acc; simpl; auto.
  rewrite IH. unfold dict_set. rewrite mget_mset.
  destruct (str_eqb_spec k (sprint x)); simpl; auto.
  subst. unfold dict_get1. destruct (mem_str _ _); reflexivity.
Qed.

Lemma clone_conv_converted i v : converted v -> converted (clone_conv i v).
Proof.
  induction v using value_ind'; intros C; simpl; auto.
  - constructor. unfold list_clone. rewrite new_list_eq. apply Forall_map_conv.
  - constructor. inversion C; subst. rewrite Forall_map. simpl.
    rewrite Forall_forall in *. intros x Hx. auto.
Qed.

Lemma clone_nodup i m keys : NoDup (mkeys (dict_clone i m keys)).
Proof.
  unfold dict_clone. generalize (match keys with [] => dict_get_keys m | _ => keys end). clear keys.
  intros keys. assert (N : NoDup (mkeys (@nil (str * value)))) by constructor.
  revert N. generalize (@nil (str * value)). induction keys; intros acc N; simpl; auto.
  apply IHkeys. apply NoDup_mset. assumption.
Qed.

Lemma clone_get i m k : Forall (fun kv => converted (snd kv)) m ->
  mget (dict_clone i m []) k = option_map (clone_conv i) (mget m k).
Proof.
  intros C. unfold dict_clone. rewrite clone_fold, dict_keys_text. simpl.
  destruct (mem_str k (dict_keys_as_string m)) eqn:I.
  - apply mem_str_In in I. eapply Permutation_in in I; [|apply sort_strings_perm].
    apply mget_keys in I as [v Hv]. unfold mget0. rewrite Hv. simpl. f_equal.
    apply mget_In in Hv. rewrite Forall_forall in C. specialize (C _ Hv). simpl in C.
    unfold clone_value. rewrite (conv_of_converted i v) by assumption.
    apply conv_of_converted. apply clone_conv_converted. assumption.
  - destruct (mget m k) eqn:G; auto.
    assert (mem_str k (dict_keys_as_string m) = true); [|congruence].
    apply mem_str_In. eapply Permutation_in; [apply Permutation_sym, sort_strings_perm|].
    apply mget_keys. eauto.
Qed.

Lemma clone_keys_get i m k1 ks k : Forall (fun kv => converted (snd kv)) m ->
  mget (dict_clone i m (k1 :: ks)) k =
  if mem_str k (map sprint (k1 :: ks))
  then Some (match mget m k with Some v => clone_conv i v | None => VNil end)
  else None.
Proof.
  intros C. unfold dict_clone. rewrite clone_fold.
  destruct (mem_str k _); auto. f_equal. unfold mget0, clone_value.
  destruct (mget m k) eqn:G; auto.
  apply mget_In in G. rewrite Forall_forall in C. specialize (C _ G). simpl in C.
  rewrite (conv_of_converted i v) by assumption.
  apply conv_of_converted. apply clone_conv_converted. assumption.
Qed.

Lemma same_data_refl v : converted v -> same_data v v.
Proof.
  induction v using value_ind'; intros C; try (constructor; fail); inversion C; subst.
  - constructor. apply Forall2_refl_In. rewrite Forall_forall in *. auto.
  - constructor. apply Forall2_refl_In. rewrite Forall_forall in *. auto.
Qed.

Lemma clone_conv_same i v : converted v -> no_nested_singleton v -> same_data v (clone_conv i v).
Proof.
  induction v using value_ind'; intros C N; try (constructor; fail); inversion C; subst; inversion N; subst; simpl.
  - constructor. rewrite clone_spec by assumption. apply Forall2_refl_In.
    rewrite Forall_forall in *. intros. apply same_data_refl. auto.
  - constructor. apply (Forall2_map_r _ (fun kv => (fst kv, clone_conv i (snd kv)))).
    rewrite Forall_forall in *. intros x Hx. simpl. auto.
Qed.

Lemma dict_clone_spec i m : Forall (fun kv => converted (snd kv)) m ->
  Forall (fun kv => no_nested_singleton (snd kv)) m ->
  NoDup (mkeys (dict_clone i m [])) /\
  forall k, match mget m k, mget (dict_clone i m []) k with
            | None, None => True
            | Some v, Some w => same_data v w
            | _, _ => False
            end.
Proof.
  intros C N. split; [apply clone_nodup|]. intros k. rewrite clone_get by assumption.
  destruct (mget m k) as [v|] eqn:G; simpl; auto.
  apply mget_In in G. rewrite Forall_forall in *. apply clone_conv_same; [apply (C _ G)|apply (N _ G)].
Qed.

Lemma dict_clone_keys_spec i m k1 ks : Forall (fun kv => converted (snd kv)) m ->
  Forall (fun kv => no_nested_singleton (snd kv)) m ->
  NoDup (mkeys (dict_clone i m (k1 :: ks))) /\
  forall k, match mget (dict_clone i m (k1 :: ks)) k with
            | None => ~ In k (map sprint (k1 :: ks))
            | Some w => In k (map sprint (k1 :: ks)) /\
                match mget m k with Some v => same_data v w | None => w = VNil end
            end.
Proof.
  intros C N. split; [apply clone_nodup|]. intros k. rewrite clone_keys_get by assumption.
  destruct (mem_str k (map sprint (k1 :: ks))) eqn:I.
  - apply mem_str_In in I. split; auto. destruct (mget m k) as [v|] eqn:G; auto.
    apply mget_In in G. rewrite Forall_forall in *. apply clone_conv_same; [apply (C _ G)|apply (N _ G)].
  - intros H. apply mem_str_In in H. congruence.
Qed.

Lemma omit_spec i m k1 ks : Forall (fun kv => converted (snd kv)) m ->
  Forall (fun kv => no_nested_singleton (snd kv)) m ->
  forall k, match mget (dict_omit i m k1 ks) k with
            | None => In k (map sprint (k1 :: ks)) \/ mget m k = None
            | Some w => ~ In k (map sprint (k1 :: ks)) /\ exists v, mget m k = Some v /\ same_data v w
            end.
Proof.
  intros C N k. unfold dict_omit. rewrite flush_spec, clone_get by assumption.
  destruct (mem_str k (map sprint (k1 :: ks))) eqn:I.
  - apply mem_str_In in I. auto.
  - destruct (mget m k) as [v|] eqn:G; simpl; auto.
    split; [intros H; change (In k (map sprint (k1 :: ks))) in H; apply mem_str_In in H; congruence|].
    exists v. split; auto. apply mget_In in G. rewrite Forall_forall in *.
    apply clone_conv_same; [apply (C _ G)|apply (N _ G)].
Qed.

(** ** Merge *)

Definition merge_opt (a b : option value) : option value :=
  match a, b with
  | None, _ => b
  | Some x, None => Some x
  | Some x, Some y => Some (merge_val x y)
  end.

Lemma merge_val_dict i tm j sm : merge_val (VDict i tm) (VDict j sm) = VDict i (deep_merge tm sm).
Proof. reflexivity. Qed.

Lemma mget_deep_merge tm sm k : NoDup (mkeys sm) ->
  mget (deep_merge tm sm) k = merge_opt (mget tm k) (mget sm k).
Proof.
  revert tm; induction sm as [|[j sv] sm IH]; intros tm N; simpl.
  - destruct (mget tm k); reflexivity.
  - inversion N; subst. rewrite IH by assumption.
    destruct (str_eqb_spec k j) as [->|D].
    + assert (mget sm j = None) as -> by (apply mget_None; assumption).
      destruct (mget tm j) eqn:G; rewrite mget_mset_eq; reflexivity.
    + destruct (mget tm j) eqn:G; rewrite mget_mset_ne by congruence; reflexivity.
Qed.

Lemma deep_merge_nodup tm sm : NoDup (mkeys tm) -> NoDup (mkeys (deep_merge tm sm)).
Proof.
  revert tm; induction sm as [|[j sv] sm IH]; intros tm N; simpl; auto.
  apply IH. destruct (mget tm j); apply NoDup_mset; assumption.
Qed.

Lemma merge_val_spec s : forall t, wf t -> wf s -> merges t s (merge_val t s).
Proof.
  induction s using value_ind'; intros v Wt Ws;
    try (assert (merge_val v ?x = v) as -> by (destruct v; reflexivity)).
  all: try (replace (merge_val v _) with v by (destruct v; reflexivity); apply merges_other;
            intros (? & ? & ? & ? & _ & ?); discriminate).
  destruct v; try (apply merges_other; intros (? & ? & ? & ? & ? & _); discriminate).
  rewrite merge_val_dict. inversion Wt; subst. inversion Ws; subst.
  apply merges_dict.
  - apply deep_merge_nodup. assumption.
  - intros k G. rewrite mget_deep_merge, G by assumption. reflexivity.
  - intros k a G1 G2. rewrite mget_deep_merge, G1, G2 by assumption. reflexivity.
  - intros k a b G1 G2. rewrite mget_deep_merge, G1, G2 by assumption. simpl.
    eexists. split; [reflexivity|].
    apply mget_In in G1. apply mget_In in G2. rewrite Forall_forall in *.
    apply (H _ G2); [apply (H3 _ G1)|apply (H5 _ G2)].
Qed.

Lemma merge_spec t ss : NoDup (mkeys t) -> Forall (fun s => match s with Some m => NoDup (mkeys m) | None => True end) ss ->
  NoDup (mkeys (dict_merge t ss)) /\
  forall k, mget (dict_merge t ss) k =
    fold_left merge_opt (map (fun s => match s with Some m => mget m k | None => None end) ss) (mget t k).
Proof.
  intros N F. revert t N. induction F as [|s ss Hs F IH]; intros t N; simpl; auto.
  unfold dict_merge in *. simpl. destruct s as [sm|].
  - destruct (IH (deep_merge t sm)) as [A B]; [apply deep_merge_nodup; assumption|].
    split; auto. intros k. rewrite B, mget_deep_merge by assumption. reflexivity.
  - destruct (IH t N) as [A B]. split; auto. intros k. rewrite B. destruct (mget t k); reflexivity.
Qed.

Lemma fold_merge_opt_some l v : exists w, fold_left merge_opt l (Some v) = Some w /\
   ((forall i m, v <> VDict i m) -> w = v).
Proof.
  revert v; induction l as [|o l IH]; intros v; simpl.
  - exists v. auto.
  - destruct o as [y|].
    + destruct (IH (merge_val v y)) as (w & Q & R). exists w. split; auto.
      intros D. assert (merge_val v y = v) as Z. { destruct v; try reflexivity; destruct y; try reflexivity. exfalso. eapply D; reflexivity. }
      rewrite Z in *. auto.
    + apply IH.
Qed.

(** First non dictionary value found, in the order target, source 1, source 2, ... wins. *)
Lemma merge_first_wins t pre s post k v :
  NoDup (mkeys t) -> Forall (fun m => NoDup (mkeys m)) (pre ++ s :: post) ->
  mget t k = None -> (forall m, In m pre -> mget m k = None) ->
  mget s k = Some v -> (forall i m, v <> VDict i m) ->
  mget (dict_merge t (map Some (pre ++ s :: post))) k = Some v.
Proof.
  intros N F Ht Hp Hs D.
  destruct (merge_spec t (map Some (pre ++ s :: post))) as [_ B]; auto.
  { rewrite Forall_map. assumption. }
  rewrite B, Ht, map_map, map_app, fold_left_app. simpl.
  assert (Hn : fold_left merge_opt (map (fun x => mget x k) pre) None = None).
  { clear -Hp. induction pre; simpl; auto. rewrite (Hp a) by (simpl; auto). apply IHpre. intros; apply Hp; simpl; auto. }
  rewrite Hn, Hs. simpl.
  destruct (fold_merge_opt_some (map (fun x => mget x k) post) v) as (w & Q & R).
  rewrite Q, R; auto.
Qed.

Lemma merge_target_wins t ss k v :
  NoDup (mkeys t) -> Forall (fun m => NoDup (mkeys m)) ss ->
  mget t k = Some v -> (forall i m, v <> VDict i m) ->
  mget (dict_merge t (map Some ss)) k = Some v.
Proof.
  intros N F Ht D. destruct (merge_spec t (map Some ss)) as [_ B]; auto.
  { rewrite Forall_map. assumption. }
  rewrite B, Ht. destruct (fold_merge_opt_some (map (fun s => match s with Some m => mget m k | None => None end) (map Some ss)) v) as (w & Q & R).
  rewrite Q, R; auto.
Qed.

(** Merging a value with itself changes nothing. *)
Lemma merge_val_self v : wf v -> merge_val v v = v.
Proof.
  induction v using value_ind'; intros W; try reflexivity.
  rewrite merge_val_dict. f_equal. inversion W; subst.
  assert (G : forall sm, incl sm m -> deep_merge m sm = m).
  { induction sm as [|[j sv] sm IH]; intros I; simpl; auto.
    assert (mget m j = Some sv) as Hj by (apply mget_In_NoDup; auto; apply I; simpl; auto).
    rewrite Hj. rewrite Forall_forall in *.
    assert (In (j, sv) m) as Hin by (apply I; simpl; auto).
    pose proof (H _ Hin) as Hm. simpl in Hm. rewrite Hm by (apply (H3 _ Hin)).
    rewrite mset_same by assumption. apply IH. intros x Hx. apply I. simpl. auto. }
  apply G. apply incl_refl.
Qed.

Lemma deep_merge_self m : wf (VDict Base m) -> deep_merge m m = m.
Proof. intros W. pose proof (merge_val_self _ W) as H. rewrite merge_val_dict in H. congruence. Qed.

Lemma deep_merge_empty_l sm : NoDup (mkeys sm) -> deep_merge [] sm = sm.
Proof.
  intros N. assert (G : forall pre s, NoDup (mkeys (pre ++ s)) -> deep_merge pre s = pre ++ s).
  { intros pre s. revert pre. induction s as [|[k v] s IH]; intros pre H; simpl.
    - rewrite app_nil_r. reflexivity.
    - assert (mget pre k = None) as G.
      { apply mget_None. unfold mkeys in H. rewrite map_app in H. simpl in H. apply NoDup_remove_2 in H.
        intros I. apply H. apply in_or_app. auto. }
      rewrite G, mset_new by assumption. rewrite IH; rewrite <- app_assoc; auto. }
  apply (G []). assumption.
Qed.

(** Iteration order of the source. *)
Lemma deep_merge_perm tm sm sm' : NoDup (mkeys tm) -> NoDup (mkeys sm) -> Permutation sm sm' ->
  Permutation (deep_merge tm sm) (deep_merge tm sm').
Proof.
  intros Nt Ns P.
  assert (Ns' : NoDup (mkeys sm')) by (eapply Permutation_NoDup; [apply Permutation_map, P|assumption]).
  apply map_ext_perm.
  - apply deep_merge_nodup. assumption.
  - apply deep_merge_nodup. assumption.
  - intros k. rewrite !mget_deep_merge by assumption. rewrite (mget_perm sm sm' k Ns P). reflexivity.
Qed.

(** ** Add, Transpose *)

Lemma c_try_as_list_single v : converted v -> single v -> c_try_as_list v = None.
Proof.
  intros C [N L]. destruct v; simpl; auto; try congruence; try (inversion C; fail).
Qed.

Lemma list_append_two i a b : list_append i [] [a; b] = [conv i a; conv i b].
Proof. rewrite list_append_eq. reflexivity. Qed.

Lemma add_acc i m kt vs v k : Forall converted vs -> Forall single vs -> converted v -> single v ->
  sprint kt = k -> mget m k = accumulated i vs ->
  mget (dict_add i m kt v) k = accumulated i (vs ++ [v]) /\
  (forall k', k' <> k -> mget (dict_add i m kt v) k' = mget m k') /\
  (NoDup (mkeys m) -> NoDup (mkeys (dict_add i m kt v))).
Proof.
  intros Cvs Svs Cv Sv K G. unfold dict_add. rewrite K, G.
  destruct vs as [|x [|y vs]]; simpl.
  - rewrite mget_mset_eq, conv_of_converted by assumption. split; auto.
    split; [intros; apply mget_mset_ne; auto|apply NoDup_mset].
  - inversion Cvs; inversion Svs; subst.
    rewrite c_try_as_list_single by assumption. rewrite list_append_two, !conv_of_converted by assumption.
    rewrite mget_mset_eq. split; auto.
    split; [intros; apply mget_mset_ne; auto|apply NoDup_mset].
  - rewrite mget_mset_eq. split.
    + do 2 f_equal. rewrite list_append_conv by assumption. simpl. rewrite conv_of_converted by assumption. reflexivity.
    + split; [intros; apply mget_mset_ne; auto|apply NoDup_mset].
Qed.

Lemma add_fold i kvs m : forall kt vs,
  Forall (fun kv => converted (snd kv) /\ single (snd kv)) kvs ->
  Forall converted vs -> Forall single vs ->
  mget m kt = accumulated i vs ->
  mget (fold_left (fun acc (kv : value * value) => dict_add i acc (fst kv) (snd kv)) kvs m) kt =
  accumulated i (vs ++ map snd (filter (fun kv => str_eqb (sprint (fst kv)) kt) kvs)).
Proof.
  revert m. induction kvs as [|[k v] kvs IH]; intros m kt vs F Cv Sv G; simpl.
  - rewrite app_nil_r. assumption.
  - inversion F as [|? ? [Cx Sx] F']; subst. simpl in *.
    destruct (str_eqb_spec (sprint k) kt) as [D|D].
    + destruct (add_acc i m k vs v kt) as (A & _ & _); auto.
      rewrite (IH _ kt (vs ++ [v])); auto.
      * simpl. rewrite <- app_assoc. reflexivity.
      * apply Forall_app. auto.
      * apply Forall_app. auto.
    + apply IH; auto. rewrite <- G. unfold dict_add.
      destruct (mget m (sprint k)) as [c|].
      * destruct (c_try_as_list c) as [[? ?]|]; apply mget_mset_ne; assumption.
      * apply mget_mset_ne. assumption.
Qed.

Lemma add_sequence i m key vs :
  mget m (sprint key) = None -> Forall converted vs -> Forall single vs ->
  mget (fold_left (fun acc v => dict_add i acc key v) vs m) (sprint key) = accumulated i vs /\
  forall k, k <> sprint key ->
    mget (fold_left (fun acc v => dict_add i acc key v) vs m) k = mget m k.
Proof.
  intros G C S.
  assert (Q : forall acc, fold_left (fun acc v => dict_add i acc key v) vs acc =
              fold_left (fun acc (kv : value * value) => dict_add i acc (fst kv) (snd kv)) (map (fun v => (key, v)) vs) acc).
  { clear. induction vs; intros acc; simpl; auto. }
  rewrite Q. split.
  - rewrite (add_fold i _ m (sprint key) []); auto.
    + simpl. f_equal. clear. induction vs; simpl; auto. rewrite str_eqb_refl. simpl. congruence.
    + rewrite Forall_map. simpl. rewrite Forall_forall in *. auto.
  - intros k D. clear Q G C S. revert m. induction vs as [|v vs IH]; intros m; simpl; auto.
    rewrite IH. unfold dict_add. destruct (mget m (sprint key)) as [c|].
    + destruct (c_try_as_list c) as [[? ?]|]; apply mget_mset_ne; congruence.
    + apply mget_mset_ne. congruence.
Qed.

(** Adding to a key that holds a list appends to this list; a nil entry disappears. *)
Lemma add_to_list i m key j l v : mget m (sprint key) = Some (VList j l) ->
  Forall converted l -> converted v ->
  mget (dict_add i m key v) (sprint key) = Some (VList j (l ++ [v])).
Proof.
  intros G C Cv. unfold dict_add. rewrite G. simpl. rewrite mget_mset_eq.
  rewrite list_append_conv by assumption. simpl. rewrite conv_of_converted by assumption. reflexivity.
Qed.

Lemma add_to_nil i m key v : mget m (sprint key) = Some VNil -> converted v ->
  mget (dict_add i m key v) (sprint key) = Some (VList dflt [v]).
Proof.
  intros G Cv. unfold dict_add. rewrite G. simpl. rewrite mget_mset_eq.
  rewrite list_append_eq. simpl. rewrite conv_of_converted by assumption. reflexivity.
Qed.

(** The (element, key) pairs of a dictionary in key order. *)
Definition transposed_pairs (m : list (str * value)) (ks : list str) : list (value * value) :=
  flat_map (fun k => map (fun x => (x, vnstr k)) (elements (mget0 m k))) ks.

Lemma fold_left_flat_map {A B C} (f : C -> B -> C) (g : A -> list B) l acc :
  fold_left f (flat_map g l) acc = fold_left (fun acc x => fold_left f (g x) acc) l acc.
Proof. revert acc; induction l; intros; simpl; auto. rewrite fold_left_app. apply IHl. Qed.

Lemma fold_left_map {A B C} (f : C -> B -> C) (g : A -> B) l acc :
  fold_left f (map g l) acc = fold_left (fun acc x => f acc (g x)) l acc.
Proof. revert acc; induction l; intros; simpl; auto. Qed.

Lemma c_try_as_list_elements v : converted v ->
  match c_try_as_list v with
  | Some (_, l) => l = elements v
  | None => elements v = [v]
  end.
Proof. intros C. destruct v; simpl; auto; inversion C. Qed.

Lemma transpose_fold i m : Forall (fun kv => converted (snd kv)) m ->
  dict_transpose i m =
  fold_left (fun acc (kv : value * value) => dict_add i acc (fst kv) (snd kv))
            (transposed_pairs m (dict_keys_as_string m)) [].
Proof.
  intros C. unfold dict_transpose, transposed_pairs. rewrite fold_left_flat_map.
  unfold dict_get_keys. rewrite fold_left_map.
  generalize (@nil (str * value)). induction (dict_keys_as_string m) as [|k ks IH]; intros acc; simpl; auto.
  rewrite IH. f_equal. rewrite fold_left_map. simpl.
  assert (Ck : converted (mget0 m k)).
  { unfold mget0. destruct (mget m k) eqn:G; [|constructor]. apply mget_In in G.
    rewrite Forall_forall in C. apply (C _ G). }
  unfold dict_get1. simpl. pose proof (c_try_as_list_elements _ Ck) as H.
  destruct (c_try_as_list (mget0 m k)) as [[? ?]|]; rewrite H; reflexivity.
Qed.

Lemma transpose_spec i m : Forall (fun kv => converted (snd kv)) m ->
  forall t, mget (dict_transpose i m) t =
    accumulated i (map snd (filter (fun p => str_eqb (sprint (fst p)) t)
                                   (transposed_pairs m (dict_keys_as_string m)))).
Proof.
  intros C t. rewrite transpose_fold by assumption.
  rewrite (add_fold i _ [] t []); auto.
  unfold transposed_pairs. apply Forall_flat_map. apply Forall_forall. intros k _.
  rewrite Forall_map. apply Forall_forall. intros x _. simpl. split; [constructor|].
  split; [discriminate|]. intros; discriminate.
Qed.

(** ** Deep iteration order, associativity of merge *)

Definition opt_veq (a b : option value) : Prop :=
  match a, b with None, None => True | Some x, Some y => veq x y | _, _ => False end.

Lemma veq_dict_ext i m m' : NoDup (mkeys m) -> NoDup (mkeys m') ->
  (forall k, opt_veq (mget m k) (mget m' k)) -> veq (VDict i m) (VDict i m').
Proof.
  intros N N' H. set (m1 := map (fun kv => (fst kv, mget0 m (fst kv))) m').
  assert (K1 : mkeys m1 = mkeys m').
  { unfold m1, mkeys. rewrite map_map. reflexivity. }
  assert (G1 : forall k, mget m1 k = if mhas m' k then Some (mget0 m k) else None).
  { intros k. unfold m1, mhas. clear. induction m' as [|[j v] m' IH]; simpl; auto.
    destruct (str_eqb_spec k j); subst; auto. }
  apply veq_dict with (m1 := m1).
  - apply map_ext_perm; auto.
    + rewrite K1. assumption.
    + intros k. rewrite G1. unfold mhas, mget0. specialize (H k).
      destruct (mget m k), (mget m' k); simpl in H; auto; contradiction.
  - unfold m1. clear G1 K1 m1.
    assert (F : Forall (fun kv => mget m' (fst kv) = Some (snd kv)) m').
    { apply Forall_forall. intros [k v] I. simpl. apply mget_In_NoDup; auto. }
    assert (Z : forall l, Forall (fun kv => mget m' (fst kv) = Some (snd kv)) l ->
      Forall2 (fun a b => fst a = fst b /\ veq (snd a) (snd b)) (map (fun kv => (fst kv, mget0 m (fst kv))) l) l);
      [|apply Z; assumption].
    clear F. intros l F. induction F as [|[k v] l0 G F IH]; simpl; constructor; auto.
    simpl in *. split; auto. specialize (H k). rewrite G in H. unfold mget0.
    destruct (mget m k); simpl in H; auto; contradiction.
Qed.

Lemma veq_dict_inv i m j m' : veq (VDict i m) (VDict j m') -> NoDup (mkeys m) ->
  i = j /\ NoDup (mkeys m') /\ forall k, opt_veq (mget m k) (mget m' k).
Proof.
  intros Q N. inversion Q; subst. split; auto.
  assert (N1 : NoDup (mkeys m1)) by (eapply Permutation_NoDup; [apply Permutation_map; eassumption|assumption]).
  split. { erewrite <- Forall2_keys by eassumption. assumption. }
  intros k. rewrite (mget_perm m m1) by assumption. apply Forall2_mget. assumption.
Qed.

Lemma veq_refl v : veq v v.
Proof.
  induction v using value_ind'; try constructor.
  - apply Forall2_refl_In. assumption.
  - econstructor; [reflexivity|]. apply Forall2_refl_In. eapply Forall_impl; [|exact H]. auto.
  - econstructor; [reflexivity|]. apply Forall2_refl_In. eapply Forall_impl; [|exact H]. auto.
  - apply Forall2_refl_In. assumption.
  - econstructor; [reflexivity|]. apply Forall2_refl_In. eapply Forall_impl; [|exact H]. auto.
Qed.

Definition is_dict (v : value) : bool := match v with VDict _ _ => true | _ => false end.

Lemma merge_val_nd t s : is_dict t && is_dict s = false -> merge_val t s = t.
Proof. destruct t, s; simpl; try reflexivity; discriminate. Qed.

Lemma veq_is_dict a b : veq a b -> is_dict a = is_dict b.
Proof. inversion 1; reflexivity. Qed.

Lemma merge_val_veq s : forall s' t t', wf s -> wf t -> veq t t' -> veq s s' ->
  veq (merge_val t s) (merge_val t' s').
Proof.
  induction s using value_ind'; intros s' v v' Ws Wv Qt Qs.
  all: try (rewrite (merge_val_nd v) by (rewrite andb_comm; reflexivity);
            rewrite (merge_val_nd v' s') by (rewrite <- (veq_is_dict _ _ Qs), andb_comm; reflexivity);
            assumption).
  destruct (is_dict v) eqn:D.
  2:{ rewrite (merge_val_nd v) by (rewrite D; reflexivity).
      rewrite merge_val_nd by (rewrite <- (veq_is_dict _ _ Qt), D; reflexivity). assumption. }
  destruct v as [| | | | | |j tm|]; try discriminate.
  destruct v' as [| | | | | |j' tm'|]; try (inversion Qt; fail).
  destruct s' as [| | | | | |i' sm'|]; try (inversion Qs; fail).
  inversion Ws; inversion Wv; subst.
  apply veq_dict_inv in Qt as (-> & Nt' & Gt); auto.
  apply veq_dict_inv in Qs as (-> & Ns' & Gs); auto.
  rewrite !merge_val_dict. apply veq_dict_ext.
  - apply deep_merge_nodup. assumption.
  - apply deep_merge_nodup. assumption.
  - intros k. rewrite !mget_deep_merge by assumption. specialize (Gt k). specialize (Gs k).
    destruct (mget tm k) eqn:T1, (mget tm' k) eqn:T2; simpl in Gt; try contradiction;
    destruct (mget m k) eqn:S1, (mget sm' k) eqn:S2; simpl in Gs; try contradiction; simpl; auto.
    apply mget_In in T1. apply mget_In in S1. rewrite Forall_forall in *.
    apply (H _ S1); auto; first [apply (H3 _ S1)|apply (H7 _ T1)].
Qed.

Lemma merge_val_assoc a : forall b x, wf a -> wf b -> wf x -> dict_where_dict a b ->
  veq (merge_val (merge_val a b) x) (merge_val a (merge_val b x)).
Proof.
  induction a using value_ind'; intros b x Wa Wb Wc D.
  all: try (rewrite !merge_val_nd by (try rewrite merge_val_nd by reflexivity; reflexivity); apply veq_refl).
  destruct b as [| | | | | |j bm|]; try (exfalso; inversion D as [|? ? Z]; subst; eapply Z; reflexivity).
  destruct (is_dict x) eqn:Dc.
  2:{ rewrite (merge_val_nd (VDict j bm) x) by assumption.
      rewrite (merge_val_nd (merge_val (VDict i m) (VDict j bm)) x) by (rewrite Dc, andb_comm; reflexivity).
      apply veq_refl. }
  destruct x as [| | | | | |l cm|]; try discriminate.
  rewrite !merge_val_dict. inversion Wa; inversion Wb; inversion Wc; subst.
  apply veq_dict_ext.
  - apply deep_merge_nodup, deep_merge_nodup. assumption.
  - apply deep_merge_nodup. assumption.
  - intros k. rewrite !mget_deep_merge by (try apply deep_merge_nodup; assumption).
    destruct (mget m k) eqn:A, (mget bm k) eqn:B, (mget cm k) eqn:C; simpl; auto using veq_refl.
    assert (Dk : dict_where_dict v v0).
    { inversion D as [? ? ? ? Z|? ? Z]; subst; [eapply Z; eassumption|exfalso; eapply Z; reflexivity]. }
    apply mget_In in A, B, C. rewrite Forall_forall in *.
    apply (H _ A); auto; first [apply (H3 _ A)|apply (H7 _ B)|apply (H11 _ C)].
Qed.

Lemma keys_stay_distinct i m k v keys b s : NoDup (mkeys m) ->
  NoDup (mkeys (dict_set i m k v)) /\ NoDup (mkeys (fst (dict_delete_loop m keys b))) /\
  NoDup (mkeys (dict_clone i m keys)) /\ NoDup (mkeys (deep_merge m s)).
Proof.
  intros N. repeat split.
  - apply set_nodup. assumption.
  - apply delete_loop_nodup. assumption.
  - apply clone_nodup.
  - apply deep_merge_nodup. assumption.
Qed.

Lemma delete_spec m key others :
  let keys := key :: others in
  (exists m', dict_delete m key others = (m', None) /\
     (forall k, In k keys -> In (sprint k) (mkeys m)) /\ NoDup (map sprint keys) /\
     (forall k, mget m' k = if mem_str k (map sprint keys) then None else mget m k))
  \/
  (exists m' pre bad post, dict_delete m key others = (m', Some ($"key " ++ sprint bad ++ $" not found")) /\
     keys = pre ++ bad :: post /\
     (forall k, In k pre -> In (sprint k) (mkeys m)) /\ NoDup (map sprint pre) /\
     (~ In (sprint bad) (mkeys m) \/ In (sprint bad) (map sprint pre)) /\
     (forall k, mget m' k = if mem_str k (map sprint pre) then None else mget m k)).
Proof. apply delete_loop_true. Qed.

Lemma delete_succeeds m key others :
  snd (dict_delete m key others) = None <->
  (forall k, In k (key :: others) -> In (sprint k) (mkeys m)) /\ NoDup (map sprint (key :: others)).
Proof.
  destruct (delete_spec m key others) as [(m' & Q & A & N & _)|(m' & pre & bad & post & Q & K & A & N & B & _)];
    rewrite Q; cbn [snd].
  - tauto.
  - split; [discriminate|]. intros [P D]. exfalso. rewrite K in P, D.
    destruct B as [B|B].
    + apply B. apply P. apply in_or_app. right. left. reflexivity.
    + rewrite map_app in D. simpl in D. apply NoDup_remove_2 in D. apply D. apply in_or_app. auto.
Qed.

Lemma deep_merge_spec i j t s : wf (VDict i t) -> wf (VDict j s) ->
  merges (VDict i t) (VDict j s) (VDict i (deep_merge t s)).
Proof. intros A B. apply (merge_val_spec (VDict j s) (VDict i t) A B). Qed.

Lemma wf_mset i m k v : wf (VDict i m) -> wf v -> wf (VDict i (mset m k v)).
Proof.
  intros W V. inversion W; subst. constructor; [apply NoDup_mset; assumption|].
  apply mset_Forall; assumption.
Qed.

Lemma wf_merge_val s : forall t, wf t -> wf s -> wf (merge_val t s).
Proof.
  induction s using value_ind'; intros v Wt Ws;
    try (rewrite merge_val_nd by (rewrite andb_comm; reflexivity); assumption).
  destruct v; try assumption. rewrite merge_val_dict.
  inversion Ws as [| | | | | |i1 m1 Nm Fm|]; subst.
  clear Ws Nm. revert m0 Wt. induction m as [|[k sv] m IH]; intros tm Wt; simpl; auto.
  inversion H; inversion Fm; subst. apply IH; auto.
  destruct (mget tm k) eqn:G.
  - apply wf_mset; auto. inversion Wt; subst. apply mget_In in G. rewrite Forall_forall in *.
    match goal with Hs : forall t, wf t -> _ |- _ => apply Hs; auto end.
    match goal with Hx : forall x, In x tm -> _ |- _ => apply (Hx _ G) end.
  - apply wf_mset; auto.
Qed.

Lemma wf_get i m k v : wf (VDict i m) -> mget m k = Some v -> wf v.
Proof.
  intros W G. inversion W; subst. apply mget_In in G. rewrite Forall_forall in *.
  match goal with Hx : forall x, In x m -> _ |- _ => apply (Hx _ G) end.
Qed.

Lemma merge_sources t ss : wf (VDict Base t) ->
  Forall (fun s => match s with Some m => wf (VDict Base m) | None => True end) ss ->
  forall k, merged_values (mget t k :: map (fun s => match s with Some m => mget m k | None => None end) ss)
                          (mget (dict_merge t ss) k).
Proof.
  intros W F k. revert t W. induction F as [|s ss Hs F IH]; intros t W; simpl; [constructor|].
  unfold dict_merge in *. simpl. destruct s as [sm|].
  - assert (W' : wf (VDict Base (deep_merge t sm))) by exact (wf_merge_val (VDict Base sm) (VDict Base t) W Hs).
    specialize (IH _ W').
    assert (Ns : NoDup (mkeys sm)) by (inversion Hs; assumption).
    rewrite mget_deep_merge in IH by assumption.
    destruct (mget t k) eqn:T, (mget sm k) eqn:S0; simpl in IH.
    + eapply mv_merge; [|exact IH]. apply merge_val_spec; [apply (wf_get Base t k)|apply (wf_get Base sm k)]; assumption.
    + constructor. assumption.
    + constructor. assumption.
    + constructor. assumption.
  - constructor. auto.
Qed.

Lemma merge_neutral m : wf (VDict Base m) ->
  dict_merge m [Some m] = m /\ dict_merge m [Some []] = m /\ dict_merge [] [Some m] = m /\
  dict_merge m [None] = m /\ dict_merge m [] = m.
Proof.
  intros W. unfold dict_merge. simpl. repeat split; auto.
  - apply deep_merge_self. assumption.
  - apply deep_merge_empty_l. inversion W; assumption.
Qed.

Lemma merge_order i j t t' s s' :
  wf (VDict i t) -> wf (VDict j s) -> veq (VDict i t) (VDict i t') -> veq (VDict j s) (VDict j s') ->
  veq (VDict i (deep_merge t s)) (VDict i (deep_merge t' s')).
Proof. intros Wt Ws Qt Qs. exact (merge_val_veq (VDict j s) (VDict j s') (VDict i t) (VDict i t') Ws Wt Qt Qs). Qed.

Lemma merge_associative i a b c :
  wf (VDict i a) -> wf (VDict i b) -> wf (VDict i c) -> dict_where_dict (VDict i a) (VDict i b) ->
  veq (VDict i (dict_merge a [Some b; Some c])) (VDict i (dict_merge a [Some (dict_merge b [Some c])])).
Proof. intros Wa Wb Wc D. exact (merge_val_assoc (VDict i a) (VDict i b) (VDict i c) Wa Wb Wc D). Qed.

Lemma transpose_keys i m : NoDup (mkeys m) -> Forall (fun kv => converted (snd kv)) m ->
  exists ks, Permutation ks (mkeys m) /\ Sorted (fun a b => str_leb a b = true) ks /\
  forall t, mget (dict_transpose i m) t =
    accumulated i (flat_map (fun k => map (fun _ => vnstr k)
      (filter (fun x => str_eqb (sprint x) t) (elements (mget0 m k)))) ks).
Proof.
  intros N C. exists (dict_keys_as_string m).
  split; [apply sort_strings_perm|]. split; [apply sort_strings_sorted|].
  intros t. rewrite transpose_spec by assumption. f_equal. unfold transposed_pairs.
  induction (dict_keys_as_string m) as [|k ks IH]; simpl; auto.
  rewrite filter_app, map_app, IH. f_equal.
  induction (elements (mget0 m k)) as [|x l IHl]; simpl; auto.
  destruct (str_eqb (sprint x) t); simpl; congruence.
Qed.

End WithEnv.
