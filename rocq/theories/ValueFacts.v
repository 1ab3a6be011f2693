(** Facts about maps, values and conversion. *)
From Coq Require Import String Ascii List ZArith NArith Bool Lia Permutation Sorted.
From Verif Require Import GoStr GoStrFacts ValueModel.
Import ListNotations.

(** ** Induction on values *)

Definition valP_pairs {A} (P : value -> Prop) (m : list (A * value)) := Forall (fun kv => P (snd kv)) m.

Fixpoint value_ind' (P : value -> Prop)
  (Hnil : P VNil)
  (Hscal : forall s, P (VScal s))
  (Hslice : forall t l, Forall P l -> P (VSlice t l))
  (Hmap : forall t m, Forall (fun kv => P (snd kv)) m -> P (VMap t m))
  (Hmapk : forall t m, Forall (fun kv => P (snd kv)) m -> P (VMapK t m))
  (Hlist : forall i l, Forall P l -> P (VList i l))
  (Hdict : forall i m, Forall (fun kv => P (snd kv)) m -> P (VDict i m))
  (Hop : forall t c n, P (VOpaque t c n))
  (v : value) {struct v} : P v :=
  let rec := value_ind' P Hnil Hscal Hslice Hmap Hmapk Hlist Hdict Hop in
  let fix lst (l : list value) : Forall P l :=
    match l with [] => Forall_nil _ | x :: r => Forall_cons _ (rec x) (lst r) end in
  match v with
  | VNil => Hnil
  | VScal s => Hscal s
  | VSlice t l => Hslice t l (lst l)
  | VList i l => Hlist i l (lst l)
  | VMap t m => Hmap t m ((fix prs m : Forall (fun kv => P (snd kv)) m :=
      match m with [] => Forall_nil _ | kv :: r => Forall_cons kv (rec (snd kv)) (prs r) end) m)
  | VMapK t m => Hmapk t m ((fix prs m : Forall (fun kv => P (snd kv)) m :=
      match m with [] => Forall_nil _ | kv :: r => Forall_cons kv (rec (snd kv)) (prs r) end) m)
  | VDict i m => Hdict i m ((fix prs m : Forall (fun kv => P (snd kv)) m :=
      match m with [] => Forall_nil _ | kv :: r => Forall_cons kv (rec (snd kv)) (prs r) end) m)
  | VOpaque t c n => Hop t c n
  end.

(** ** Association lists *)

Section Maps.
Context {A : Type}.
Implicit Types m : list (str * A).

Lemma mget_mset_eq m k v : mget (mset m k v) k = Some v.
Proof.
  induction m as [|[k' v'] m IH]; simpl.
  - rewrite str_eqb_refl. reflexivity.
  - destruct (str_eqb k k') eqn:E; simpl; [rewrite str_eqb_refl|rewrite E]; auto.
Qed.

Lemma mget_mset_ne m k k' v : k <> k' -> mget (mset m k v) k' = mget m k'.
Proof.
  intros N. induction m as [|[j w] m IH]; simpl.
  - destruct (str_eqb_spec k' k); congruence.
  - destruct (str_eqb_spec k j); simpl; subst.
    + destruct (str_eqb_spec k' j); congruence.
    + rewrite IH. reflexivity.
Qed.

Lemma mget_mset m k k' v : mget (mset m k v) k' = if str_eqb k' k then Some v else mget m k'.
Proof.
  destruct (str_eqb_spec k' k); subst; [apply mget_mset_eq|apply mget_mset_ne; auto].
Qed.

Lemma mget_mdel m k k' : mget (mdel m k) k' = if str_eqb k' k then None else mget m k'.
Proof.
  induction m as [|[j w] m IH]; simpl.
  - destruct (str_eqb k' k); reflexivity.
  - destruct (str_eqb_spec k j); subst.
    + rewrite IH. destruct (str_eqb_spec k' j); auto.
    + simpl. rewrite IH. destruct (str_eqb_spec k' j); subst; auto.
      destruct (str_eqb_spec j k); congruence.
Qed.

Lemma mget_In m k v : mget m k = Some v -> In (k, v) m.
Proof.
  induction m as [|[j w] m IH]; simpl; [discriminate|].
  destruct (str_eqb_spec k j); intros H; [left; congruence|right; auto].
Qed.

Lemma mget_None m k : mget m k = None <-> ~ In k (mkeys m).
Proof.
  induction m as [|[j w] m IH]; simpl.
  - tauto.
  - destruct (str_eqb_spec k j).
    + split; [discriminate|]. intros H. exfalso. apply H. auto.
    + rewrite IH. split; intros H; [intros [?|?]; congruence || tauto|tauto].
Qed.

Lemma mget_In_NoDup m k v : NoDup (mkeys m) -> In (k, v) m -> mget m k = Some v.
Proof.
  induction m as [|[j w] m IH]; simpl; [tauto|].
  intros ND [H|H].
  - injection H as -> ->. rewrite str_eqb_refl. reflexivity.
  - inversion ND; subst. destruct (str_eqb_spec k j); auto. subst.
    exfalso. apply H2. change j with (fst (j, v)). apply in_map. assumption.
Qed.

Lemma mget_keys m k : In k (mkeys m) <-> exists v, mget m k = Some v.
Proof.
  destruct (mget m k) eqn:E.
  - split; eauto. intros _. apply mget_In in E. apply in_map with (f := fst) in E. assumption.
  - apply mget_None in E. split; [contradiction|]. intros [v H]. discriminate.
Qed.

Lemma mhas_keys m k : mhas m k = true <-> In k (mkeys m).
Proof.
  rewrite mget_keys. unfold mhas. destruct (mget m k); split; eauto; try discriminate.
  intros [v H]. discriminate.
Qed.

Lemma mkeys_mset m k v : mkeys (mset m k v) = if mhas m k then mkeys m else mkeys m ++ [k].
Proof.
  induction m as [|[j w] m IH]; simpl; auto.
  unfold mhas in *. simpl. destruct (str_eqb_spec k j); subst; simpl; auto.
  rewrite IH. destruct (mget m k); reflexivity.
Qed.

Lemma NoDup_app_single (l : list str) x : NoDup l -> ~ In x l -> NoDup (l ++ [x]).
Proof.
  intros H1 H2. apply Permutation_NoDup with (x :: l); [apply Permutation_cons_append|].
  constructor; assumption.
Qed.

Lemma NoDup_mset m k v : NoDup (mkeys m) -> NoDup (mkeys (mset m k v)).
Proof.
  intros H. rewrite mkeys_mset. destruct (mhas m k) eqn:E; auto.
  apply NoDup_app_single; auto.
  intros I. apply mhas_keys in I. congruence.
Qed.

Lemma mkeys_mdel m k : mkeys (mdel m k) = filter (fun j => negb (str_eqb k j)) (mkeys m).
Proof.
  induction m as [|[j w] m IH]; simpl; auto.
  destruct (str_eqb k j); simpl; congruence.
Qed.

Lemma NoDup_filter' (f : str -> bool) (l : list str) : NoDup l -> NoDup (filter f l).
Proof.
  induction 1; simpl; [constructor|]. destruct (f x); auto. constructor; auto.
  rewrite filter_In. tauto.
Qed.

Lemma NoDup_mdel m k : NoDup (mkeys m) -> NoDup (mkeys (mdel m k)).
Proof. intros H. rewrite mkeys_mdel. apply NoDup_filter'. assumption. Qed.

Lemma mget_perm m m' k : NoDup (mkeys m) -> Permutation m m' -> mget m k = mget m' k.
Proof.
  intros ND P.
  assert (ND' : NoDup (mkeys m')).
  { eapply Permutation_NoDup; [|exact ND]. apply Permutation_map. assumption. }
  destruct (mget m k) as [v|] eqn:G.
  - symmetry. apply mget_In_NoDup; auto. eapply Permutation_in; eauto. apply mget_In. assumption.
  - symmetry. apply mget_None. apply mget_None in G. intros H. apply G.
    eapply Permutation_in; [|exact H]. apply Permutation_sym, Permutation_map. assumption.
Qed.

(** Two maps with the same entries (distinct keys) are permutations of each other. *)
Lemma map_ext_perm m m' : NoDup (mkeys m) -> NoDup (mkeys m') ->
  (forall k, mget m k = mget m' k) -> Permutation m m'.
Proof.
  intros N1 N2 H. apply NoDup_Permutation.
  - apply NoDup_map_inv with (f := fst). assumption.
  - apply NoDup_map_inv with (f := fst). assumption.
  - intros [k v]. split; intros I.
    + apply mget_In. rewrite <- H. apply mget_In_NoDup; assumption.
    + apply mget_In. rewrite H. apply mget_In_NoDup; assumption.
Qed.

Lemma mset_same m k v : mget m k = Some v -> mset m k v = m.
Proof.
  induction m as [|[j w] m IH]; simpl; [discriminate|].
  destruct (str_eqb_spec k j); intros H; [congruence|]. rewrite IH; auto.
Qed.

Lemma mset_new m k v : mget m k = None -> mset m k v = m ++ [(k, v)].
Proof.
  induction m as [|[j w] m IH]; simpl; auto.
  destruct (str_eqb k j); [discriminate|]. intros H. rewrite IH; auto.
Qed.

Lemma mdel_absent m k : mget m k = None -> mdel m k = m.
Proof.
  induction m as [|[j w] m IH]; simpl; auto.
  destruct (str_eqb k j); [discriminate|]. intros H. rewrite IH; auto.
Qed.

Lemma mset_all_app (kvs kvs' : list (str * A)) m : mset_all (kvs ++ kvs') m = mset_all kvs' (mset_all kvs m).
Proof. unfold mset_all. apply fold_left_app. Qed.

Lemma NoDup_mset_all (kvs : list (str * A)) m : NoDup (mkeys m) -> NoDup (mkeys (mset_all kvs m)).
Proof.
  revert m; induction kvs as [|[k v] kvs IH]; intros m H; simpl; auto.
  apply IH. apply NoDup_mset. assumption.
Qed.

Lemma mset_all_fresh (kvs : list (str * A)) m :
  NoDup (mkeys m ++ mkeys kvs) -> mset_all kvs m = m ++ kvs.
Proof.
  revert m; induction kvs as [|[k v] kvs IH]; intros m H; simpl.
  - rewrite app_nil_r. reflexivity.
  - unfold mset_all in *. simpl. rewrite mset_new.
    + rewrite IH; [rewrite <- app_assoc; reflexivity|].
      unfold mkeys in *. rewrite map_app. simpl. rewrite <- app_assoc. assumption.
    + apply mget_None. simpl in H. intros I.
      apply NoDup_remove_2 in H. apply H. apply in_or_app. auto.
Qed.

(** Last assignment wins. *)
Lemma mget_mset_all (kvs : list (str * A)) m k :
  mget (mset_all kvs m) k = match mget (rev kvs) k with Some v => Some v | None => mget m k end.
Proof.
  revert m; induction kvs as [|[j v] kvs IH]; intros m; simpl; auto.
  unfold mset_all in *. simpl. rewrite IH. rewrite mget_mset.
  assert (G : forall l : list (str * A), mget (l ++ [(j, v)]) k = match mget l k with Some v => Some v | None => if str_eqb k j then Some v else None end).
  { induction l as [|[j' v'] l IHl]; simpl; auto. destruct (str_eqb k j'); auto. }
  rewrite G. destruct (mget (rev kvs) k); auto. destruct (str_eqb k j); auto.
Qed.

End Maps.

Lemma mget_map {A B} (f : A -> B) (m : list (str * A)) k :
  mget (map (fun kv => (fst kv, f (snd kv))) m) k = option_map f (mget m k).
Proof.
  induction m as [|[j w] m IH]; simpl; auto.
  destruct (str_eqb k j); auto.
Qed.

Lemma mkeys_map {A B} (f : A -> B) (m : list (str * A)) :
  mkeys (map (fun kv => (fst kv, f (snd kv))) m) = mkeys m.
Proof. unfold mkeys. rewrite map_map. reflexivity. Qed.

Lemma NoDup_rev_keys {A} (m : list (str * A)) : NoDup (mkeys m) -> NoDup (mkeys (rev m)).
Proof.
  intros H. unfold mkeys. rewrite map_rev. apply NoDup_rev. assumption.
Qed.

(** ** Printing does not depend on the iteration order *)

Lemma render_entries_perm r r' : NoDup (mkeys r) -> Permutation r r' ->
  render_entries r = render_entries r'.
Proof.
  intros N P. unfold render_entries. f_equal.
  rewrite (sort_strings_unique (mkeys r) (mkeys r')) by (apply Permutation_map; assumption).
  apply map_ext. intros k. rewrite (mget_perm r r' k N P). reflexivity.
Qed.

(** ** Conversion *)

(** Specification: no native container at any depth. *)
Inductive converted : value -> Prop :=
| cv_nil : converted VNil
| cv_scal s : converted (VScal s)
| cv_opaque t c n : converted (VOpaque t c n)
| cv_list i l : Forall converted l -> converted (VList i l)
| cv_dict i m : Forall (fun kv => converted (snd kv)) m -> converted (VDict i m).

Lemma existsb_false {A} (f : A -> bool) l : existsb f l = false <-> Forall (fun x => f x = false) l.
Proof.
  induction l; simpl; [split; auto|].
  rewrite orb_false_iff, IHl. split.
  - intros [? ?]. constructor; auto.
  - intros H. inversion H; auto.
Qed.

Lemma need_conv_converted v : need_conv v = false <-> converted v.
Proof.
  induction v using value_ind'; simpl.
  - split; auto; constructor.
  - split; auto; constructor.
  - split; [discriminate|]. intros C. inversion C.
  - split; [discriminate|]. intros C. inversion C.
  - split; [discriminate|]. intros C. inversion C.
  - rewrite existsb_false. split.
    + intros F. constructor. rewrite Forall_forall in *. intros x Hx. apply H; auto.
    + intros C. inversion C; subst. rewrite Forall_forall in *. intros x Hx. apply H; auto.
  - rewrite existsb_false. split.
    + intros F. constructor. rewrite Forall_forall in *. intros x Hx. apply H; auto.
    + intros C. inversion C; subst. rewrite Forall_forall in *. intros x Hx. apply H; auto.
  - split; auto; constructor.
Qed.

Lemma Forall_need_conv l : existsb need_conv l = false <-> Forall converted l.
Proof.
  rewrite existsb_false. rewrite !Forall_forall. split; intros H x Hx; apply need_conv_converted; auto.
Qed.

Lemma Forall_need_conv_pairs {A} (m : list (A * value)) :
  existsb (fun kv => need_conv (snd kv)) m = false <-> Forall (fun kv => converted (snd kv)) m.
Proof.
  rewrite existsb_false. rewrite !Forall_forall. split; intros H x Hx; apply need_conv_converted; auto.
Qed.

Section WithEnv.
Context {E : Env}.

Lemma conv_of_converted i v : converted v -> conv i v = v.
Proof.
  intros C. destruct v; simpl; auto; try (inversion C; fail).
  - inversion C; subst. apply Forall_need_conv in H0. rewrite H0. reflexivity.
  - inversion C; subst. apply Forall_need_conv_pairs in H0. rewrite H0. reflexivity.
Qed.

Lemma mset_Forall (P : value -> Prop) (m : list (str * value)) k v :
  Forall (fun kv => P (snd kv)) m -> P v -> Forall (fun kv => P (snd kv)) (mset m k v).
Proof.
  intros F Pv. induction F as [|[j w] m Hw F IH]; simpl; auto.
  destruct (str_eqb k j); constructor; auto.
Qed.

Lemma mset_all_Forall (P : value -> Prop) (kvs m : list (str * value)) :
  Forall (fun kv => P (snd kv)) kvs -> Forall (fun kv => P (snd kv)) m ->
  Forall (fun kv => P (snd kv)) (mset_all kvs m).
Proof.
  intros F. revert m. induction F as [|[j w] l Hw F IH]; intros m Fm; simpl; auto.
  apply IH. apply mset_Forall; auto.
Qed.

Lemma conv_converted i v : converted (conv i v).
Proof.
  induction v using value_ind'; simpl; try constructor.
  - destruct (existsb need_conv l) eqn:N.
    + rewrite Forall_map. assumption.
    + apply Forall_need_conv. assumption.
  - destruct (existsb _ m) eqn:N.
    + rewrite Forall_map. assumption.
    + apply Forall_need_conv_pairs. assumption.
  - apply (mset_all_Forall converted); [|constructor]. rewrite Forall_map. assumption.
  - destruct (existsb need_conv l) eqn:N.
    + constructor. rewrite Forall_map. assumption.
    + constructor. apply Forall_need_conv. assumption.
  - destruct (existsb _ m) eqn:N.
    + constructor. rewrite Forall_map. assumption.
    + constructor. apply Forall_need_conv_pairs. assumption.
Qed.

Lemma conv_idem i j v : conv j (conv i v) = conv i v.
Proof. apply conv_of_converted, conv_converted. Qed.

Lemma map_conv_converted i l : Forall converted l -> map (conv i) l = l.
Proof. induction 1; simpl; auto. rewrite conv_of_converted, IHForall; auto. Qed.

Lemma Forall_map_conv i l : Forall converted (map (conv i) l).
Proof. rewrite Forall_map. apply Forall_forall. intros. apply conv_converted. Qed.

Lemma as_list_arr_map i l : as_list_arr i l = map (conv i) l.
Proof.
  unfold as_list_arr. destruct (existsb need_conv l) eqn:N; auto.
  apply Forall_need_conv in N. symmetry. apply map_conv_converted. assumption.
Qed.

Lemma as_list_arr_converted i l : Forall converted (as_list_arr i l).
Proof. rewrite as_list_arr_map. apply Forall_map_conv. Qed.

Lemma as_list_arr_id i l : Forall converted l -> as_list_arr i l = l.
Proof. rewrite as_list_arr_map. apply map_conv_converted. Qed.

(** [conv] is the composition found in the source: nil is kept, then TryAsDictionary, then TryAsList,
    then the object itself (base_helper.go:209-218). *)
Lemma conv_try i v :
  conv i v = match v with
             | VNil => VNil
             | _ => match try_as_dict i v with
                    | Some (j, m) => VDict j m
                    | None => match try_as_list i v with
                              | Some (j, l) => VList j l
                              | None => v
                              end
                    end
             end.
Proof.
  destruct v; simpl; auto.
  - destruct (existsb need_conv l); auto.
  - destruct (existsb _ m); auto.
Qed.

End WithEnv.
