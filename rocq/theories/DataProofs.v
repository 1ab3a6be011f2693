(** Proofs about the template functions over lists and dictionaries. *)
From Coq Require Import String Ascii List ZArith NArith Bool Lia Permutation Sorted SpecFloat.
From Verif Require Import GoStr GoStrFacts ValueModel ValueFacts CollSpec ListModel ListProofs DictModel DictProofs DataModel.
Import ListNotations.

Section WithEnv.
Context {E : Env}.

Lemma omit_empty i m k1 ks : Forall (fun kv => converted (snd kv)) m ->
  zlen (tpl_omit i m k1 ks) = 0%Z <-> (forall k, In k (mkeys m) -> In k (map sprint (k1 :: ks))).
Proof.
  intros C.
  assert (G : forall k, mget (tpl_omit i m k1 ks) k =
    if mem_str k (map sprint (k1 :: ks)) then None else option_map (clone_conv i) (mget m k)).
  { intros k. unfold tpl_omit, dict_omit. rewrite flush_spec, clone_get by assumption. reflexivity. }
  split.
  - intros Z k Hk. apply mem_str_In. destruct (mem_str k (map sprint (k1 :: ks))) eqn:M; auto.
    specialize (G k). rewrite M in G. apply mget_keys in Hk as [v Hv]. rewrite Hv in G.
    destruct (tpl_omit i m k1 ks); simpl in *; try discriminate; unfold zlen in Z; simpl in Z; lia.
  - intros H. destruct (tpl_omit i m k1 ks) as [|[k v] r]; [reflexivity|].
    specialize (G k). cbn [mget] in G. rewrite str_eqb_refl in G.
    destruct (mem_str k _) eqn:M; try discriminate.
    destruct (mget m k) as [w|] eqn:Hm; simpl in G; try discriminate.
    assert (In k (mkeys m)) as I by (apply mget_keys; eauto).
    apply H in I. change (In k (map sprint (k1 :: ks))) in I. apply mem_str_In in I. congruence.
Qed.

Lemma join_length_ge sep (l : list str) x : In x l -> length x <= length (join sep l).
Proof.
  induction l as [|a l IH]; simpl; [tauto|]. intros [->|H].
  - destruct l; auto. rewrite app_length. lia.
  - specialize (IH H). destruct l; [contradiction|]. rewrite !app_length. lia.
Qed.

Lemma slice_text_not_key vs x : In x vs -> sprint (VSlice 0 vs) <> sprint x.
Proof.
  intros H Q. apply (f_equal (@length ascii)) in Q.
  change (sprint (VSlice 0 vs)) with ($"[" ++ join $" " (map sprint vs) ++ $"]") in Q.
  pose proof (join_length_ge $" " (map sprint vs) (sprint x) (in_map _ _ _ H)) as L.
  revert Q L. generalize (join $" " (map sprint vs)). intros j Q L.
  rewrite !app_length in Q. cbn in Q. lia.
Qed.

Lemma pickv_spec fmt_v i m message key others : NoDup (mkeys m) -> Forall (fun kv => converted (snd kv)) m ->
  let keys := key :: others in
  ((forall k, In k (mkeys m) -> In k (map sprint keys)) /\
   tpl_pickv fmt_v i m message key others = Ok [(sprint (VSlice 0 (others ++ [key])), VNil)])
  \/
  ((exists k, In k (mkeys m) /\ ~ In k (map sprint keys)) /\
   exists o, tpl_pickv fmt_v i m message key others = Err (pickv_message fmt_v message o) /\
     Permutation (mkeys o) (filter (fun k => negb (mem_str k (map sprint keys))) (dict_keys_as_string m))).
Proof.
  intros Nm C keys. unfold tpl_pickv.
  destruct (0 <? zlen (tpl_omit i m key others))%Z eqn:Z.
  - right. assert (NZ : zlen (tpl_omit i m key others) <> 0%Z) by (apply Z.ltb_lt in Z; lia).
    split.
    + destruct (existsb (fun k => negb (mem_str k (map sprint keys))) (mkeys m)) eqn:X.
      * apply existsb_exists in X as (k & I & M). exists k. split; auto.
        intros H. apply mem_str_In in H. rewrite H in M. discriminate.
      * exfalso. apply NZ. apply omit_empty; auto. intros k I.
        apply mem_str_In. destruct (mem_str k (map sprint keys)) eqn:M; [exact M|].
        assert (existsb (fun k => negb (mem_str k (map sprint keys))) (mkeys m) = true); [|congruence].
        apply existsb_exists. exists k. rewrite M. auto.
    + exists (tpl_omit i m key others). split; auto.
      unfold tpl_omit, dict_omit, dict_flush.
      assert (N : NoDup (mkeys (fst (dict_delete_loop (dict_clone i m []) (key :: others) false))))
        by (apply delete_loop_nodup, clone_nodup).
      apply NoDup_Permutation; auto.
      { apply NoDup_filter'. eapply Permutation_NoDup; [apply Permutation_sym, sort_strings_perm|assumption]. }
      intros k. rewrite filter_In.
      rewrite mget_keys, (proj2 (delete_loop_false (dict_clone i m []) (key :: others))), clone_get by assumption.
      fold keys. split.
      * intros [v H]. destruct (mem_str k (map sprint keys)) eqn:M; [discriminate|]. split; auto.
        destruct (mget m k) eqn:G; [|discriminate].
        eapply Permutation_in; [apply Permutation_sym, sort_strings_perm|]. apply mget_keys. eauto.
      * intros [I M]. destruct (mem_str k (map sprint keys)); [discriminate|].
        eapply Permutation_in in I; [|apply sort_strings_perm]. apply mget_keys in I as [v ->]. simpl. eauto.
  - left. assert (ZZ : zlen (tpl_omit i m key others) = 0%Z).
    { apply Z.ltb_ge in Z. unfold zlen in *. lia. }
    pose proof (proj1 (omit_empty i m key others C) ZZ) as H. split; auto.
    f_equal. unfold tpl_pick, dict_clone. cbn [fold_left].
    unfold dict_set, clone_value, dict_get1, mget0.
    assert (mget m (sprint (VSlice 0 (others ++ [key]))) = None) as ->; [|reflexivity].
    apply mget_None. intros I. apply H in I. apply in_map_iff in I as (x & Sx & Ix).
    symmetry in Sx. revert Sx. apply slice_text_not_key. apply in_or_app. destruct Ix; [right; left|left]; auto.
Qed.

Lemma pick_all i m : tpl_pick i m [] = dict_clone i m [].
Proof. reflexivity. Qed.

Lemma pluck_empty key dicts : tpl_pluck key dicts = [].
Proof.
  unfold tpl_pluck. induction dicts as [|d ds IH]; simpl; auto.
  destruct (dict_has (snd d) [key]); auto.
Qed.

(** ** get, hasKey, createDict *)

Lemma mget_app {A} (m m' : list (str * A)) k :
  mget (m ++ m') k = match mget m k with Some v => Some v | None => mget m' k end.
Proof. induction m as [|[j v] m IH]; simpl; auto. destruct (str_eqb k j); auto. Qed.

(** Neither nil nor a map or dictionary. *)
Lemma c_try_as_dict_plain v : plain v -> c_try_as_dict v = None.
Proof. destruct v; simpl; tauto. Qed.

Lemma get_spec d i m key defs : c_try_as_dict d = Some (i, m) -> plain key ->
  tpl_get d key defs = tpl_get key d defs /\
  tpl_get d key defs = Ok (match mget m (sprint key) with
                           | None | Some VNil =>
                               match defs with [] => VNil | [x] => x | _ => VSlice 0 defs end
                           | Some v => v
                           end).
Proof.
  intros D P. unfold tpl_get. rewrite D, (c_try_as_dict_plain key P). split; auto.
  simpl. f_equal. unfold dict_get1, mget0. destruct (mget m (sprint key)) as [[]|]; auto;
  destruct defs as [|? [|? ?]]; auto.
Qed.

Lemma has_key_spec d i m key : c_try_as_dict d = Some (i, m) -> plain key ->
  tpl_has_key d key = tpl_has_key key d /\
  (tpl_has_key d key = Ok true <-> In (sprint key) (mkeys m)).
Proof.
  intros D P. unfold tpl_has_key. rewrite D, (c_try_as_dict_plain key P). split; auto.
  rewrite <- has1_spec. split; congruence.
Qed.

Lemma get_no_dict a b defs : plain a -> plain b ->
  tpl_get a b defs = Err $"must supply dictionary object" /\
  tpl_has_key a b = Err $"must supply dictionary object".
Proof.
  intros A B. unfold tpl_get, tpl_has_key. rewrite (c_try_as_dict_plain a A), (c_try_as_dict_plain b B). auto.
Qed.

Lemma set_pairs_spec kvs : forall m k,
  mget (set_pairs m (flat_map (fun kv => [fst kv; snd kv]) kvs)) k =
  match mget (rev (map (fun kv => (sprint (fst kv), conv dflt (snd kv))) kvs)) k with
  | Some v => Some v
  | None => mget m k
  end.
Proof.
  induction kvs as [|[a x] kvs IH]; intros m k; simpl; auto.
  rewrite IH. rewrite mget_app. simpl.
  destruct (mget (rev _) k) eqn:G; auto. unfold dict_set. rewrite mget_mset.
  destruct (str_eqb k (sprint a)); reflexivity.
Qed.

Lemma zlen_pairs (kvs : list (value * value)) :
  (zlen (flat_map (fun kv => [fst kv; snd kv]) kvs) mod 2 =? 0)%Z = true.
Proof.
  assert (H : zlen (flat_map (fun kv => [fst kv; snd kv]) kvs) = (2 * zlen kvs)%Z).
  { induction kvs; [reflexivity|]. cbn [flat_map]. unfold zlen in *. rewrite app_length. cbn [length]. lia. }
  rewrite H, Z.mul_comm, Z_mod_mult. reflexivity.
Qed.

Lemma create_dict_spec kvs :
  exists m, tpl_create_dict (flat_map (fun kv => [fst kv; snd kv]) kvs) = Ok m /\
  forall k, match mget m k with
            | Some w => exists pre kv post, kvs = pre ++ kv :: post /\ sprint (fst kv) = k /\
                converts dflt (snd kv) w /\ (forall x, In x post -> sprint (fst x) <> k)
            | None => forall x, In x kvs -> sprint (fst x) <> k
            end.
Proof.
  unfold tpl_create_dict. rewrite zlen_pairs. simpl. eexists. split; [reflexivity|].
  intros k. rewrite set_pairs_spec. simpl.
  set (f := fun kv : value * value => (sprint (fst kv), conv dflt (snd kv))).
  induction kvs as [|kv kvs IH] using rev_ind; simpl; [tauto|].
  rewrite map_app, rev_app_distr. simpl. destruct (str_eqb_spec k (sprint (fst kv))).
  - exists kvs, kv, []. subst. repeat split; auto. apply conv_converts.
  - destruct (mget (rev (map f kvs)) k) eqn:G.
    + destruct IH as (pre & kv' & post & -> & A & B & C).
      exists pre, kv', (post ++ [kv]). rewrite <- app_assoc. repeat split; auto.
      intros x I. apply in_app_or in I as [I|[<-|[]]]; auto.
    + intros x I. apply in_app_or in I as [I|[<-|[]]]; auto.
Qed.

Lemma create_dict_odd v : (zlen v mod 2 = 1)%Z -> exists e, tpl_create_dict v = Err e.
Proof. intros H. unfold tpl_create_dict. rewrite H. simpl. eauto. Qed.

(** ** contains *)

Lemma contains_list_spec l i vs es : c_try_as_list l = Some (i, vs) ->
  (tpl_contains false l es = Ok true <-> vs <> [] /\ forall e, In e es -> has_text vs e) /\
  (exists b, tpl_contains false l es = Ok b).
Proof.
  intros H. unfold tpl_contains, c_as_list. rewrite H. simpl. split; [|eauto].
  rewrite <- contains_spec. split; congruence.
Qed.

Lemma contains_swap strict l e i vs : c_try_as_list e = Some (i, vs) -> c_try_as_list l = None ->
  tpl_contains strict l [e] = tpl_contains strict e [l].
Proof. intros He Hl. unfold tpl_contains. rewrite He, Hl. reflexivity. Qed.

Lemma contains_substring strict l n s : c_try_as_list l = None ->
  exists b, tpl_contains strict l [VScal (SStr n s)] = Ok b /\
  (b = true <-> exists pre post, s = pre ++ sprint l ++ post).
Proof.
  intros H. unfold tpl_contains. rewrite H. simpl. eexists. split; [reflexivity|]. apply contains_iff.
Qed.

Lemma contains_never_panics strict l es e : tpl_contains strict l es <> Panic e.
Proof.
  assert (T : forall vs es, trap (list_contains_strict vs es) <> Panic e).
  { intros vs es'. unfold trap. destruct (list_contains_strict vs es'); congruence. }
  unfold tpl_contains. destruct (c_try_as_list l).
  - destruct strict; auto; discriminate.
  - destruct es as [|x [|y es]]; try (destruct strict; auto; discriminate).
    destruct (c_try_as_list x); [destruct strict; auto; discriminate|].
    destruct x as [|[]| | | | | |]; discriminate.
Qed.

(** ** Conditional helpers *)

Lemma is_empty_value_spec nilp v : is_empty_value nilp v = true <-> zero_value nilp v.
Proof.
  unfold is_empty_value, zero_value, zlen.
  destruct v as [|[b|k z|f|n s]|t l|t l|t l|i l|i l|]; try tauto.
  - destruct b; simpl; split; congruence.
  - rewrite Z.eqb_eq. tauto.
  - destruct f; split; try discriminate; eauto; intros [? ?]; discriminate.
  - rewrite Z.eqb_eq. destruct s; simpl; split; intros; try reflexivity; try discriminate; lia.
  - rewrite Z.eqb_eq. destruct l; simpl; split; intros; try reflexivity; try discriminate; lia.
  - rewrite Z.eqb_eq. destruct l; simpl; split; intros; try reflexivity; try discriminate; lia.
  - rewrite Z.eqb_eq. destruct l; simpl; split; intros; try reflexivity; try discriminate; lia.
  - rewrite Z.eqb_eq. destruct l; simpl; split; intros; try reflexivity; try discriminate; lia.
  - rewrite Z.eqb_eq. destruct l; simpl; split; intros; try reflexivity; try discriminate; lia.
Qed.

Lemma iif_spec nilp t a b :
  (zero_value nilp t -> iif nilp t a b = b) /\ (~ zero_value nilp t -> iif nilp t a b = a).
Proof.
  unfold iif. rewrite <- is_empty_value_spec. destruct (is_empty_value nilp t); split; intros; congruence.
Qed.

Lemma default_spec' nilp v d :
  (zero_value nilp v -> default_ nilp v d = d) /\ (~ zero_value nilp v -> default_ nilp v d = v).
Proof. apply iif_spec. Qed.

Lemma if_undef_spec nilp def vs :
  (vs = [] -> if_undef nilp def vs = def) /\
  (forall v, vs = [v] -> (v = VNil \/ nil_pointer nilp v) -> if_undef nilp def vs = def) /\
  (forall v, vs = [v] -> v <> VNil -> ~ nil_pointer nilp v -> if_undef nilp def vs = v) /\
  (2 <= length vs -> if_undef nilp def vs = VSlice 0 vs).
Proof.
  repeat split.
  - intros ->. reflexivity.
  - intros v -> [->|H]; [reflexivity|]. destruct v; try contradiction. simpl in *. rewrite H. reflexivity.
  - intros v -> H1 H2. destruct v; try reflexivity; [congruence|].
    simpl in *. destruct (nilp (VOpaque ty cmp n)); congruence.
  - destruct vs as [|? [|? ?]]; simpl; try lia. reflexivity.
Qed.

(** ** repeat, FormatList *)

Lemma set_each_eq i vs : forall pre l, length vs = length l ->
  set_each i (pre ++ l) (length pre) vs = pre ++ map (conv i) vs.
Proof.
  induction vs as [|v vs IH]; intros pre [|x l] L; simpl in *; try lia; auto.
  assert (upd (pre ++ x :: l) (length pre) (conv i v) = (pre ++ [conv i v]) ++ l) as ->.
  { clear. induction pre; simpl; congruence. }
  replace (S (length pre)) with (length (pre ++ [conv i v])) by (rewrite app_length; simpl; lia).
  rewrite IH by lia. rewrite <- app_assoc. reflexivity.
Qed.

Lemma repeat_spec n a :
  ((n < 0)%Z -> exists e, tpl_repeat n a = Err e) /\
  ((0 <= n)%Z -> exists r, tpl_repeat n a = Ok r /\ zlen r = n /\ Forall (converts dflt a) r).
Proof.
  split; intros H; unfold tpl_repeat.
  - destruct (Z.ltb_spec n 0); [|lia]. eauto.
  - destruct (Z.ltb_spec n 0); [lia|]. eexists. split; [reflexivity|].
    rewrite (set_each_eq dflt (repeat a (Z.to_nat n)) [] (repeat VNil (Z.to_nat n)))
      by (rewrite !repeat_length; reflexivity).
    simpl. split.
    + unfold zlen. rewrite map_length, repeat_length. lia.
    + apply Forall_forall. intros x I. apply in_map_iff in I as (y & <- & I).
      apply repeat_spec in I. subst. apply conv_converts.
Qed.

Lemma format_list_spec fmt1 i l : Forall converted l -> (forall j l', l <> [VList j l']) ->
  format_list fmt1 [VList i l] = (i, map (fun v => vstr (fmt1 v)) l).
Proof.
  intros C N. unfold format_list. simpl. f_equal. rewrite clone_spec by assumption.
  rewrite (set_each_eq i _ [] l) by apply map_length. simpl.
  rewrite map_map. reflexivity.
Qed.

Lemma format_list_many fmt1 a b vs : Forall converted (a :: b :: vs) ->
  format_list fmt1 (a :: b :: vs) = (dflt, map (fun v => vstr (fmt1 v)) (a :: b :: vs)).
Proof.
  intros C. unfold format_list. f_equal. rewrite as_list_arr_id by assumption.
  rewrite clone_spec by (assumption || discriminate).
  rewrite (set_each_eq dflt _ [] (a :: b :: vs)) by apply map_length. simpl.
  rewrite map_map. reflexivity.
Qed.

End WithEnv.
