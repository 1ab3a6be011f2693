(** Properties of dictionaries: C10, C11, C12, C13, C16. *)
From Coq Require Import String Ascii List ZArith NArith Bool Lia Permutation Sorted.
From Verif Require Import GoStr ValueModel ValueFacts CollSpec ListModel DictModel DictProofs ExampleEnv.
Import ListNotations.

(** ** C10 Output does not depend on map iteration order *)

(** Keys: sorted bytewise, without duplicates, the same for every order of the entries. *)
Theorem C10_keys : forall (E : Env) m m', NoDup (mkeys m) -> Permutation m m' ->
  let ks := dict_keys_as_string m in
  Permutation ks (mkeys m) /\ NoDup ks /\ Sorted (fun a b => str_leb a b = true) ks /\
  dict_keys_as_string m' = ks /\ dict_get_keys m' = map vnstr ks.
Proof. intros E. exact keys_as_string_spec. Qed.
Print Assumptions C10_keys.

(** Values follow their keys. *)
Theorem C10_values : forall (E : Env) i m m', NoDup (mkeys m) -> Permutation m m' ->
  Forall2 (fun k w => exists v, mget m k = Some v /\ converts i v w)
          (dict_keys_as_string m) (dict_get_values i m) /\
  dict_get_values i m' = dict_get_values i m.
Proof. intros E. exact get_values_spec. Qed.
Print Assumptions C10_values.

(** String: "dict[k1:v1 k2:v2 ...]" in key order. *)
Theorem C10_string : forall (E : Env) m, NoDup (mkeys m) ->
  exists ks, Permutation ks (mkeys m) /\ Sorted (fun a b => str_leb a b = true) ks /\
  sprint (VDict Base m) =
    $"dict[" ++ join $" " (map (fun k => k ++ $":" ++ sprint (mget0 m k)) ks) ++ $"]".
Proof. intros E. exact sprint_dict. Qed.
Print Assumptions C10_string.

(** The printed form of any value is the same for all iteration orders of the maps in it, at any
    depth (provided that this is so for the values whose text the model leaves open). *)
Theorem C10_string_any_order : forall (E : Env) v w, (forall a b, veq a b -> fmtx a = fmtx b) ->
  wf v -> veq v w -> sprint v = sprint w.
Proof. intros E. exact veq_sprint. Qed.
Print Assumptions C10_string_any_order.

Theorem C10_transpose : forall (E : Env) i m m', NoDup (mkeys m) -> Permutation m m' ->
  dict_transpose i m' = dict_transpose i m.
Proof. intros E. exact transpose_perm. Qed.
Print Assumptions C10_transpose.

Definition dict_ab : list (str * value) := [($"b", n_ 2); ($"a", d_ [("y"%string, s_ "v"); ("x"%string, n_ 1)])].
Definition dict_ab' : list (str * value) := [($"a", d_ [("x"%string, n_ 1); ("y"%string, s_ "v")]); ($"b", n_ 2)].

Example C10_example :
  let E := env0 in
  NoDup (mkeys dict_ab) /\ wf (VDict Base dict_ab) /\ veq (VDict Base dict_ab) (VDict Base dict_ab') /\
  dict_keys_as_string dict_ab = [$"a"; $"b"] /\
  sprint (VDict Base dict_ab) = $"dict[a:dict[x:1 y:v] b:2]" /\
  sprint (VDict Base dict_ab') = $"dict[a:dict[x:1 y:v] b:2]".
Proof.
  simpl. assert (N : NoDup (mkeys dict_ab)).
  { repeat constructor; simpl; intuition discriminate. }
  split; [assumption|]. split; [|split].
  - constructor; [assumption|]. repeat constructor; simpl; intuition discriminate.
  - eapply veq_dict with (m1 := [_; _]); [apply perm_swap|]. repeat constructor; simpl.
    eapply veq_dict with (m1 := [_; _]); [apply perm_swap|]. repeat constructor.
  - repeat split; vm_compute; reflexivity.
Qed.

(** ** C11 Update laws *)

Theorem C11_get_set : forall (E : Env) i m k v k',
  exists v', converts i v v' /\
  dict_get i (dict_set i m k v) [k'] = if str_eqb (sprint k') (sprint k) then v' else dict_get i m [k'].
Proof. intros E. exact get_set_spec. Qed.
Print Assumptions C11_get_set.

Theorem C11_get_many : forall (E : Env) i m k1 k2 ks,
  exists vs, dict_get i m (k1 :: k2 :: ks) = VList i vs /\
    Forall2 (fun k w => exists v, converts i v w /\ v = match mget m (sprint k) with Some v => v | None => VNil end)
            (k1 :: k2 :: ks) vs.
Proof. intros E. exact get_many_spec. Qed.
Print Assumptions C11_get_many.

Theorem C11_has : forall (E : Env) m keys,
  dict_has m keys = true <-> m <> [] /\ forall k, In k keys -> In (sprint k) (mkeys m).
Proof. intros E. exact has_spec. Qed.
Print Assumptions C11_has.

Theorem C11_default : forall (E : Env) m k d,
  dict_default m k d = match mget m (sprint k) with Some v => v | None => d end.
Proof. intros E. exact default_spec. Qed.
Print Assumptions C11_default.

Theorem C11_flush : forall (E : Env) m k ks k',
  mget (dict_flush m (k :: ks)) k' = if mem_str k' (map sprint (k :: ks)) then None else mget m k'.
Proof. intros E. exact flush_spec. Qed.
Print Assumptions C11_flush.

Theorem C11_flush_all : forall (E : Env) m, dict_flush m [] = [].
Proof. intros E. exact flush_all. Qed.
Print Assumptions C11_flush_all.

Theorem C11_pop : forall (E : Env) i m k ks,
  fst (dict_pop i m (k :: ks)) = dict_get i m (k :: ks) /\
  (forall k', mget (snd (dict_pop i m (k :: ks))) k' =
              if mem_str k' (map sprint (k :: ks)) then None else mget m k') /\
  dict_pop i m [] = (VNil, m).
Proof. intros E. exact pop_dict_spec. Qed.
Print Assumptions C11_pop.

(** Omit keeps the content of the other entries (for values without a list holding just one list,
    see C15 for those). *)
Theorem C11_omit : forall (E : Env) i m k1 ks, Forall (fun kv => converted (snd kv)) m ->
  Forall (fun kv => no_nested_singleton (snd kv)) m ->
  forall k, match mget (dict_omit i m k1 ks) k with
            | None => In k (map sprint (k1 :: ks)) \/ mget m k = None
            | Some w => ~ In k (map sprint (k1 :: ks)) /\ exists v, mget m k = Some v /\ same_data v w
            end.
Proof. intros E. exact omit_spec. Qed.
Print Assumptions C11_omit.

(** Keys stay distinct through Set, Delete, Flush, Pop, Clone and Merge. *)
Theorem C11_keys_stay_distinct : forall (E : Env) i m k v keys b s, NoDup (mkeys m) ->
  NoDup (mkeys (dict_set i m k v)) /\ NoDup (mkeys (fst (dict_delete_loop m keys b))) /\
  NoDup (mkeys (dict_clone i m keys)) /\ NoDup (mkeys (deep_merge m s)).
Proof. intros E. exact keys_stay_distinct. Qed.
Print Assumptions C11_keys_stay_distinct.

(** Keys are compared by printed form: the number 1 and the text "1" are the same key. *)
Example C11_example :
  let E := env0 in
  let m := dict_set Base [] (n_ 1) (nl_ [s_ "a"]) in
  dict_get Base m [s_ "1"] = l_ [s_ "a"] /\ dict_has m [s_ "1"] = true /\
  dict_has [] [] = false /\ dict_has m [] = true /\
  dict_get Base m [s_ "1"; s_ "2"] = l_ [l_ [s_ "a"]; VNil] /\
  dict_flush [($"a", n_ 1); ($"b", n_ 2)] [s_ "a"; s_ "z"] = [($"b", n_ 2)] /\
  dict_omit Base [($"a", n_ 1); ($"b", l_ [n_ 2])] (s_ "a") [] = [($"b", l_ [n_ 2])].
Proof. vm_compute. repeat split; reflexivity. Qed.

(** ** C12 Delete stops at the first missing key *)

Theorem C12_delete : forall (E : Env) m key others,
  let keys := key :: others in
  (exists m', dict_delete m key others = (m', None) /\
     (forall k, In k keys -> In (sprint k) (mkeys m)) /\ NoDup (map sprint keys) /\
     (forall k, mget m' k = if mem_str k (map sprint keys) then None else mget m k))
  \/
  (exists m' pre bad post, dict_delete m key others = (m', Some ($"key " ++ sprint bad ++ $" not found")) /\
     keys = pre ++ bad :: post /\
     (forall k, In k pre -> In (sprint k) (mkeys m)) /\ NoDup (map sprint pre) /\
     (~ In (sprint bad) (mkeys m) \/ In (sprint bad) (map sprint pre)) /\
     (forall k, mget m' k = if mem_str k (map sprint pre) then None else mget m k)).
Proof. intros E. exact delete_spec. Qed.
Print Assumptions C12_delete.

(** Success exactly when all keys are present and distinct. *)
Theorem C12_delete_succeeds : forall (E : Env) m key others,
  snd (dict_delete m key others) = None <->
  (forall k, In k (key :: others) -> In (sprint k) (mkeys m)) /\ NoDup (map sprint (key :: others)).
Proof. intros E. exact delete_succeeds. Qed.
Print Assumptions C12_delete_succeeds.

(** Not atomic: a failing Delete has removed something. *)
Theorem C12_delete_atomic_refuted : exists (E : Env) m key others,
  snd (dict_delete m key others) <> None /\ fst (dict_delete m key others) <> m.
Proof.
  exists env0, [($"a", n_ 1); ($"b", n_ 2)], (s_ "a"), [s_ "z"; s_ "b"].
  split; vm_compute; discriminate.
Qed.
Print Assumptions C12_delete_atomic_refuted.

Example C12_example :
  let E := env0 in
  let m := [($"a", n_ 1); ($"b", n_ 2); ($"c", n_ 3)] in
  dict_delete m (s_ "a") [s_ "c"] = ([($"b", n_ 2)], None) /\
  dict_delete m (s_ "a") [s_ "z"; s_ "b"] = ([($"b", n_ 2); ($"c", n_ 3)], Some $"key z not found") /\
  dict_delete m (s_ "a") [s_ "a"] = ([($"b", n_ 2); ($"c", n_ 3)], Some $"key a not found").
Proof. vm_compute. repeat split; reflexivity. Qed.

(** ** C13 Merge *)

(** One merge, at every depth. *)
Theorem C13_merge_recursive : forall (E : Env) i j t s, wf (VDict i t) -> wf (VDict j s) ->
  merges (VDict i t) (VDict j s) (VDict i (deep_merge t s)).
Proof. intros E. exact deep_merge_spec. Qed.
Print Assumptions C13_merge_recursive.

(** Any number of sources (nil sources are skipped): the values found for a key are combined from
    left to right. *)
Theorem C13_merge_sources : forall (E : Env) t ss, wf (VDict Base t) ->
  Forall (fun s => match s with Some m => wf (VDict Base m) | None => True end) ss ->
  forall k, merged_values (mget t k :: map (fun s => match s with Some m => mget m k | None => None end) ss)
                          (mget (dict_merge t ss) k).
Proof. intros E. exact merge_sources. Qed.
Print Assumptions C13_merge_sources.

(** A value of the target that is not a dictionary is kept. *)
Theorem C13_target_wins : forall (E : Env) t ss k v,
  NoDup (mkeys t) -> Forall (fun m => NoDup (mkeys m)) ss ->
  mget t k = Some v -> (forall i m, v <> VDict i m) ->
  mget (dict_merge t (map Some ss)) k = Some v.
Proof. intros E. exact merge_target_wins. Qed.
Print Assumptions C13_target_wins.

(** Among sources, the first that has the key wins. *)
Theorem C13_first_source_wins : forall (E : Env) t pre s post k v,
  NoDup (mkeys t) -> Forall (fun m => NoDup (mkeys m)) (pre ++ s :: post) ->
  mget t k = None -> (forall m, In m pre -> mget m k = None) ->
  mget s k = Some v -> (forall i m, v <> VDict i m) ->
  mget (dict_merge t (map Some (pre ++ s :: post))) k = Some v.
Proof. intros E. exact merge_first_wins. Qed.
Print Assumptions C13_first_source_wins.

Theorem C13_merge_neutral : forall (E : Env) m, wf (VDict Base m) ->
  dict_merge m [Some m] = m /\ dict_merge m [Some []] = m /\ dict_merge [] [Some m] = m /\
  dict_merge m [None] = m /\ dict_merge m [] = m.
Proof. intros E. exact merge_neutral. Qed.
Print Assumptions C13_merge_neutral.

(** Iteration orders of target and source, at any depth, do not matter. *)
Theorem C13_merge_order_independent : forall (E : Env) i j t t' s s',
  wf (VDict i t) -> wf (VDict j s) -> veq (VDict i t) (VDict i t') -> veq (VDict j s) (VDict j s') ->
  veq (VDict i (deep_merge t s)) (VDict i (deep_merge t' s')).
Proof. intros E. exact merge_order. Qed.
Print Assumptions C13_merge_order_independent.

(** Associative when no dictionary of the first meets something else in the second ... *)
Theorem C13_merge_associative : forall (E : Env) i a b c,
  wf (VDict i a) -> wf (VDict i b) -> wf (VDict i c) -> dict_where_dict (VDict i a) (VDict i b) ->
  veq (VDict i (dict_merge a [Some b; Some c])) (VDict i (dict_merge a [Some (dict_merge b [Some c])])).
Proof. intros E. exact merge_associative. Qed.
Print Assumptions C13_merge_associative.

(** ... and not in general. *)
Theorem C13_merge_associative_refuted : exists (E : Env) a b c k,
  wf (VDict Base a) /\ wf (VDict Base b) /\ wf (VDict Base c) /\
  mget (dict_merge a [Some b; Some c]) k <> mget (dict_merge a [Some (dict_merge b [Some c])]) k.
Proof.
  exists env0, [($"k", d_ [])], [($"k", n_ 1)], [($"k", d_ [("x"%string, n_ 2)])], $"k".
  split; [|split; [|split]]; try (vm_compute; discriminate);
  repeat (constructor; simpl; try tauto).
Qed.
Print Assumptions C13_merge_associative_refuted.

Example C13_example :
  let E := env0 in
  let t := [($"a", n_ 1); ($"d", d_ [("x"%string, n_ 2); ("e"%string, d_ [("p"%string, n_ 1)])])] in
  let s1 := [($"b", n_ 3); ($"a", n_ 9); ($"d", d_ [("y"%string, n_ 4); ("e"%string, d_ [("q"%string, n_ 2); ("p"%string, n_ 7)])])] in
  let s2 := [($"b", n_ 5); ($"c", n_ 6)] in
  dict_merge t [Some s1; None; Some s2] =
  [($"a", n_ 1);
   ($"d", d_ [("x"%string, n_ 2); ("e"%string, d_ [("p"%string, n_ 1); ("q"%string, n_ 2)]); ("y"%string, n_ 4)]);
   ($"b", n_ 3); ($"c", n_ 6)].
Proof. vm_compute. reflexivity. Qed.

(** ** C16 Add and Transpose *)

Theorem C16_add_accumulates : forall (E : Env) i m key vs,
  mget m (sprint key) = None -> Forall converted vs -> Forall single vs ->
  mget (fold_left (fun acc v => dict_add i acc key v) vs m) (sprint key) = accumulated i vs /\
  forall k, k <> sprint key ->
    mget (fold_left (fun acc v => dict_add i acc key v) vs m) k = mget m k.
Proof. intros E. exact add_sequence. Qed.
Print Assumptions C16_add_accumulates.

Theorem C16_add_to_list : forall (E : Env) i m key j l v, mget m (sprint key) = Some (VList j l) ->
  Forall converted l -> converted v ->
  mget (dict_add i m key v) (sprint key) = Some (VList j (l ++ [v])).
Proof. intros E. exact add_to_list. Qed.
Print Assumptions C16_add_to_list.

(** An existing nil is lost. *)
Theorem C16_add_to_nil : forall (E : Env) i m key v, mget m (sprint key) = Some VNil -> converted v ->
  mget (dict_add i m key v) (sprint key) = Some (VList dflt [v]).
Proof. intros E. exact add_to_nil. Qed.
Print Assumptions C16_add_to_nil.

Theorem C16_add_keeps_existing_refuted : exists (E : Env) m key v cur,
  mget m (sprint key) = Some cur /\ (forall i l, cur <> VList i l) /\
  mget (dict_add Base m key v) (sprint key) <> Some (VList Base [cur; v]).
Proof.
  exists env0, [($"k", VNil)], (s_ "k"), (n_ 1), VNil.
  repeat split; try discriminate; vm_compute; try reflexivity; discriminate.
Qed.
Print Assumptions C16_add_keeps_existing_refuted.

(** Transpose: each text maps to the keys that hold an element printed so, in key order, once per
    occurrence; other texts are absent. *)
Theorem C16_transpose : forall (E : Env) i m, NoDup (mkeys m) -> Forall (fun kv => converted (snd kv)) m ->
  exists ks, Permutation ks (mkeys m) /\ Sorted (fun a b => str_leb a b = true) ks /\
  forall t, mget (dict_transpose i m) t =
    accumulated i (flat_map (fun k => map (fun _ => vnstr k)
      (filter (fun x => str_eqb (sprint x) t) (elements (mget0 m k)))) ks).
Proof. intros E. exact transpose_keys. Qed.
Print Assumptions C16_transpose.

Example C16_example :
  let E := env0 in
  let m := [($"c", n_ 1); ($"b", VNil); ($"a", l_ [n_ 1; s_ "x"]); ($"d", s_ "y")] in
  dict_transpose Base m =
    [($"1", l_ [vnstr $"a"; vnstr $"c"]); ($"x", vnstr $"a"); ($"y", vnstr $"d")] /\
  dict_add Base (dict_add Base (dict_add Base [] (s_ "k") (n_ 1)) (s_ "k") (n_ 2)) (s_ "k") (n_ 3)
  = [($"k", l_ [n_ 1; n_ 2; n_ 3])].
Proof. vm_compute. split; reflexivity. Qed.
