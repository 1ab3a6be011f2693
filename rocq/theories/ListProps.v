(** Properties of generic lists: C01, C03, C04, C05, C06, C07, C08, C09, C60. *)
From Coq Require Import String Ascii List ZArith NArith Bool Lia Permutation Sorted.
From Verif Require Import GoStr ValueModel ValueFacts CollSpec ListModel ListProofs ExampleEnv.
Import ListNotations.

(** ** C01 Append and Prepend are concatenation *)

(** The new elements are the converted arguments; the old ones are untouched. *)
Theorem C01_append_is_concatenation : forall (E : Env) i l objs, Forall converted l ->
  exists objs', Forall2 (converts i) objs objs' /\ list_append i l objs = l ++ objs'.
Proof. intros E. exact append_spec. Qed.
Print Assumptions C01_append_is_concatenation.

Theorem C01_prepend_is_concatenation : forall (E : Env) i l objs, Forall converted l ->
  exists objs', Forall2 (converts i) objs objs' /\ list_prepend i l objs = objs' ++ l.
Proof. intros E. exact prepend_spec. Qed.
Print Assumptions C01_prepend_is_concatenation.

(** Even when the list itself holds native containers (it then gets converted as well). *)
Theorem C01_append_prepend_any_list : forall (E : Env) i l objs,
  Forall2 (converts i) (l ++ objs) (list_append i l objs) /\
  Forall2 (converts i) (objs ++ l) (list_prepend i l objs).
Proof. intros E. exact append_gen_spec. Qed.
Print Assumptions C01_append_prepend_any_list.

Example C01_example :
  let E := env0 in
  Forall converted [n_ 1; l_ [s_ "a"]] /\
  list_append Base [n_ 1; l_ [s_ "a"]] [nm_ [("k"%string, nl_ [n_ 2])]; VNil]
  = [n_ 1; l_ [s_ "a"]; d_ [("k"%string, l_ [n_ 2])]; VNil].
Proof. split; [repeat constructor|vm_compute; reflexivity]. Qed.

(** ** C03 Indexed access *)

Theorem C03_get_one : forall (E : Env) i l k v, list_get i l [k] = v <-> at_position l k v.
Proof. intros E. exact list_get1_spec. Qed.
Print Assumptions C03_get_one.

Theorem C03_get_many : forall (E : Env) i l k1 k2 ks, Forall converted l ->
  exists vs, list_get i l (k1 :: k2 :: ks) = VList i vs /\ Forall2 (at_position l) (k1 :: k2 :: ks) vs.
Proof. intros E. exact list_get_many_spec. Qed.
Print Assumptions C03_get_many.

Theorem C03_first_last : forall (E : Env) i l,
  (l = [] -> list_first i l = VNil /\ list_last i l = VNil) /\
  (forall x r, l = x :: r -> list_first i l = x) /\
  (forall x r, l = r ++ [x] -> list_last i l = x).
Proof. intros E. exact list_first_last. Qed.
Print Assumptions C03_first_last.

Theorem C03_set : forall (E : Env) i l k v, Forall converted l -> (0 <= k)%Z ->
  exists l' v', list_set i l k v = Ok l' /\ converts i v v' /\
    length l' = Nat.max (length l) (Z.to_nat k + 1) /\
    nth_error l' (Z.to_nat k) = Some v' /\
    (forall p, p < length l -> p <> Z.to_nat k -> nth_error l' p = nth_error l p) /\
    (forall p, length l <= p < Z.to_nat k -> nth_error l' p = Some VNil).
Proof. intros E. exact set_spec. Qed.
Print Assumptions C03_set.

Theorem C03_set_negative : forall (E : Env) i l k v, (k < 0)%Z -> exists e, list_set i l k v = Err e.
Proof. intros E. exact set_negative. Qed.
Print Assumptions C03_set_negative.

Example C03_example :
  let E := env0 in
  list_set Base [n_ 1] 3 (nl_ [s_ "x"]) = Ok [n_ 1; VNil; VNil; l_ [s_ "x"]] /\
  list_get Base [n_ 1; n_ 2; n_ 3] [-1]%Z = n_ 3 /\
  list_get Base [n_ 1; n_ 2; n_ 3] [-4]%Z = VNil /\
  list_get Base [n_ 1; n_ 2; n_ 3] [0; 7; -2]%Z = l_ [n_ 1; VNil; n_ 2].
Proof. vm_compute. auto. Qed.

(** ** C04 Contains and Find *)

Theorem C04_contains_exact : forall (E : Env) source values,
  list_contains source values = true <-> source <> [] /\ forall v, In v values -> has_text source v.
Proof. intros E. exact contains_spec. Qed.
Print Assumptions C04_contains_exact.

Theorem C04_find_exact : forall (E : Env) l e,
  exists ps, list_find l e = map vint ps /\ Sorted Z.lt ps /\
  forall p, In p ps <-> exists n v, p = Z.of_nat n /\ nth_error l n = Some v /\ same_text v e.
Proof. intros E. exact find_spec. Qed.
Print Assumptions C04_find_exact.

(** Interface equality panics exactly on two values of one non comparable type. *)
Theorem C04_strict_equality_panics : forall a b,
  (exists e, iface_eq a b = Panic e) <-> same_uncomparable_type a b.
Proof. exact iface_eq_panic. Qed.
Print Assumptions C04_strict_equality_panics.

Theorem C04_contains_strict_exact : forall source values,
  (forall v x, In v values -> In x source -> ~ same_uncomparable_type v x) ->
  exists b, list_contains_strict source values = Ok b /\
  (b = true <-> source <> [] /\ forall v, In v values -> exists x, In x source /\ iface_eq v x = Ok true).
Proof. exact contains_strict_spec. Qed.
Print Assumptions C04_contains_strict_exact.

Theorem C04_find_strict_exact : forall l e,
  (forall x, In x l -> ~ same_uncomparable_type e x) ->
  exists ps, list_find_strict l e = Ok (map vint ps) /\ Sorted Z.lt ps /\
  forall p, In p ps <-> exists n v, p = Z.of_nat n /\ nth_error l n = Some v /\ iface_eq e v = Ok true.
Proof. exact find_strict_spec. Qed.
Print Assumptions C04_find_strict_exact.

(** The strict search is not total: looking for a list in a list of lists panics. *)
Theorem C04_contains_strict_total_refuted :
  exists source values e, list_contains_strict source values = Panic e.
Proof. exists [l_ [n_ 1]], [l_ [n_ 1]], uncomparable. vm_compute. reflexivity. Qed.
Print Assumptions C04_contains_strict_total_refuted.

Example C04_example :
  let E := env0 in
  list_contains [n_ 1; l_ [n_ 2; s_ "x"]] [s_ "1"; s_ "[2 x]"] = true /\
  list_contains [] [] = false /\
  list_find [n_ 1; s_ "1"; n_ 2; vnstr $"1"] (n_ 1) = [n_ 0; n_ 1; n_ 3] /\
  list_find_strict [n_ 1; s_ "1"; n_ 1] (n_ 1) = Ok [n_ 0; n_ 2].
Proof. vm_compute. auto. Qed.

(** ** C05 Set operations *)

Theorem C05_unique : forall (E : Env) i l, Forall converted l ->
  let u := list_unique i l in
  subseq u l /\ NoDup (map sprint u) /\ (forall x, In x l -> has_text u x) /\
  (forall y, In y u -> exists l1 l2, l = l1 ++ y :: l2 /\ ~ has_text l1 y) /\
  list_unique i u = u.
Proof. intros E. exact unique_spec. Qed.
Print Assumptions C05_unique.

Theorem C05_union : forall (E : Env) i l values, Forall converted l -> Forall converted values ->
  let u := list_union i l values in
  subseq u (l ++ values) /\ NoDup (map sprint u) /\
  (forall x, has_text u x <-> has_text l x \/ has_text values x).
Proof. intros E. exact union_spec. Qed.
Print Assumptions C05_union.

Theorem C05_intersect : forall (E : Env) i l values, Forall converted l -> Forall converted values ->
  let u := list_intersect i l values in
  subseq u l /\ NoDup (map sprint u) /\
  (forall x, has_text u x <-> has_text l x /\ has_text values x) /\
  kept (has_text values) (list_unique i l) u.
Proof. intros E. exact intersect_spec. Qed.
Print Assumptions C05_intersect.

Theorem C05_without : forall (E : Env) i l values, Forall converted l -> Forall converted values ->
  kept (fun x => ~ has_text values x) l (list_without i l values).
Proof. intros E. exact without_spec. Qed.
Print Assumptions C05_without.

(** Without the hypothesis the law fails: native maps given twice stay twice (their text changes
    when they are converted). *)
Theorem C05_unique_native_refuted :
  exists l, let E := env0 in ~ NoDup (map sprint (list_unique Base l)).
Proof.
  exists [nm_ [("a"%string, n_ 1)]; nm_ [("a"%string, n_ 1)]].
  intros E. vm_compute. intros H. inversion H as [|? ? N _]. apply N. left. reflexivity.
Qed.
Print Assumptions C05_unique_native_refuted.

Example C05_example :
  let E := env0 in
  list_unique Base [n_ 1; s_ "1"; n_ 2; n_ 1] = [n_ 1; n_ 2] /\
  list_union Base [n_ 1; n_ 2] [n_ 2; n_ 3] = [n_ 1; n_ 2; n_ 3] /\
  list_intersect Base [n_ 1; n_ 2; n_ 2; n_ 3] [s_ "2"; n_ 3] = [n_ 2; n_ 3] /\
  list_without Base [n_ 1; n_ 2; n_ 2; n_ 3] [n_ 2] = [n_ 1; n_ 3].
Proof. vm_compute. auto. Qed.

(** ** C06 Remove and Pop *)

Theorem C06_remove_exact : forall (E : Env) i l indexes, Forall converted l ->
  selected (fun p _ => ~ exists k, In k indexes /\ designates (length l) k p) 0 l (list_remove i l indexes).
Proof. intros E. exact remove_spec. Qed.
Print Assumptions C06_remove_exact.

(** Pop without argument takes the last element (position length-1, nil for an empty list). *)
Theorem C06_pop_exact : forall (E : Env) i l indexes, Forall converted l ->
  let indexes' := match indexes with [] => [Z.of_nat (length l) - 1]%Z | _ => indexes end in
  (forall k, indexes' = [k] -> at_position l k (fst (list_pop i l indexes))) /\
  (length indexes' > 1 ->
     exists vs, fst (list_pop i l indexes) = VList i vs /\ Forall2 (at_position l) indexes' vs) /\
  selected (fun p _ => ~ exists k, In k indexes' /\ designates (length l) k p) 0 l
           (snd (list_pop i l indexes)).
Proof. exact pop_spec. Qed.
Print Assumptions C06_pop_exact.

Example C06_example :
  let E := env0 in
  list_remove Base [n_ 1; n_ 2; n_ 3; n_ 4] [0; -1; 9]%Z = [n_ 2; n_ 3] /\
  list_pop Base [n_ 1; n_ 2; n_ 3] [] = (n_ 3, [n_ 1; n_ 2]) /\
  list_pop Base [n_ 1; n_ 2; n_ 3] [0; -1]%Z = (l_ [n_ 1; n_ 3], [n_ 2]) /\
  list_pop Base [] [] = (VNil, []).
Proof. vm_compute. auto. Qed.

(** ** C07 Reverse, RemoveEmpty, RemoveNil *)

Theorem C07_reverse : forall (E : Env) i l,
  Forall2 (converts i) l (rev (list_reverse i l)) /\ length (list_reverse i l) = length l /\
  (Forall converted l -> list_reverse i (list_reverse i l) = l).
Proof. exact reverse_spec. Qed.
Print Assumptions C07_reverse.

Theorem C07_remove_empty : forall (E : Env) i l, Forall converted l ->
  kept (fun x => ~ empty_item x) l (list_remove_empty i l).
Proof. intros E. exact remove_empty_spec. Qed.
Print Assumptions C07_remove_empty.

Theorem C07_remove_nil : forall (E : Env) i l, Forall converted l ->
  kept (fun x => x <> VNil) l (list_remove_nil i l).
Proof. intros E. exact remove_nil_spec. Qed.
Print Assumptions C07_remove_nil.

Theorem C07_remove_idempotent : forall (E : Env) i l, Forall converted l ->
  list_remove_empty i (list_remove_empty i l) = list_remove_empty i l /\
  list_remove_nil i (list_remove_nil i l) = list_remove_nil i l.
Proof. exact remove_idem. Qed.
Print Assumptions C07_remove_idempotent.

Example C07_example :
  let E := env0 in
  list_reverse Base [n_ 1; nl_ [n_ 2]; n_ 3] = [n_ 3; l_ [n_ 2]; n_ 1] /\
  list_remove_empty Base [VNil; l_ []; s_ ""; d_ []; n_ 0; l_ [VNil]] = [d_ []; n_ 0; l_ [VNil]] /\
  list_remove_nil Base [VNil; l_ []; s_ ""; VNil; n_ 0] = [l_ []; s_ ""; n_ 0].
Proof. vm_compute. auto. Qed.

(** ** C08 Clone *)

Theorem C08_clone_same_elements : forall (E : Env) i l, Forall converted l ->
  (forall j l', l <> [VList j l']) -> list_clone i l = l.
Proof. intros E. exact clone_spec. Qed.
Print Assumptions C08_clone_same_elements.

(** The exception: the only element is a list. *)
Theorem C08_clone_flattens_singleton : forall (E : Env) i j l', Forall converted l' ->
  list_clone i [VList j l'] = l'.
Proof. intros E. exact clone_singleton. Qed.
Print Assumptions C08_clone_flattens_singleton.

Theorem C08_clone_same_elements_refuted :
  exists l, Forall converted l /\ let E := env0 in list_clone Base l <> l.
Proof.
  exists [l_ [n_ 1; n_ 2]]. split; [repeat constructor|]. vm_compute. discriminate.
Qed.
Print Assumptions C08_clone_same_elements_refuted.

Example C08_example :
  let E := env0 in
  list_clone Json [n_ 1; l_ [n_ 2]] = [n_ 1; l_ [n_ 2]] /\ list_clone Json [d_ []] = [d_ []] /\
  list_clone Base [l_ [n_ 1; n_ 2]] = [n_ 1; n_ 2].
Proof. vm_compute. auto. Qed.

(** ** C09 Everything stored is converted *)

Theorem C09_stored_values_are_converted : forall (E : Env) i v,
  converts i v (conv i v) /\ converted (conv i v).
Proof. intros E i v. exact (conj (conv_converts i v) (conv_converted i v)). Qed.
Print Assumptions C09_stored_values_are_converted.

Theorem C09_conversion_idempotent : forall (E : Env) i j v, conv j (conv i v) = conv i v.
Proof. intros E. exact conv_idem. Qed.
Print Assumptions C09_conversion_idempotent.

(** A further conversion is requested exactly when a native container remains. *)
Theorem C09_need_conversion_exact : forall v, need_conv v = false <-> converted v.
Proof. exact need_conv_converted. Qed.
Print Assumptions C09_need_conversion_exact.

Theorem C09_lists_hold_converted_values : forall (E : Env) i l objs k v l',
  Forall converted (list_append i l objs) /\ Forall converted (list_prepend i l objs) /\
  Forall converted (new_list i l) /\
  (Forall converted l -> list_set i l k v = Ok l' -> Forall converted l').
Proof. exact list_ops_converted. Qed.
Print Assumptions C09_lists_hold_converted_values.

(** Printed keys of a native map can collide: the result then depends on the iteration order. *)
Theorem C09_key_collision_order_independent_refuted :
  exists m m' : list (scalar * value), Permutation m m' /\
  let E := env0 in conv Base (VMapK 1 m) <> conv Base (VMapK 1 m').
Proof.
  exists [(SInt KInt 1, s_ "a"); (SStr false $"1", s_ "b")].
  exists [(SStr false $"1", s_ "b"); (SInt KInt 1, s_ "a")].
  split; [apply perm_swap|]. vm_compute. discriminate.
Qed.
Print Assumptions C09_key_collision_order_independent_refuted.

Example C09_example :
  let E := env0 in
  conv Json (nm_ [("a"%string, nl_ [nm_ []; VNil; l_ [nl_ []]]); ("b"%string, n_ 1)]) =
  VDict Json [($"a", VList Json [VDict Json []; VNil; VList Json [VList Json []]]); ($"b", n_ 1)] /\
  conv Json (l_ [d_ []]) = l_ [d_ []].
Proof. vm_compute. auto. Qed.

(** ** C60 MergeLists *)

Theorem C60_merge_lists_concatenates : forall (E : Env) i l ls,
  Forall (fun x => Forall converted (snd x)) ((i, l) :: ls) ->
  merge_lists ((i, l) :: ls) = Some (i, concat (map snd ((i, l) :: ls))).
Proof. intros E. exact merge_lists_spec. Qed.
Print Assumptions C60_merge_lists_concatenates.

Example C60_merge_example :
  let E := env0 in
  merge_lists [(Base, [n_ 1; n_ 2]); (Json, []); (Json, [s_ "x"])] = Some (Base, [n_ 1; n_ 2; s_ "x"]).
Proof. vm_compute. reflexivity. Qed.
