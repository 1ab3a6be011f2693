(** Properties of lists and dictionaries sharing data: C02, C06 (effect on the caller), C14, C15. *)
From Coq Require Import String Ascii List ZArith NArith Bool PeanoNat.
From Verif Require Import GoStr ValueModel ValueFacts CollSpec ListModel DictModel HeapModel HeapSpec HeapProofs HeapTree
  ExampleEnv.
Import ListNotations.

(** Growth policy used by the examples: double the capacity. *)
Definition double (cap needed : nat) : nat := 2 * cap.

(** ** C02 Append and sharing *)

(** Append returns the elements of the list followed by the arguments, and changes no slice other
    than those that already see the cells after the end of the list. *)
Theorem C02_append : forall grow h l objs, valid_slice h l -> valid_slice h objs ->
  let '(h', r) := h_append grow h l objs in
  valid_slice h' r /\ contents h' r = contents h l ++ contents h objs /\
  (forall t, valid_slice h t -> apart l (s_len objs) t -> contents h' t = contents h t).
Proof. exact append_result. Qed.
Print Assumptions C02_append.

(** The list itself is never changed. *)
Theorem C02_append_keeps_base : forall grow h l objs, valid_slice h l -> valid_slice h objs ->
  let '(h', r) := h_append grow h l objs in contents h' l = contents h l.
Proof. exact append_keeps_base. Qed.
Print Assumptions C02_append_keeps_base.

(** Without spare capacity nothing at all is changed. *)
Theorem C02_append_without_spare : forall grow h l objs, valid_slice h l -> valid_slice h objs ->
  s_len l = s_cap l ->
  let '(h', r) := h_append grow h l objs in
  forall t, valid_slice h t -> contents h' t = contents h t.
Proof. exact append_full. Qed.
Print Assumptions C02_append_without_spare.

(** The same with explicit arguments. *)
Theorem C02_append_arguments : forall grow h l vs, valid_slice h l ->
  let '(h', r) := h_append_args grow h l vs in
  valid_slice h' r /\ contents h' r = contents h l ++ vs /\
  (s_len l = s_cap l -> forall t, valid_slice h t -> contents h' t = contents h t).
Proof. exact append_args_full. Qed.
Print Assumptions C02_append_arguments.

(** Prepend with explicit arguments changes nothing. *)
Theorem C02_prepend_arguments : forall grow h l vs, valid_slice h l ->
  let '(h', r) := h_prepend_args grow h l vs in
  valid_slice h' r /\ contents h' r = vs ++ contents h l /\
  (forall t, valid_slice h t -> contents h' t = contents h t).
Proof. exact prepend_args_isolated. Qed.
Print Assumptions C02_prepend_arguments.

(** NewList makes a list in an array of its own. *)
Theorem C02_new_list : forall grow h items,
  let '(h', s) := h_new_list grow h items in
  valid_slice h' s /\ contents h' s = match items with [HList _ s0] => contents h s0 | _ => items end /\
  (forall t, valid_slice h t -> contents h' t = contents h t) /\
  (forall t, valid_slice h t -> s_arr t <> s_arr s).
Proof. exact new_list_fresh. Qed.
Print Assumptions C02_new_list.

(** Set inside the bounds changes one cell, for every slice that sees it. *)
Theorem C02_set_one_cell : forall grow h l k v, valid_slice h l -> k < s_len l ->
  let '(h', l') := h_set grow h l k v in
  l' = l /\ forall t j, valid_slice h t -> j < s_len t ->
    nth_error (contents h' t) j =
      if (s_arr t =? s_arr l) && (s_off t + j =? s_off l + k) then Some v else nth_error (contents h t) j.
Proof. exact set_inside_spec. Qed.
Print Assumptions C02_set_one_cell.

(** Two Appends on the same list with spare capacity: the second overwrites the element of the
    first. *)
Theorem C02_earlier_list_kept_refuted : exists grow h base v w,
  valid_slice h base /\
  let '(h1, a) := h_append_args grow h base [v] in
  let '(h2, b) := h_append_args grow h1 base [w] in
  valid_slice h1 a /\ contents h1 a = [v] /\ contents h2 a = [w] /\ v <> w.
Proof.
  exists double, (fst (create_list [] 0 2)), (snd (create_list [] 0 2)), (hint 1), (hint 2).
  split; [eexists; vm_compute; repeat split; repeat constructor|].
  vm_compute. split; [eexists; repeat split; repeat constructor|]. repeat split. discriminate.
Qed.
Print Assumptions C02_earlier_list_kept_refuted.

(** Prepend of the elements of a slice (xs...) with spare capacity overwrites cells of the array of
    that slice. *)
Theorem C02_prepend_slice_refuted : exists grow h l objs whole,
  valid_slice h l /\ valid_slice h objs /\ valid_slice h whole /\
  let '(h', r) := h_prepend grow h l objs in contents h' whole <> contents h whole.
Proof.
  exists double, [OArr [hint 1; hint 2; hint 3]; OArr [hint 9]], (Slice 1 0 1 1), (Slice 0 0 2 3), (Slice 0 0 3 3).
  repeat (split; [eexists; vm_compute; repeat split; repeat constructor|]). vm_compute. discriminate.
Qed.
Print Assumptions C02_prepend_slice_refuted.

Example C02_example :
  let h := [OArr [hint 1; hint 2; HNil; HNil]; OArr [hint 7]] in
  let '(h1, a) := h_append double h (Slice 0 0 2 4) (Slice 1 0 1 1) in
  let '(h2, b) := h_append double h1 (Slice 1 0 1 1) (Slice 0 0 2 4) in
  contents h1 a = [hint 1; hint 2; hint 7] /\ contents h2 b = [hint 7; hint 1; hint 2] /\
  s_arr a = 0 /\ s_arr b = 2 /\ contents h2 a = contents h1 a.
Proof. vm_compute. repeat split. Qed.

(** ** C06 Remove and the slice of indexes *)

(** Besides returning the elements at the positions not designated and leaving the list alone, Remove
    rewrites the negative entries of the index slice of the caller. *)
Theorem C06_remove_in_place : forall grow h l ix, valid_slice h l -> valid_slice h ix -> s_arr ix <> s_arr l ->
  let '(h', r) := h_remove grow h l ix in
  valid_slice h' r /\
  selected (fun k _ => ~ exists v, In v (contents h ix) /\ designates (s_len l) (int_of v) k) 0
           (contents h l) (contents h' r) /\
  contents h' l = contents h l /\
  (forall t, valid_slice h t -> s_arr t <> s_arr ix -> contents h' t = contents h t) /\
  contents h' ix = map (fun v => if (int_of v <? 0)%Z then hint (int_of v + Z.of_nat (s_len l)) else hint (int_of v))
                       (contents h ix).
Proof. exact remove_exact. Qed.
Print Assumptions C06_remove_in_place.

Theorem C06_indexes_kept_refuted : exists grow h l ix,
  valid_slice h l /\ valid_slice h ix /\ s_arr ix <> s_arr l /\
  contents (fst (h_remove grow h l ix)) ix <> contents h ix.
Proof.
  exists double, [OArr [hint 1; hint 2; hint 3]; OArr [hint (-1)]], (Slice 0 0 3 3), (Slice 1 0 1 1).
  repeat (split; [eexists; vm_compute; repeat split; repeat constructor|]).
  split; vm_compute; discriminate.
Qed.
Print Assumptions C06_indexes_kept_refuted.

Example C06_in_place_example :
  let h := [OArr [hint 10; hint 20; hint 30; hint 40]; OArr [hint (-1); hint 0; hint 9]] in
  let '(h', r) := h_remove double h (Slice 0 0 4 4) (Slice 1 0 3 3) in
  contents h' r = [hint 20; hint 30] /\ contents h' (Slice 1 0 3 3) = [hint 3; hint 0; hint 9].
Proof. vm_compute. split; reflexivity. Qed.

(** ** C14 Merge and its sources *)

(** Target without internal sharing and disjoint from the source: the result is the recursive merge,
    the source is as before, and only maps of the target are written. *)
Theorem C14_merge_one_source : forall fuel h p q i j tm sm L F,
  reads h (HDict i p) (VDict i tm) L -> reads h (HDict j q) (VDict j sm) F -> NoDup (L ++ F) ->
  ddepth (VDict i tm) <= fuel ->
  exists h' r L', h_deep_merge fuel h p q = Some h' /\
    reads h' (HDict i p) (VDict i r) L' /\ merges (VDict i tm) (VDict j sm) (VDict i r) /\
    reads h' (HDict j q) (VDict j sm) F /\
    (forall x, ~ In x L -> hget h' x = hget h x).
Proof. exact merge_one_source. Qed.
Print Assumptions C14_merge_one_source.

(** Any number of sources: the content is the merge from left to right, and nothing outside the target
    and the sources before the last one is written. *)
Theorem C14_merge_many_sources : forall fuel h p i qs sms Fs tm L,
  reads h (HDict i p) (VDict i tm) L -> reads_sources h qs sms Fs -> NoDup (L ++ concat Fs) ->
  ddepth (VDict i tm) <= fuel -> Forall (fun sm => ddepth (VDict i sm) <= fuel) sms ->
  exists h' r L', h_merge fuel h p qs = Some h' /\
    reads h' (HDict i p) (VDict i r) L' /\ NoDup L' /\
    (forall k, merged_values (mget tm k :: map (fun sm => mget sm k) sms) (mget r k)) /\
    (forall x, ~ In x (L ++ concat (removelast Fs)) -> hget h' x = hget h x).
Proof. exact merge_sources_heap. Qed.
Print Assumptions C14_merge_many_sources.

Definition heap14 : heap :=
  [OMap []; OMap [($"d", HDict Base 2)]; OMap [($"x", hint 1)];
   OMap [($"d", HDict Base 4)]; OMap [($"y", hint 2)]].

(** With two sources the first one is modified. *)
Theorem C14_first_source_kept_refuted : exists fuel h p q1 q2 h',
  h_merge fuel h p [q1; q2] = Some h' /\
  (exists L, reads h (HDict Base q1) (d_ [("d", d_ [("x", n_ 1)])])%string L) /\
  (exists L, reads h' (HDict Base q1) (d_ [("d", d_ [("x", n_ 1); ("y", n_ 2)])])%string L).
Proof.
  exists 5, heap14, 0, 1, 3. eexists. split; [vm_compute; reflexivity|].
  split; eexists; vm_compute;
    repeat first [econstructor | apply in_nil | (intros [H|H]; [discriminate H|exact H]) | (intros H; exact H)].
Qed.
Print Assumptions C14_first_source_kept_refuted.

(** A target in which the same dictionary appears twice: even one source can be modified. *)
Definition heap14b : heap :=
  [OMap [($"a", HDict Base 1); ($"b", HDict Base 1)]; OMap [];
   OMap [($"a", HDict Base 3); ($"b", HDict Base 5)];
   OMap [($"z", HDict Base 4)]; OMap []; OMap [($"z", HDict Base 6)]; OMap [($"w", hint 1)]].

Theorem C14_shared_target_refuted : exists fuel h p q h',
  h_merge fuel h p [q] = Some h' /\
  (exists L, reads h (HDict Base q) (d_ [("a", d_ [("z", d_ [])]); ("b", d_ [("z", d_ [("w", n_ 1)])])])%string L) /\
  (exists L, reads h' (HDict Base q)
               (d_ [("a", d_ [("z", d_ [("w", n_ 1)])]); ("b", d_ [("z", d_ [("w", n_ 1)])])])%string L).
Proof.
  exists 5, heap14b, 0, 2. eexists. split; [vm_compute; reflexivity|].
  split; eexists; vm_compute;
    repeat first [econstructor | (intros [H|H]; [discriminate H|exact H]) | (intros H; exact H)].
Qed.
Print Assumptions C14_shared_target_refuted.

Example C14_example :
  exists h', h_merge 5 heap14 0 [1; 3] = Some h' /\ map_at h' 0 = [($"d", HDict Base 2)] /\
             map_at h' 2 = [($"x", hint 1); ($"y", hint 2)] /\ map_at h' 4 = [($"y", hint 2)].
Proof. eexists. vm_compute. repeat split. Qed.

(** ** C15 Clone *)

(** Cloning writes nothing old; everything the clone owns is new; and the original reads the same
    in every heap that differs from the result in new locations only. *)
Theorem C15_clone_isolated : forall (E : Env) grow fuel h p i j m L,
  reads h (HDict j p) (VDict j m) L -> ddepth (VDict j m) <= fuel ->
  exists h' c w L', h_clone grow fuel i h p = Some (h', c) /\
    reads h' (HDict i c) (VDict i w) L' /\
    (forall x, x < length h -> hget h' x = hget h x) /\
    (forall x, owned h' c x -> length h <= x) /\
    (forall h'', (forall x, x < length h -> hget h'' x = hget h' x) -> reads h'' (HDict j p) (VDict j m) L).
Proof. intros E. exact clone_isolated. Qed.
Print Assumptions C15_clone_isolated.

(** The clone has the content of the original, in some iteration order, unless a list with a list as
    only element is among the values. *)
Theorem C15_clone_same : forall (E : Env) grow fuel h p i j m L,
  reads h (HDict j p) (VDict j m) L -> ddepth (VDict j m) <= fuel -> no_nested_singleton (VDict j m) ->
  exists h' c w w0 L', h_clone grow fuel i h p = Some (h', c) /\
    reads h' (HDict i c) w L' /\ veq w w0 /\ same_data (VDict j m) w0.
Proof. intros E. exact clone_same. Qed.
Print Assumptions C15_clone_same.

(** {"a": [[1, 2]]} is cloned to {"a": [1, 2]}. *)
Theorem C15_clone_same_refuted : exists (E : Env) m k,
  mget m k = Some (l_ [l_ [n_ 1; n_ 2]]) /\ mget (dict_clone Base m []) k = Some (l_ [n_ 1; n_ 2]).
Proof. exists env0, [($"a", l_ [l_ [n_ 1; n_ 2]])], ($"a"). vm_compute. split; reflexivity. Qed.
Print Assumptions C15_clone_same_refuted.

Definition heap15 : heap :=
  [OMap [($"l", HList Base (Slice 1 0 1 1)); ($"d", HDict Base 3)]; OArr [HDict Base 2]; OMap [($"x", hint 1)];
   OMap [($"y", hint 5)]].

(** A dictionary inside a list is shared: setting a key through the clone changes the original. *)
Theorem C15_dict_in_list_refuted : exists grow fuel h p h' c i s j q k v,
  h_clone grow fuel Base h p = Some (h', c) /\ mget (map_at h' c) k = Some (HList i s) /\
  nth_error (contents h' s) 0 = Some (HDict j q) /\
  (exists L, reads h (HDict Base p) (d_ [("l", l_ [d_ [("x", n_ 1)]]); ("d", d_ [("y", n_ 5)])])%string L) /\
  (exists L, reads (h_dict_set h' q ($"x") v) (HDict Base p)
               (d_ [("l", l_ [d_ [("x", n_ 2)]]); ("d", d_ [("y", n_ 5)])])%string L).
Proof.
  exists double, 5, heap15, 0. do 6 eexists. exists ($"l"), (hint 2).
  split; [vm_compute; reflexivity|]. split; [vm_compute; reflexivity|]. split; [vm_compute; reflexivity|].
  split; eexists; vm_compute;
    repeat first [ (eexists; split; [vm_compute; reflexivity|split; vm_compute; repeat constructor])
                 | econstructor | (intros [H|H]; [discriminate H|exact H]) | (intros H; exact H)].
Qed.
Print Assumptions C15_dict_in_list_refuted.

(** The dictionary under "d" is copied, the one inside the list "l" is not. *)
Example C15_example :
  exists h', h_clone double 5 Base heap15 0 = Some (h', 4) /\
    map_at h' 4 = [($"d", HDict Base 5); ($"l", HList Base (Slice 6 0 1 1))] /\
    map_at h' 5 = [($"y", hint 5)] /\ contents h' (Slice 6 0 1 1) = [HDict Base 2].
Proof. eexists. vm_compute. repeat split. Qed.
