(** Lists and dictionaries with sharing: Go slices over backing arrays and maps by reference, for the
    functions whose effect on shared data matters: Append, Prepend, Set, Remove (list_helper.go), Merge,
    Clone, Set (dict_helper.go).

    Simplification: values are already converted (no native containers inside), so Convert is the
    identity and never copies; see ValueModel.v for conversion. *)
From Coq Require Import String Ascii List ZArith NArith Bool PeanoNat.
From Verif Require Import GoStr ValueModel ListModel DictModel.
Import ListNotations.

Definition loc := nat.

(** A Go slice header: backing array, offset in it, length and capacity. *)
Record slice := Slice { s_arr : loc; s_off : nat; s_len : nat; s_cap : nat }.

(** Interface values holding references. *)
Inductive hval :=
| HNil
| HScal (s : scalar)
| HList (i : impl) (s : slice)
| HDict (i : impl) (p : loc).

(** Heap objects: a backing array, or a map in iteration order. *)
Inductive obj :=
| OArr (cells : list hval)
| OMap (m : list (str * hval)).

(** Locations are positions; allocation appends. *)
Definition heap := list obj.
Definition hget (h : heap) (p : loc) : option obj := nth_error h p.
Definition hput (h : heap) (p : loc) (o : obj) : heap := upd h p o.
Definition halloc (h : heap) (o : obj) : heap * loc := (h ++ [o], List.length h).

Definition cells_at (h : heap) (p : loc) : list hval :=
  match hget h p with Some (OArr c) => c | _ => [] end.
Definition map_at (h : heap) (p : loc) : list (str * hval) :=
  match hget h p with Some (OMap m) => m | _ => [] end.

(** The elements of a slice. *)
Definition contents (h : heap) (s : slice) : list hval :=
  firstn (s_len s) (skipn (s_off s) (cells_at h (s_arr s))).

(** Overwrite the cells from position [k] on. *)
Definition splice {A} (c : list A) (k : nat) (vs : list A) : list A :=
  firstn k c ++ vs ++ skipn (k + List.length vs) c.

Section WithGrowth.
(** The growth policy of the Go run time: capacity chosen for a new backing array, given the old
    capacity and the length needed (at least that). *)
Variable grow : nat -> nat -> nat.

(** Go append(s, vs...): in place when the capacity allows, otherwise in a new array. *)
Definition go_append (h : heap) (s : slice) (vs : list hval) : heap * slice :=
  let n := s_len s + List.length vs in
  if n <=? s_cap s then
    (hput h (s_arr s) (OArr (splice (cells_at h (s_arr s)) (s_off s + s_len s) vs)),
     Slice (s_arr s) (s_off s) n (s_cap s))
  else
    let c := Nat.max n (grow (s_cap s) n) in
    let (h', p) := halloc h (OArr (contents h s ++ vs ++ repeat HNil (c - n))) in
    (h', Slice p 0 n c).

(** The variadic arguments of a call f(a, b, c): a fresh slice without spare capacity. *)
Definition new_args (h : heap) (vs : list hval) : heap * slice :=
  let (h', p) := halloc h (OArr vs) in (h', Slice p 0 (List.length vs) (List.length vs)).

(** CreateList(size, capacity): base_helper.go:68-83 *)
Definition create_list (h : heap) (size capacity : nat) : heap * slice :=
  let c := Nat.max size capacity in
  let (h', p) := halloc h (OArr (repeat HNil c)) in (h', Slice p 0 size c).

(** ListHelper.Add: list_helper.go:19-28.  [objs] is the slice of arguments, which with a call
    l.Append(xs...) is the slice of the caller. *)
Definition h_append (h : heap) (l objs : slice) : heap * slice := go_append h l (contents h objs).
Definition h_prepend (h : heap) (l objs : slice) : heap * slice := go_append h objs (contents h l).

(** Append of explicit arguments: l.Append(a, b, c). *)
Definition h_append_args (h : heap) (l : slice) (vs : list hval) : heap * slice :=
  let (h1, objs) := new_args h vs in h_append h1 l objs.
Definition h_prepend_args (h : heap) (l : slice) (vs : list hval) : heap * slice :=
  let (h1, objs) := new_args h vs in h_prepend h1 l objs.

(** SetIndex: list_helper.go:126-135, position inside or after the current length. *)
Fixpoint h_pad (fuel : nat) (h : heap) (l : slice) : heap * slice :=
  match fuel with
  | O => (h, l)
  | S f => let (h', l') := h_append_args h l [HNil] in h_pad f h' l'
  end.
Definition h_set (h : heap) (l : slice) (k : nat) (v : hval) : heap * slice :=
  let (h, l) := h_pad (k + 1 - s_len l) h l in
  (hput h (s_arr l) (OArr (splice (cells_at h (s_arr l)) (s_off l + k) [v])), l).

(** NewList: base_helper.go:22-39; a single list argument is unrolled. *)
Definition h_new_list (h : heap) (items : list hval) : heap * slice :=
  let items := match items with
               | [HList _ s] => contents h s
               | _ => items
               end in
  let (h, l) := create_list h 0 (List.length items) in
  fold_left (fun '(h, l) x => h_append_args h l [x]) items (h, l).

(** ListHelper.Clone: list_helper.go:31-33 *)
Definition h_clone_list (h : heap) (l : slice) : heap * slice := h_new_list h (contents h l).

(** Remove: list_helper.go:168-182.  The first loop (169-173) writes into the slice of indexes; the
    result is a new list built with CreateList and Append. *)
Definition hint (z : Z) : hval := HScal (SInt KInt z).
Definition int_of (v : hval) : Z := match v with HScal (SInt _ z) => z | _ => 0%Z end.
Definition normalize (len : nat) (z : Z) : Z := if (z <? 0)%Z then (z + Z.of_nat len)%Z else z.
Definition h_remove (h : heap) (l indexes : slice) : heap * slice :=
  let idx := map (fun v => normalize (s_len l) (int_of v)) (contents h indexes) in
  let h := hput h (s_arr indexes)
                (OArr (splice (cells_at h (s_arr indexes)) (s_off indexes) (map hint idx))) in
  let (h, target) := create_list h 0 (s_len l) in
  fold_left (fun '(h, target) k =>
               if existsb (fun z => (z =? Z.of_nat k)%Z) idx then (h, target)
               else h_append_args h target [nth k (contents h l) HNil])
            (seq 0 (s_len l)) (h, target).

(** Get with several indexes read back from the slice: generic.go:26, list_helper.go:69-89 *)
Definition h_get (h : heap) (l : slice) (z : Z) : hval :=
  let k := normalize (s_len l) z in
  if (k <? 0)%Z || (k >=? Z.of_nat (s_len l))%Z then HNil else nth (Z.to_nat k) (contents h l) HNil.

(** DictHelper.Set: dict_helper.go:181-187 *)
Definition h_dict_set (h : heap) (p : loc) (k : str) (v : hval) : heap :=
  hput h p (OMap (mset (map_at h p) k v)).

(** The body of the loop of deepMerge: dict_helper.go:143-157; source and target values are read at
    each step (143-144).  [rec] is the recursive call. *)
Definition merge_step (rec : heap -> loc -> loc -> option heap) (p q : loc) (oh : option heap) (k : str) : option heap :=
  match oh with
  | None => None
  | Some h =>
      match mget (map_at h q) k with
      | None => Some h
      | Some sv =>
          match mget (map_at h p) k with
          | None => Some (h_dict_set h p k sv)
          | Some tv =>
              match tv, sv with
              | HDict i p', HDict _ q' =>
                  match rec h p' q' with
                  | Some h' => Some (h_dict_set h' p k (HDict i p'))
                  | None => None
                  end
              | _, _ => Some h
              end
          end
      end
  end.

(** deepMerge: dict_helper.go:139-160.  The keys of the source are those present when the loop starts
    (line 142).  None: recursion deeper than [fuel], which for Go is a stack overflow on cyclic data. *)
Fixpoint h_deep_merge (fuel : nat) (h : heap) (p q : loc) : option heap :=
  match fuel with
  | O => None
  | S f => fold_left (merge_step (h_deep_merge f) p q) (mkeys (map_at h q)) (Some h)
  end.

(** Merge: dict_helper.go:129-137 *)
Fixpoint h_merge (fuel : nat) (h : heap) (p : loc) (sources : list loc) : option heap :=
  match sources with
  | [] => Some h
  | q :: r => match h_deep_merge fuel h p q with
              | Some h' => h_merge fuel h' p r
              | None => None
              end
  end.

(** The body of the loop of Clone: dict_helper.go:37-47; [i] is the implementation of the helper,
    [new] the dictionary under construction, [rec] the recursive call. *)
Definition clone_step (rec : heap -> loc -> option (heap * loc)) (i : impl) (p new : loc)
    (oh : option heap) (k : str) : option heap :=
  match oh with
  | None => None
  | Some h =>
      match mget (map_at h p) k with
      | Some (HDict _ q) =>
          match rec h q with
          | Some (h', c) => Some (h_dict_set h' new k (HDict i c))
          | None => None
          end
      | Some (HList _ s) =>
          let (h', s') := h_clone_list h s in Some (h_dict_set h' new k (HList i s'))
      | Some v => Some (h_dict_set h new k v)
      | None => Some (h_dict_set h new k HNil)
      end
  end.

(** DictHelper.Clone without keys: dict_helper.go:32-49. *)
Fixpoint h_clone (fuel : nat) (i : impl) (h : heap) (p : loc) : option (heap * loc) :=
  match fuel with
  | O => None
  | S f =>
      let (h1, new) := halloc h (OMap []) in
      match fold_left (clone_step (h_clone f i) i p new) (sort_strings (mkeys (map_at h1 p))) (Some h1) with
      | Some h2 => Some (h2, new)
      | None => None
      end
  end.

End WithGrowth.
