(** Specification vocabulary for data in a heap: what a reference reads as, and which locations that
    depends on. *)
From Coq Require Import String Ascii List ZArith NArith Bool PeanoNat.
From Verif Require Import GoStr ValueModel ListModel DictModel HeapModel.
Import ListNotations.

(** A slice inside the bounds of its backing array. *)
Definition valid_slice (h : heap) (s : slice) : Prop :=
  exists c, hget h (s_arr s) = Some (OArr c) /\ s_off s + s_cap s <= length c /\ s_len s <= s_cap s.

(** [reads h v w L]: in heap [h] the reference [v] denotes the (finite) value [w]; [L] lists the
    locations visited, once per visit. *)
Inductive reads (h : heap) : hval -> value -> list loc -> Prop :=
| reads_nil : reads h HNil VNil []
| reads_scal s : reads h (HScal s) (VScal s) []
| reads_list i s l L : valid_slice h s -> reads_all h (contents h s) l L ->
    reads h (HList i s) (VList i l) (s_arr s :: L)
| reads_dict i p m w L : hget h p = Some (OMap m) -> NoDup (mkeys m) -> reads_map h m w L ->
    reads h (HDict i p) (VDict i w) (p :: L)
with reads_all (h : heap) : list hval -> list value -> list loc -> Prop :=
| reads_all_nil : reads_all h [] [] []
| reads_all_cons v w L vs ws Ls : reads h v w L -> reads_all h vs ws Ls ->
    reads_all h (v :: vs) (w :: ws) (L ++ Ls)
with reads_map (h : heap) : list (str * hval) -> list (str * value) -> list loc -> Prop :=
| reads_map_nil : reads_map h [] [] []
| reads_map_cons k v w L m wm Ls : reads h v w L -> reads_map h m wm Ls ->
    reads_map h ((k, v) :: m) ((k, w) :: wm) (L ++ Ls).

(** Nesting depth through dictionaries. *)
Fixpoint ddepth (v : value) : nat :=
  match v with
  | VDict _ m => S (fold_right (fun kv n => Nat.max (ddepth (snd kv)) n) 0 m)
  | _ => 0
  end.

(** Locations a dictionary owns: its map, the arrays of its lists, and those of the dictionaries that
    are its values (but not of dictionaries inside lists). *)
Inductive owned (h : heap) : loc -> loc -> Prop :=
| owned_self p : owned h p p
| owned_list p m k i s : hget h p = Some (OMap m) -> mget m k = Some (HList i s) -> owned h p (s_arr s)
| owned_dict p m k i q x : hget h p = Some (OMap m) -> mget m k = Some (HDict i q) ->
    owned h q x -> owned h p x.

(** Slice [t] has no element among the [n] cells after the end of [s]. *)
Definition apart (s : slice) (n : nat) (t : slice) : Prop :=
  s_arr t = s_arr s ->
  forall j, j < s_len t -> ~ (s_off s + s_len s <= s_off t + j < s_off s + s_len s + n).

(** The sources of a merge, each with its content and its footprint. *)
Inductive reads_sources (h : heap) : list loc -> list (list (str * value)) -> list (list loc) -> Prop :=
| rs_nil : reads_sources h [] [] []
| rs_cons q j sm F qs sms Fs : reads h (HDict j q) (VDict j sm) F -> reads_sources h qs sms Fs ->
    reads_sources h (q :: qs) (sm :: sms) (F :: Fs).
