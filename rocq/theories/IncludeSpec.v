(** Vocabulary for C48: what a template run from a template sees. *)
From Coq Require Import String Ascii List ZArith NArith Bool.
From Verif Require Import GoStr ValueModel ListModel DictModel HeapModel IncludeModel.
Import ListNotations.

(** The dictionaries reached from a value. *)
Inductive leads_to (h : heap) : hval -> loc -> Prop :=
| lt_here i p : leads_to h (HDict i p) p
| lt_dict i p k v q : In (k, v) (map_at h p) -> leads_to h v q -> leads_to h (HDict i p) q
| lt_list i s v q : In v (contents h s) -> leads_to h v q -> leads_to h (HList i s) q.
(** A dictionary that contains itself. *)
Definition cyclic (h : heap) (v : hval) : Prop :=
  exists p k w, leads_to h v p /\ In (k, w) (map_at h p) /\ leads_to h w p.

Definition is_dict (v : hval) : bool := match v with HDict _ _ => true | _ => false end.

(** What the new context gives for the name k: the parent, a constant or nothing. *)
Inductive given (constants : list str) (h : heap) (parent : hval) (k : str) : option hval -> Prop :=
| given_parent : k = $"_" -> given constants h parent k (Some parent)
| given_constant v : k <> $"_" -> In k constants ->
    (forall i p, parent = HDict i p -> (forall w, mget (map_at h p) k = Some w -> v = w) /\ (mget (map_at h p) k = None -> v = HNil)) ->
    (is_dict parent = false -> v = HNil) -> given constants h parent k (Some v)
| given_nothing : k <> $"_" -> ~ In k constants -> given constants h parent k None.

(** Both heaps agree on the old locations but [p]. *)
Definition only (p : loc) (h h' : heap) : Prop := forall x, x < List.length h -> x <> p -> hget h' x = hget h x.
Definition keeps (h h' : heap) : Prop := forall x, x < List.length h -> hget h' x = hget h x.
(** Entries may be added to the dictionaries; those that were there are still there. *)
Definition grows (h h' : heap) : Prop :=
  List.length h <= List.length h' /\ forall x k v, mget (map_at h x) k = Some v -> mget (map_at h' x) k = Some v.
