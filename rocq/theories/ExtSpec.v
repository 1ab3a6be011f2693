(** Vocabulary for the templates defined in files. *)
From Coq Require Import String Ascii List ZArith NArith Bool Permutation.
From Verif Require Import GoStr ValueModel SearchModel ExtModel.
Import ListNotations.

Definition eq_str (a b : str) : {a = b} + {a <> b} := list_eq_dec ascii_dec a b.

Section Ext.
Context {T : Type}.
Variable empty : T -> bool.

(** The definitions of template x in the files of a folder, in order. *)
Definition defs_in (d x : str) (files : list (@processed T)) : list T :=
  flat_map (fun f => if eq_str (path_dir (f_path f)) d then map snd (filter (fun nt => if eq_str (fst nt) x then true else false) (f_trees f)) else []) files.
(** The last definition that is not empty counts; the first one when all are empty. *)
Inductive chosen : list T -> T -> Prop :=
| c_last a b c : empty b = false -> Forall (fun e => empty e = true) c -> chosen (a ++ b :: c) b
| c_empty b c : empty b = true -> Forall (fun e => empty e = true) c -> chosen (b :: c) b.

(** The orders in which the maps may be visited. *)
Definition orders (children : @contexts T) (visits : list (@table T)) : Prop :=
  exists l, Permutation (map snd children) l /\ Forall2 (@Permutation _) l visits.
(** The definition of x that comes with a table. *)
Definition brings (m : @table T) (x : str) : list T :=
  match mget m x with
  | Some t => if eq_str x (t_parse t) then [] else [t_body t]
  | None => []
  end.
End Ext.
