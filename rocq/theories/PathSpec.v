(** Where a path leads, in a tree without links: vocabulary for C64. *)
From Coq Require Import String Ascii List ZArith NArith Bool.
From Verif Require Import GoStr.
Import ListNotations.

(** A place is the list of the names from the place up to the root. *)
Definition place := list str.
Definition step (w : place) (e : str) : place :=
  if list_eq_dec ascii_dec e [] then w
  else if list_eq_dec ascii_dec e $"." then w
  else if list_eq_dec ascii_dec e $".." then tl w
  else e :: w.
(** The elements of a path, followed one after the other. *)
Definition walk (w : place) (p : str) : place := fold_left step (split $"/" p) w.
(** Absolute paths start at the root, the others at the current place. *)
Definition absolute (p : str) : Prop := exists r, p = $"/" ++ r.
Definition leads (here : place) (p : str) (w : place) : Prop :=
  (absolute p /\ w = walk [] p) \/ (~ absolute p /\ w = walk here p).

(** The place w is folder b or is below it. *)
Definition below (b w : place) : Prop := exists d, w = d ++ b.
