(** Vocabulary for C55: the folders of a tree and the matches in a folder. *)
From Coq Require Import String Ascii List ZArith NArith Bool Sorting.Sorted.
From Verif Require Import GoStr PathModel PathSpec SearchModel.
Import ListNotations.

(** What is at a place (a place is the list of the names up to the root). *)
Inductive at_place (root : node) : place -> node -> Prop :=
| At_root : at_place root [] root
| At_entry w es name n : at_place root w (Dir es) -> In (name, n) es -> at_place root (name :: w) n.

(** The path of a place. *)
Definition path_of (w : place) : str := match w with [] => $"/" | _ => concat (map (fun e => $"/" ++ e) (rev w)) end.

(** The names of each directory are strictly sorted and are possible names. *)
Definition possible (e : str) : Prop := e <> [] /\ e <> $"." /\ e <> $".." /\ ~ In SLASH e.
Definition str_lt (a b : str) : Prop := str_leb a b = true /\ a <> b.
Definition sound_fs (root : node) : Prop :=
  forall w es, at_place root w (Dir es) -> Forall possible (map fst es) /\ StronglySorted str_lt (map fst es).

(** The order of a walk: a folder before what it contains, otherwise by the first name that differs. *)
Inductive walk_before : place -> place -> Prop :=
| Walk_inside w d : d <> [] -> walk_before w (d ++ w)
| Walk_beside w a b x y : str_lt a b -> walk_before (x ++ a :: w) (y ++ b :: w).

(** The matches of all patterns in the folder of path f. *)
Definition matches (glob : str -> option (list str)) (patterns : list str) (f : str) (r : list str) : Prop :=
  exists ls, Forall2 (fun p l => glob (join2 f p) = Some l) patterns ls /\ r = concat ls.

(** The folders at most max levels below the folder at place w. *)
Definition sub_folder (root : node) (w : place) (max : Z) (d : place) : Prop :=
  exists x es, d = x ++ w /\ x <> [] /\ (Z.of_nat (length x) <= max)%Z /\ at_place root d (Dir es).
(** ds are those folders in walk order. *)
Definition sub_folders (root : node) (w : place) (max : Z) (ds : list place) : Prop :=
  StronglySorted walk_before ds /\ forall d, In d ds <-> sub_folder root w max d.

(** The folders that can be reached from the place w through directories and links. *)
Inductive reach (root : node) (w : place) : place -> Prop :=
| Reach_start : reach root w w
| Reach_dir d name es : reach root w d -> at_place root (name :: d) (Dir es) -> reach root w (name :: d)
| Reach_link d name text t : reach root w d -> at_place root (name :: d) (Link text) -> leads d text t -> reach root w t.

(** There is no link below the place w. *)
Definition no_links (root : node) (w : place) : Prop := forall x t, ~ at_place root (x ++ w) (Link t).
