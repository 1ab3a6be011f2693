(** Vocabulary for files: places (PathSpec.v), what may be done there, what an object is saved as. *)
From Coq Require Import String Ascii List ZArith NArith Bool.
From Verif Require Import GoStr ValueModel PathSpec FsModel.
Import ListNotations.

(** The permission bits, as ls writes them: rwxrwxrwx from 256 down to 1. *)
Definition has_bit (n : N) (e : entry) : Prop := N.testbit (n_mode e) n = true.
(** The user may read (bit 2), write (1), or search and execute (0). *)
Definition may (user : N) (n : N) (e : entry) : Prop :=
  user = 0%N \/ (n_owner e = user /\ has_bit (n + 6) e) \/ (n_owner e <> user /\ has_bit n e).

(** All the folders above a place are there and can be searched. *)
Fixpoint reachable (user : N) (f : fs) (w : place) : Prop :=
  match w with
  | [] => True
  | _ :: above => reachable user f above /\ exists d, f above = Some d /\ n_dir d = true /\ may user 0 d
  end.
(** The entry at a place. *)
Definition there (user : N) (f : fs) (w : place) (e : entry) : Prop := reachable user f w /\ f w = Some e.
(** A folder where files can be made. *)
Definition open_folder (user : N) (f : fs) (w : place) : Prop :=
  exists d, there user f w d /\ n_dir d = true /\ may user 1 d /\ may user 0 d.

(** A name whose last element is e. *)
Definition ends_with (name e : str) : Prop :=
  e <> [] /\ e <> $"." /\ e <> $".." /\ ~ In "/"%char e /\ (name = e \/ exists a, name = a ++ $"/" ++ e).

(** The bytes of a list of bytes. *)
Definition byte_of (v : value) (c : ascii) : Prop := v = VScal (SInt KUint8 (Z.of_N (N_of_ascii c))).
Inductive items : value -> list value -> Prop :=
| i_slice t l : items (VSlice t l) l
| i_list i l : items (VList i l) l.
Inductive saved_as {V : Env} : value -> str -> Prop :=
| sa_bytes v l s : items v l -> Forall2 byte_of l s -> saved_as v s
| sa_text v : v <> VNil -> (forall l, items v l -> exists x, In x l /\ forall z, x <> VScal (SInt KUint8 z)) -> saved_as v (sprint v).

(** Both file systems have the same entries elsewhere. *)
Definition same_but (P : place -> Prop) (f f' : fs) : Prop := forall w, ~ P w -> f' w = f w.
