(** What the list of templates should show. *)
From Coq Require Import String Ascii List ZArith NArith Bool PeanoNat.
From Verif Require Import GoStr Utf8 ValueModel PathModel.
Import ListNotations.

(** The name shown for the template of name n found in p: none when it is the file itself, which is listed
    only on demand. *)
Inductive shown_name (all : bool) (n p : str) : str -> Prop :=
| Defined : n <> p -> shown_name all n p n
| File : n = p -> all = true -> shown_name all n p [].
(** The template is listed, with this name and this place relative to the folder; the folder itself is not. *)
Definition listed (all : bool) (folder n p name f : str) : Prop :=
  shown_name all n p name /\ relative folder p = Ok f /\ f ++ name <> $".".
(** A name in a column of so many characters. *)
Definition column (width : nat) (name field : str) : Prop :=
  exists k, field = name ++ repeat SP k /\ rune_count field = width.
(** The width of the column: that of the longest name in bytes. *)
Definition widest (tpls : list (str * str)) (width : nat) : Prop :=
  (forall n p, In (n, p) tpls -> n <> p -> length n <= width) /\
  (width = 0 \/ exists n p, In (n, p) tpls /\ n <> p /\ length n = width).
(** The line of a template: its name in the column, then its place in a colour. *)
Definition line_of (faint : str -> str) (all : bool) (folder : str) (width : nat) (e : str * str) (line : str) : Prop :=
  exists name f field, listed all folder (fst e) (snd e) name f /\ column width name field /\ line = field ++ $" " ++ faint f.
