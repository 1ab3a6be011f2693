(** Vocabulary of the properties of slice, extract and key ranges. *)
From Coq Require Import String Ascii List ZArith NArith Bool.
From Verif Require Import GoStr ValueModel CollSpec Utf8.
Import ListNotations.
Local Open Scope Z_scope.

(** A position of a section of a sequence of n elements; negative ones count from one after the end,
    so that -1 is the end itself. *)
Definition bound (n x : Z) : Z := if x <? 0 then n + x + 1 else x.

(** r is made of the elements of l at the positions lo, lo+1, ..., hi-1 that exist. *)
Definition between {A} (lo hi : Z) (l r : list A) : Prop :=
  selected (fun k _ => lo <= Z.of_nat k < hi) 0 l r.

(** Positions small enough to be exact as floats. *)
Definition position_ok (x : Z) : Prop := - 2 ^ 52 <= x <= 2 ^ 52.

(** v is the element at the signed position k: -1 is the last one. *)
Definition element {A} (l : list A) (k : Z) (v : A) : Prop :=
  exists p, designates (List.length l) k p /\ nth_error l p = Some v.

(** One well formed UTF-8 character. *)
Definition character (p : str) : Prop :=
  fst (decode p) <> rune_error /\ snd (decode p) = List.length p /\ p <> [].

(** The content of a list value of any kind and the implementation of the lists made from it. *)
Definition list_content (d : impl) (v : value) (i : impl) (l : list value) : Prop :=
  v = VList i l \/ exists t, v = VSlice t l /\ i = d.

(** k1 <= k <= k2 in byte order. *)
Definition key_between (k1 k2 k : str) : Prop := str_leb k1 k = true /\ str_leb k k2 = true.
