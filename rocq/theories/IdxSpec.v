(** Indexes and slices in razor expressions, as they are written and as they are completed. *)
From Coq Require Import String Ascii List ZArith NArith Bool PeanoNat.
From Verif Require Import GoStr.
Import ListNotations.
Local Open Scope char_scope.

(** A text without brackets and colons. *)
Definition flat (s : str) : Prop := forall c, In c ["["; "]"; ":"] -> ~ In c s.
(** What is between brackets: an index, or the start and the end of a slice. *)
Inductive inside := Index (i : str) | Slice (start stop : str).
Definition inside_text (x : inside) : str := match x with Index i => i | Slice a b => a ++ ":" :: b end.
Definition inside_ok (x : inside) : Prop := match x with Index i => flat i | Slice a b => flat a /\ flat b end.
(** Texts, each one followed by brackets, then a last one. *)
Fixpoint bracketed (l : list (str * inside)) (last : str) : str :=
  match l with
  | [] => last
  | (t, x) :: l => t ++ "[" :: inside_text x ++ "]" :: bracketed l last
  end.
(** A minus sign and digits. *)
Definition negative_number (s : str) : Prop :=
  exists d, d <> [] /\ (forall c, In c d -> (48 <= N_of_ascii c <= 57)%N) /\ s = "-" :: d.
Definition from_start (a a' : str) : Prop := (a = [] /\ a' = $"0") \/ (a <> [] /\ a' = a).
(** No index means everything; a missing start is the first element, a missing end is the last one; after a
    negative number it is 0, which stands for the place after the last element. *)
Inductive completed : inside -> inside -> Prop :=
| Everything : completed (Index []) (Slice $"0" $"-1")
| One : forall i, i <> [] -> completed (Index i) (Index i)
| Both : forall a a' b, b <> [] -> from_start a a' -> completed (Slice a b) (Slice a' b)
| ToLast : forall a a', ~ negative_number a -> from_start a a' -> completed (Slice a []) (Slice a' $"-1")
| Tail : forall a, negative_number a -> completed (Slice a []) (Slice a $"0").
