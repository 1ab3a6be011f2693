(** Vocabulary for multi-line raw strings. *)
From Coq Require Import String Ascii List ZArith NArith Bool.
From Verif Require Import GoStr RazorWordsSpec.
Import ListNotations.

(** A text with holes: characters, and numbers of the strings put aside. *)
Inductive cell : Type := Chr (c : ascii) | Hol (i : nat).
(** The placeholders of the holes, when n strings were put aside by earlier documents. *)
Definition mark (k : nat) : str := $"`_=LONG_STRING=" ++ itoa (Z.of_nat k) ++ $"`".
Definition shown (n : nat) (m : list cell) : str := concat (map (fun x => match x with Chr c => [c] | Hol i => mark (n + i) end) m).
(** The holes filled. *)
Definition filled (strings : list str) (m : list cell) : str :=
  concat (map (fun x => match x with Chr c => [c] | Hol i => nth i strings [] end) m).
Definition holes (m : list cell) : list nat := concat (map (fun x => match x with Chr _ => [] | Hol i => [i] end) m).
(** Nothing in the characters starts like a placeholder. *)
Definition clean (m : list cell) : Prop := forall a b, m <> a ++ map Chr $"`_=LONG_STRING=" ++ b.

(** A raw string of several lines. *)
Definition multi_line (l : str) : Prop := exists u, l = $"`" ++ u ++ $"`" /\ ~ In "`"%char u /\ In "010"%char u.
(** The text has a raw string of several lines: an even number of backticks before it. *)
Definition ticks (s : str) : nat := count_occ Ascii.ascii_dec s "`"%char.
Definition has_multi_line (s : str) : Prop := exists a l b, s = a ++ l ++ b /\ multi_line l /\ Nat.Even (ticks a).
