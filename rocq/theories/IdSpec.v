(** What an identifier made of a text is. *)
From Coq Require Import String Ascii List ZArith NArith Bool.
From Verif Require Import GoStr Utf8.
Import ListNotations.
Local Open Scope char_scope.

(** The characters of identifiers: letters, digits and the underscore *)
Definition kept (beyond : N -> bool) (n : N) : bool :=
  (N.leb 48 n && N.leb n 57) || (N.leb 65 n && N.leb n 90) || N.eqb n 95 || (N.leb 97 n && N.leb n 122) || (N.leb 128 n && beyond n).
(** Every other character is replaced. *)
Definition substituted (beyond : N -> bool) (r s : str) : str := flat_map (fun c => if kept beyond (fst c) then snd c else r) (chunks s).
Fixpoint repeated (n : nat) (r : str) : str := match n with O => [] | S n => r ++ repeated n r end.
Definition starts (r s : str) : Prop := exists t, s = r ++ t.
(** Replacements that follow each other are joined, from left to right. *)
Inductive collapsed (r : str) : str -> str -> Prop :=
| co_end : collapsed r [] []
| co_run n t u : ~ starts r t -> collapsed r t u -> collapsed r (repeated (S n) r ++ t) (r ++ u)
| co_char s u : s <> [] -> ~ starts r s -> collapsed r (skipn (snd (decode s)) s) u -> collapsed r s (firstn (snd (decode s)) s ++ u).
(** Replacements without the signs that the code does not escape *)
Definition plain_replacement (r : str) : Prop := r <> [] /\ Forall (fun c => (N_of_ascii c < 128)%N /\ ~ In c ["*"; "|"; "^"; "$"]) r.
(** Go identifiers (specification of Go, Identifiers): a letter or underscore, then letters, digits and underscores *)
Definition go_identifier (beyond : N -> bool) (s : str) : Prop :=
  Forall (fun c => kept beyond (fst c) = true) (chunks s) /\ exists c l, chunks s = c :: l /\ ~ (48 <= fst c <= 57)%N.
