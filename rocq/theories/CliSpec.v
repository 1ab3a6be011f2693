(** Vocabulary for the functions around the command line. *)
From Coq Require Import String Ascii List ZArith NArith Bool.
From Verif Require Import GoStr ValueModel Utf8.
Import ListNotations.

(** t is s without the white space around it. *)
Definition white (s : str) : Prop := Forall (fun c => is_space_rune (fst c) = true) (chunks s).
Definition tight (t : str) : Prop :=
  (forall c r, chunks t = c :: r -> is_space_rune (fst c) = false) /\ (forall c r, chunks t = r ++ [c] -> is_space_rune (fst c) = false).
Definition trimmed (s t : str) : Prop := exists a b, s = a ++ t ++ b /\ white a /\ white b /\ tight t.

(** The comma separated pieces of a text. *)
Definition pieces (v : str) (ps : list str) : Prop := ps <> [] /\ Forall (fun p => ~ In ","%char p) ps /\ v = join $"," ps.

(** The patterns given by a list of comma separated lists. *)
Definition wanted (patterns : list str) (q : str) : Prop :=
  exists v ps p, In v patterns /\ pieces v ps /\ In p ps /\ trimmed p q /\ q <> [].

(** The pattern q is tested on the file, with the result b. *)
Definition hit (abs : str -> res str) (pm : str -> str -> res bool) (file q : str) (b : bool) : Prop := exists p, abs q = Ok p /\ pm p file = Ok b.

(** r are the files among fs matched by none of the patterns. *)
Inductive kept (abs : str -> res str) (pm : str -> str -> res bool) (ps : list str) : list str -> list str -> Prop :=
| kept_nil : kept abs pm ps [] []
| kept_in f file fs r : abs f = Ok file -> (forall q, In q ps -> hit abs pm file q false) -> kept abs pm ps fs r -> kept abs pm ps (f :: fs) (f :: r)
| kept_out f file q fs r : abs f = Ok file -> In q ps -> hit abs pm file q true -> kept abs pm ps fs r -> kept abs pm ps (f :: fs) r.

(** A substitution: separator, expression, separator, replacement. *)
Definition ascii_char (c : ascii) : Prop := (N_of_ascii c < 128)%N.
Definition substitution (t : str) (c : ascii) (e r : str) : Prop :=
  t = [c] ++ e ++ [c] ++ r /\ e <> [] /\ ~ In c e /\ ~ In c r.

Definition wild (s : str) : Prop := exists c, In c s /\ In c $"*?[]".
