(** What it means to leave the razor names of a list alone. *)
From Coq Require Import String Ascii List ZArith NArith Bool.
From Verif Require Import GoStr RegexSpec.
Import ListNotations.
Local Open Scope char_scope.

(** A name: ASCII letters, digits and underscores *)
Definition is_name (w : str) : Prop := w <> [] /\ Forall (fun c => word_char c = true) w.
(** The longest run of them at the beginning of a text *)
Fixpoint name_of (s : str) : str :=
  match s with
  | c :: s => if word_char c then c :: name_of s else []
  | [] => []
  end.
(** The delimiter d is hidden where the text after it is one to leave alone; everything else is as it was. *)
Fixpoint hide (d : ascii) (mark : str) (left_alone : str -> bool) (s : str) : str :=
  match s with
  | [] => []
  | c :: r => (if Ascii.eqb c d && left_alone r then mark else [c]) ++ hide d mark left_alone r
  end.
(** The text begins with w *)
Fixpoint begins (w s : str) : bool :=
  match w, s with
  | [], _ => true
  | c :: w, x :: s => Ascii.eqb c x && begins w s
  | _, [] => false
  end.
Definition named (l : list str) (s : str) : bool := existsb (str_eqb (name_of s)) l.
(** A delimiter of one character, that means nothing in a regular expression *)
Definition plain_delim (d : ascii) : Prop := low_char d /\ ~ In d special /\ word_char d = false.
(** The name after a delimiter does not end with another one. *)
Definition apart (d : ascii) (s : str) : Prop :=
  forall u x t, s = u ++ d :: x ++ d :: t -> ~ Forall (fun c => word_char c = true) x.

(** A value of the environment: names and separators *)
Inductive separator := Comma | Blank | Newline | Return.
Definition separator_text (x : separator) : str :=
  match x with Comma => $"," | Blank => $" " | Newline => ["010"] | Return => ["013"; "010"] end.
Definition value_text (l : list (str * list separator)) : str :=
  flat_map (fun x => fst x ++ flat_map separator_text (snd x)) l.
(** What a name of the list may be made of: everything but separators *)
Definition entry_char (c : ascii) : Prop := ~ In c [","; " "; "010"; "013"].
Fixpoint separated (l : list (str * list separator)) : Prop :=
  match l with
  | [] | [_] => True
  | x :: l => snd x <> [] /\ separated l
  end.
