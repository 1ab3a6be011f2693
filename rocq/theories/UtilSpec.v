(** What is expected of find, of the assertions and of the kinds of placeholder text. *)
From Coq Require Import String Ascii List ZArith NArith Bool PeanoNat.
From Verif Require Import GoStr ValueModel AliasSpec UtilModel.
Import ListNotations.

(** The names of a kind: a number, or a word in capital and small letters. *)
Definition kind_words (k : lorem_kind) : str * list str :=
  match k with
  | Word => ($"1", [$"word"])
  | Sentence => ($"2", [$"words"; $"sentence"])
  | Paragraph => ($"3", [$"para"; $"paragraph"; $"sentences"])
  | Host => ($"4", [$"host"])
  | EMail => ($"5", [$"email"])
  | URL => ($"6", [$"url"])
  end.
Definition names_kind (name : str) (k : lorem_kind) : Prop :=
  name = fst (kind_words k) \/ (name = [] /\ k = Sentence) \/ exists w, In w (snd (kind_words k)) /\ written name w.

(** The text, of a value that is one. *)
Definition text_value (v : value) : option str := match v with VScal (SStr _ s) => Some s | _ => None end.
