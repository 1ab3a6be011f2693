(** Vocabulary for the rendering of contents: C39, C40, C41. *)
From Coq Require Import String Ascii List ZArith NArith Bool Arith.
From Verif Require Import GoStr TemplateModel TemplateSpec ProcessModel.
Import ListNotations.

(** Line i is between a line with the first marker and the next one with the second. *)
Definition paused (on off : str) (lines : list str) (i : nat) : Prop :=
  exists j, j <= i /\ holds (nth j lines []) on /\ forall k, j <= k <= i -> ~ holds (nth k lines []) off.
Definition code_paused := paused $"gotemplate-pause!" $"gotemplate-resume!".
Definition razor_paused := paused $"razor-pause!" $"razor-resume!".

(** Delimiters without the letters of the internal words; the default ones are. *)
Definition ordinary (delim : str) : Prop := delim <> [] /\ forall c, In c delim -> ~ In c $"$&paused-left&$paused-right&$paused-razor&$".
Definition ordinary_delims (d : delims) : Prop := ordinary (left_delim d) /\ ordinary (right_delim d) /\ ordinary (razor_delim d).

(** The attempts at a code: what the engine gives at last, and the errors reported on the way. *)
Definition reported (e : option str) : list str := match e with Some x => [x] | None => [] end.
Inductive ends_with {G : Engine} (file : str) (lines : list str) : nat -> state -> str -> state -> option str -> list str -> Prop :=
| ends_ok : forall n st code st' out, run_engine st n file code = (st', Ok out) -> ends_with file lines n st code st' (Some out) []
| ends_stop : forall n st code st' e e', run_engine st n file code = (st', Err e) -> diagnose file lines code e = Stop e' -> ends_with file lines n st code st' None [e']
| ends_again : forall n st code st1 e code' e1 st' out errs, run_engine st n file code = (st1, Err e) -> diagnose file lines code e = Again code' e1 ->
    ends_with file lines (S n) st1 code' st' out errs -> ends_with file lines n st code st' out (reported e1 ++ errs).

(** Texts printed for values that do not exist. *)
Definition undefined_value (text : str) : Prop := holds text $"<no value>" \/ holds text $"<nil>".

(** Errors of the file are reported. *)
Definition strict (o : optset) (file source : str) : Prop :=
  oget o o_strict_error_check = true \/ holds source $"force-gotemplate!" \/ exists e, extension file e /\ e <> [] /\ holds $".gt,.gte,.template" e.
