(** The folders to format, and the errors. *)
From Coq Require Import String Ascii List ZArith NArith Bool PeanoNat.
From Verif Require Import GoStr CliSpec SearchSpec TfModel.
Import ListNotations.

Definition tf_file (p : str) : Prop := exists stem ext, In ext [$".tf"; $".tf.json"; $".tfvars"] /\ p = stem ++ ext.
(** The absolute path of something in a folder *)
Definition file_in (w : list str) (p : str) : Prop := exists n, Forall possible (n :: w) /\ p = path_of (n :: w).
Definition has_terraform (files : list str) (d : str) : Prop :=
  exists w p, d = path_of w /\ file_in w p /\ In p files /\ tf_file p.
Definition fails (run : str -> bool -> outcome) (d : str) (again : bool) : Prop := o_error (run d again) <> None.
(** How often the command is run in a folder: as long as it succeeds, twice. *)
Definition times (run : str -> bool -> outcome) (files : list str) (d : str) (n : nat) : Prop :=
  (~ has_terraform files d /\ n = 0) \/ (has_terraform files d /\ fails run d false /\ n = 1) \/ (has_terraform files d /\ ~ fails run d false /\ n = 2).
(** The errors, one for each folder of the list: what was before it, and the output of the command. *)
Definition told (text : list str -> str) (run : str -> bool -> outcome) (failing errs : list str) : Prop :=
  length errs = length failing /\
  forall i d e, nth_error failing i = Some d -> nth_error errs i = Some e ->
    exists out, trimmed (o_output (run d false)) out /\ e = text (firstn i errs) ++ $": " ++ out.
