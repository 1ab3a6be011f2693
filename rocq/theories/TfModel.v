(** Formatting of terraform files. *)
From Coq Require Import String Ascii List ZArith NArith Bool PeanoNat.
From Verif Require Import GoStr ValueModel MathModel PathModel CliModel SearchModel FilesModel.
Import ListNotations.

(** What cmd.CombinedOutput and cmd.Run give: the error, if any, and the output. *)
Record outcome := { o_error : option str; o_output : str }.
(** The comparison of the keys of a map *)
Definition text_dec : forall a b : str, {a = b} + {a <> b} := list_eq_dec ascii_dec.
Section Format.
(** terraform fmt in a folder; the flag tells the second time. *)
Variable run : str -> bool -> outcome.
(** Error of errors.Array (multilogger/errors): the text of several errors *)
Variable array_text : list str -> str.

(** The keys of tfFolders: utils/terraform.go:28-33 *)
Definition tf_folders (files : list str) : list str := nodup text_dec (map path_dir (filter is_terraform files)).
(** The loop: utils/terraform.go:35-49.  The folders where the command is run, and the texts of the errors.
    errors.Must panics with the error of the second run. *)
Fixpoint format_folders (order : list str) (errs : list str) : list str * res (list str) :=
  match order with
  | [] => ([], Ok errs)
  | f :: r =>
      match o_error (run f false) with
      | Some _ =>
          let '(l, x) := format_folders r (errs ++ [array_text errs ++ $": " ++ trim_space (o_output (run f false))]) in (f :: l, x)
      | None =>
          match o_error (run f true) with
          | Some e => ([f; f], Panic e)
          | None => let '(l, x) := format_folders r errs in (f :: f :: l, x)
          end
      end
  end.
(** TerraformFormat: utils/terraform.go:23-50.  [found] is exec.LookPath; [iter] gives the order in which the map is
    iterated.  The list of errors is given; AsError is nil when it is empty. *)
Definition terraform_format (found : bool) (iter : list str -> list str) (files : list str) : list str * res (list str) :=
  if found then format_folders (iter (tf_folders files)) [] else ([], Ok []).
End Format.
