(** C109: formatting of terraform files. *)
From Coq Require Import String Ascii List ZArith NArith Bool PeanoNat Permutation.
From Verif Require Import GoStr ValueModel MathModel CliSpec SearchSpec TfModel TfSpec TfProofs.
Import ListNotations.

(** C109.  The command is run in the folders of the terraform files and in no other one: once where it fails, twice
    elsewhere, whatever the order and the number of files; there is one error for each folder where it fails, which
    tells the output of the command. *)
Theorem C109_folders : forall run text iter files, (forall l, Permutation l (iter l)) -> Forall (fun p => exists w, file_in w p) files ->
  (forall d, has_terraform files d -> ~ fails run d false -> ~ fails run d true) ->
  exists l failing errs, terraform_format run text true iter files = (l, Ok errs) /\
    (forall d, times run files d (count_occ text_dec l d)) /\
    NoDup failing /\ (forall d, In d failing <-> has_terraform files d /\ fails run d false) /\ told text run failing errs.
Proof. exact @format_ok. Qed.
Print Assumptions C109_folders.
(** A failure of the second run is a panic with the error of such a run. *)
Theorem C109_second : forall run text iter files d, (forall l, Permutation l (iter l)) -> Forall (fun p => exists w, file_in w p) files ->
  has_terraform files d -> ~ fails run d false -> fails run d true ->
  exists d' e, has_terraform files d' /\ ~ fails run d' false /\ o_error (run d' true) = Some e /\ snd (terraform_format run text true iter files) = Panic e.
Proof. exact @format_panic. Qed.
Print Assumptions C109_second.
(** Without the command nothing is run and there is no error. *)
Theorem C109_absent : forall run text iter files, terraform_format run text false iter files = ([], Ok []).
Proof. reflexivity. Qed.
Print Assumptions C109_absent.
(** The error of the command is lost: line 41 wraps the list of the errors instead of it. *)
Theorem C109_cause_refuted : ~ forall run run' text files d,
  has_terraform files d -> fails run d false -> fails run' d false -> o_error (run d false) <> o_error (run' d false) ->
  terraform_format run text true (fun l => l) files <> terraform_format run' text true (fun l => l) files.
Proof.
  intros H.
  apply (H (fun _ _ => {| o_error := Some $"exit status 2"; o_output := $"bad" |}) (fun _ _ => {| o_error := Some $"permission denied"; o_output := $"bad" |}) (join $"; ") [$"/a/x.tf"] $"/a").
  - exists [$"a"], $"/a/x.tf". split; [reflexivity|]. split; [|split; [left; reflexivity|]].
    + exists $"x.tf". split; [|reflexivity]. repeat constructor; try discriminate; vm_compute; intuition discriminate.
    + exists $"/a/x", $".tf". split; [left; reflexivity | reflexivity].
  - discriminate.
  - discriminate.
  - discriminate.
  - vm_compute. reflexivity.
Qed.
Print Assumptions C109_cause_refuted.

Example C109_example :
  terraform_format (fun d again => if str_eqb d $"/b" then {| o_error := Some $"exit status 2"; o_output := $" bad
" |} else if str_eqb d $"/c/d" then {| o_error := Some $"exit status 3"; o_output := $"worse" |} else {| o_error := None; o_output := [] |}) (join $"; ") true (@rev str)
    [$"/a/x.tf"; $"/b/y.tfvars"; $"/e/z.txt"; $"/a/t.tf.json"; $"/c/d/u.tf"]
  = ([$"/c/d"; $"/a"; $"/a"; $"/b"], Ok [$": worse"; $": worse: bad"]).
Proof. vm_compute. reflexivity. Qed.
