(** C69 Scripts and commands *)
From Coq Require Import String Ascii List ZArith NArith Bool Lia.
From Verif Require Import GoStr Utf8 PathModel TemplateModel ProcessModel FilesModel ReModel CliModel CliSpec CliProofs ScriptModel ScriptSpec ScriptProofs.
Import ListNotations.

(** A text is a script when, without the white space around it, it is #!, a program, possibly one more word, and
    then the end of the line. *)
Theorem C69_script : forall u t, trimmed u t -> (is_shebang_script u = true <-> exists program app source, script_text t program app source).
Proof. exact @script_iff. Qed.
Print Assumptions C69_script.

(** The parts of a script are its two words and the text after the line. *)
Theorem C69_parts : forall u t program app source, trimmed u t -> script_text t program app source -> script_parts u = (program, app, source).
Proof. exact @parts_script. Qed.
Print Assumptions C69_parts.

(** Any other text is its own source, except that a #! alone on its line is dropped. *)
Theorem C69_other : forall u t, trimmed u t -> is_shebang_script u = false ->
  (forall source, bare_shebang t source -> script_parts u = ([], [], source)) /\ ((forall source, ~ bare_shebang t source) -> script_parts u = ([], [], t)).
Proof. exact @parts_other. Qed.
Print Assumptions C69_other.

Example C69_parts_example :
  map (fun u => (script_parts u, is_shebang_script u))
    [$" #!/usr/bin/env python3 " ++ newline :: newline :: $"  print(1)  "; $"#! /bin/sh" ++ newline :: $"echo a"; $"echo #!/bin/sh"; $"#!" ++ newline :: $"a b c"] =
  [($"/usr/bin/env", $"python3", $"print(1)", true); ($"/bin/sh", [], $"echo a", true); ([], [], $"echo #!/bin/sh", false); ([], [], $"a b c", false)].
Proof. vm_compute. reflexivity. Qed.

(** A result that is a script is written with the permission to run it (0755), any other with the permissions of its template. *)
Theorem C69_mode : forall cwd o source target template mode name result p c m t, trimmed result t ->
  In (Write p c m) (save cwd is_shebang_script o source target template mode name result) ->
  c = result /\ ((exists program app text, script_text t program app text) -> m = 493%N) /\ ((forall program app text, ~ script_text t program app text) -> m = mode).
Proof.
  intros cwd o source target template mode name result p c m t T H. unfold save in H. cbv zeta in H. rewrite !in_app_iff in H. destruct H as [H|[[H|[]]|H]].
  - destruct (negb (str_eqb source target)); [destruct H as [H|[]]; discriminate H|]. destruct (negb _ && negb _); [destruct H as [H|[]]; discriminate H|destruct H].
  - injection H as _ <- <-. split; [reflexivity|]. split.
    + intros S1. apply (script_iff _ _ T) in S1. rewrite S1. reflexivity.
    + intros S1. destruct (is_shebang_script result) eqn:S2; [|reflexivity]. apply (script_iff _ _ T) in S2 as (x & y & z & S2). destruct (S1 _ _ _ S2).
  - destruct (is_template template && oget o o_overwrite && str_eqb source target); [destruct H as [H|[]]; discriminate H|destruct H].
Qed.
Print Assumptions C69_mode.

(** A script file is run by its program, with the second word, the file and the arguments. *)
Theorem C69_file : forall look glob name u t program app source args, trimmed u t -> script_text t program app source ->
  command_from_file look glob name u args = launched (program :: opt_word app ++ name :: glob_func glob false args).
Proof. exact @file_script. Qed.
Print Assumptions C69_file.

(** Any other file names a known command, or is a command line cut at the blanks. *)
Theorem C69_file_known : forall look glob name u t args, trimmed u t -> has_prefix $"#!" t = false -> look t = true ->
  command_from_file look glob name u args = launched (t :: glob_func glob false args).
Proof. exact @file_known. Qed.
Print Assumptions C69_file_known.

Theorem C69_file_words : forall look glob name u ws args, ws <> [] -> 1 < length ws -> Forall (fun w => ~ In " "%char w) ws ->
  trimmed u (join $" " ws) -> has_prefix $"#!" (join $" " ws) = false -> look (join $" " ws) = false ->
  command_from_file look glob name u args = launched (ws ++ glob_func glob false args).
Proof. exact @file_words. Qed.
Print Assumptions C69_file_words.

(** A script given as text is written to a temporary file, with the arguments behind it, and run by its program. *)
Theorem C69_text : forall look glob shell temp u t program app source args, trimmed u t -> script_text t program app source -> printable program -> printable app ->
  command_from_string look glob shell temp u args =
  {| l_command := Some (program :: opt_word app ++ [temp]);
     l_temp := Some ($"#! " ++ program ++ $" " ++ app ++ newline :: source ++ added args); l_error := false |}.
Proof. exact @string_script. Qed.
Print Assumptions C69_text.

(** Other texts: a known command is run with the arguments, an unknown name is an error, and the shell runs the rest. *)
Theorem C69_known : forall look glob shell temp u t args, trimmed u t -> has_prefix $"#!" t = false -> look t = true ->
  command_from_string look glob shell temp u args = launched (t :: glob_func glob false args).
Proof. exact @string_known. Qed.
Print Assumptions C69_known.

Theorem C69_unknown : forall look glob shell temp u t args, trimmed u t -> has_prefix $"#!" t = false -> look t = false ->
  (forall c, In c t -> ~ In c ($" " ++ "009"%char :: $"|&$,;(){}<>[]")) ->
  command_from_string look glob shell temp u args = {| l_command := None; l_temp := None; l_error := true |}.
Proof. exact @string_unknown. Qed.
Print Assumptions C69_unknown.

Theorem C69_shell : forall look glob shell temp u t args c, trimmed u t -> has_prefix $"#!" t = false -> look t = false ->
  In c t -> In c ($" " ++ "009"%char :: $"|&$,;(){}<>[]") -> printable shell -> shell <> [] ->
  command_from_string look glob shell temp u args =
  {| l_command := Some [shell; temp]; l_temp := Some ($"#! " ++ shell ++ newline :: t ++ added args); l_error := false |}.
Proof. exact @string_shell. Qed.
Print Assumptions C69_shell.

Example C69_commands_example :
  let look := fun c => str_eqb c $"ls" in let glob := fun g => if str_eqb g $"*.go" then Some [$"a.go"; $"b.go"] else None in
  let run := command_from_string look glob $"/bin/bash" $"/tmp/exec_1" in
  run $" ls " [$"-l"; $"*.go"; $"?"] = launched [$"ls"; $"-l"; $"a.go"; $"b.go"; $"?"] /\
  run $"lss" [] = {| l_command := None; l_temp := None; l_error := true |} /\
  run $"ls | wc" [$"-l"] = {| l_command := Some [$"/bin/bash"; $"/tmp/exec_1"]; l_temp := Some ($"#! /bin/bash" ++ newline :: $"ls | wc -l" ++ [newline]); l_error := false |} /\
  run ($"#!/usr/bin/env python3" ++ newline :: $"f()") [$"x"] =
    {| l_command := Some [$"/usr/bin/env"; $"python3"; $"/tmp/exec_1"]; l_temp := Some ($"#! /usr/bin/env python3" ++ newline :: $"f() x" ++ [newline]); l_error := false |} /\
  command_from_file look glob $"run.sh" ($"#!/bin/sh" ++ newline :: $"f") [$"*.go"] = launched [$"/bin/sh"; $"run.sh"; $"a.go"; $"b.go"] /\
  command_from_file look glob $"run.txt" $"grep -i x" [$"*.go"] = launched [$"grep"; $"-i"; $"x"; $"a.go"; $"b.go"].
Proof. vm_compute. repeat split. Qed.

(** One would expect every text that starts with a #! line to be a script: with two words after the program it is not,
    and the text goes to the shell. *)
Theorem C69_options_refuted : exists u, u = $"#!/usr/bin/env python3 -u" ++ newline :: $"print(1)" /\ is_shebang_script u = false /\
  l_command (command_from_string (fun _ => false) (fun _ => None) $"/bin/bash" $"/tmp/exec_1" u []) = Some [$"/bin/bash"; $"/tmp/exec_1"].
Proof. eexists. split; [reflexivity|]. vm_compute. split; reflexivity. Qed.
Print Assumptions C69_options_refuted.

(** One would expect the program to stand on the line of the #!: it can be taken from a later line. *)
Theorem C69_line_refuted : exists u, u = $"#!" ++ newline :: newline :: $"rm all" /\ script_parts u = ($"rm", $"all", []) /\
  l_command (command_from_file (fun _ => false) (fun _ => None) $"f" u []) = Some [$"rm"; $"all"; $"f"].
Proof. eexists. split; [reflexivity|]. vm_compute. split; reflexivity. Qed.
Print Assumptions C69_line_refuted.

(** One would expect a script to receive its arguments: when it is given as text they become a part of its last line. *)
Theorem C69_arguments_refuted : exists u args r, u = $"#!/bin/sh" ++ newline :: $"echo done # end" /\ args = [$"x"] /\
  r = command_from_string (fun _ => false) (fun _ => None) $"/bin/sh" $"/tmp/exec_1" u args /\
  l_command r = Some [$"/bin/sh"; $"/tmp/exec_1"] /\ l_temp r = Some ($"#! /bin/sh " ++ newline :: $"echo done # end x" ++ [newline]).
Proof. do 3 eexists. split; [reflexivity|]. split; [reflexivity|]. split; [reflexivity|]. vm_compute. split; reflexivity. Qed.
Print Assumptions C69_arguments_refuted.

(** One would expect an unknown command to be an error: in a file it is passed over in silence. *)
Theorem C69_silent_refuted : exists u, u = $"no-such-command" /\
  command_from_string (fun _ => false) (fun _ => None) $"/bin/sh" $"/tmp/exec_1" u [] = {| l_command := None; l_temp := None; l_error := true |} /\
  command_from_file (fun _ => false) (fun _ => None) $"f" u [] = {| l_command := None; l_temp := None; l_error := false |}.
Proof. eexists. split; [reflexivity|]. vm_compute. split; reflexivity. Qed.
Print Assumptions C69_silent_refuted.

(** One would expect a command line to need a shell: when no shell is found, its first word is run on the temporary file. *)
Theorem C69_no_shell_refuted : exists u, u = $"rm -r | true" /\
  l_command (command_from_string (fun _ => false) (fun _ => None) [] $"/tmp/exec_1" $"rm -r" []) = Some [$"rm"; $"-r"; $"/tmp/exec_1"] /\
  l_command (command_from_string (fun _ => false) (fun _ => None) [] $"/tmp/exec_1" u []) = Some [$"rm"; $"-r"; $"|"; $"true"].
Proof. eexists. split; [reflexivity|]. vm_compute. split; reflexivity. Qed.
Print Assumptions C69_no_shell_refuted.
