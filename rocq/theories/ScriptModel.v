(** Scripts and commands: utils/exec.go. *)
From Coq Require Import String Ascii List ZArith NArith Bool.
From Verif Require Import GoStr ReModel CliModel.
Import ListNotations.

(** The expression shebang: utils/exec.go:13.  Group 1 is program, group 2 app, group 3 source. *)
Definition shebang : re :=
  RSeq RBol
    (RSeq (ROpt (RSeq (RStar true (RByte re_space)) (RSeq (RText $"#!") (RSeq (RStar true (RByte re_space))
                (RSeq (RGroup 1 (RStar true (RByte (fun c => negb (re_space c))))) (RSeq (RStar true (RByte re_blank))
                (RSeq (ROpt (RGroup 2 (RStar true (RByte (fun c => negb (re_space c)))))) (RSeq (RStar true (RByte re_space)) REol))))))))
       (RSeq (RStar true (RByte re_space)) (RGroup 3 (RStar true (RByte (fun _ => true)))))).

(** IsShebangScript: utils/exec.go:16-19 *)
Definition is_shebang_script (content : str) : bool :=
  match find_submatch shebang None (trim_space content) with
  | Some g => negb (str_eqb (group 1 g) [])
  | None => false
  end.

(** ScriptParts: utils/exec.go:22-32 *)
Definition script_parts (content : str) : str * str * str :=
  match find_submatch shebang None (trim_space content) with
  | Some g => (group 1 g, group 2 g, group 3 g)
  | None => ([], [], content)
  end.

(** IsCommand: utils/exec.go:88-90 *)
Definition is_command (command : str) : bool := negb (existsb (fun c => contains_byte c ($" " ++ "009"%char :: $"|&$,;(){}<>[]")) command).

(** What is returned: the command (its argument list, None for nil), the content of the temporary file if one is
    written, and whether an error is returned. *)
Record launch := { l_command : option (list str); l_temp : option str; l_error : bool }.
Definition launched (argv : list str) : launch := {| l_command := Some argv; l_temp := None; l_error := false |}.

Section Commands.
(** [look] tells whether exec.LookPath finds a program, [glob] is filepath.Glob (None when it finds nothing). *)
Variables (look : str -> bool) (glob : str -> option (list str)).

(** GetCommandFromFile on the content of a readable file: utils/exec.go:35-66.  When the program is not found and
    the command is one word, nil is returned for the command and for the error. *)
Definition command_from_file (filename content : str) (args : list str) : launch :=
  let '(executer, delegate, command) := script_parts (trim_space content) in
  let strargs := glob_func glob false args in
  if negb (str_eqb executer []) then
    launched (executer :: (if str_eqb delegate [] then [] else [delegate]) ++ filename :: strargs)
  else if look command then launched (command :: strargs)
  else if contains $" " command then launched (split $" " command ++ strargs)
  else {| l_command := None; l_temp := None; l_error := false |}.

(** The content written by saveTempFile: utils/exec.go:92-102; fmt.Sprintln puts blanks between the texts. *)
Definition temp_content (content : str) (args : list str) : str :=
  match args with
  | [] => content
  | _ => content ++ $" " ++ join $" " args ++ [NLc]
  end.

(** saveTempFile: utils/exec.go:92-110, when the file can be written. *)
Definition save_temp (temp content : str) (args : list str) : launch :=
  let c := temp_content content args in
  let r := command_from_file temp c [] in
  {| l_command := l_command r; l_temp := Some c; l_error := l_error r |}.

(** GetCommandFromString: utils/exec.go:69-85; [shell] is what getDefaultShell finds and
    [temp] the name of the temporary file. *)
Definition command_from_string (shell temp script : str) (args : list str) : launch :=
  let '(executer, delegate, command) := script_parts (trim_space script) in
  if negb (str_eqb executer []) then
    save_temp temp ($"#! " ++ executer ++ $" " ++ delegate ++ NLc :: command) args
  else if look command then launched (command :: glob_func glob false args)
  else if is_command command then {| l_command := None; l_temp := None; l_error := true |}
  else save_temp temp ($"#! " ++ shell ++ NLc :: command) args.
End Commands.
