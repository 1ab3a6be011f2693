(** Running commands and including files from a template: run and exec (template/extra_runtime.go:357-403, 416-430),
    include (191-197), on top of the running of templates (IncludeModel.v) and of the commands (ScriptModel.v). *)
From Coq Require Import String Ascii List ZArith NArith Bool.
From Verif Require Import GoStr ValueModel ListModel DictModel HeapModel PathModel CliModel ReModel ScriptModel IncludeModel.
Import ListNotations.

Section Run.
Context {E : Engine}.
Variable grow : nat -> nat -> nat.
Variable d : impl.
Variable constants : list str.
Variable folder : str.
Variable accept_no_value : bool.
(** exec.LookPath, filepath.Glob, the default shell, the name of the temporary file, the text of an argument and the
    execution of a command in a folder: the text it prints, or its error. *)
Variables (look : str -> bool) (glob : str -> option (list str)) (shell temp : str) (show : hval -> str).
Variable process : list str -> str -> str + str.
(** ConvertData (C36) *)
Variable as_data : str -> option hval.

(** What happens: the command that is looked for, the process that is launched (its arguments and its folder), and what
    is returned (nil, a text or data; the error). *)
Inductive returned := RNone | RText (s : str) | RData (v : hval).
Record ending := Ending { e_launch : option launch; e_process : option (list str * str); e_value : returned; e_error : option str }.
Definition no_command : str := $"executable file not found in $PATH".

(** The arguments of the command: extra_runtime.go:365-371 *)
Definition command_args (args : list hval) : list hval :=
  match args with
  | [HDict _ _] => []
  | [HNil] => []
  | _ => args
  end.

(** run: extra_runtime.go:357-403.  The temporary file is removed at the end (381); standard input and the logs are
    left out.  None: a stack overflow; a panic is passed on. *)
Definition run_command (fuel : nat) (command : str) (args : list hval) (st : state) : option (state * option ending) :=
  match run grow d constants folder accept_no_value fuel false command args st with
  | None => None
  | Some (st, Panics) => Some (st, None)
  | Some (st, Ret _ _ (Some e)) => Some (st, Some (Ending None None RNone (Some e)))
  | Some (st, Ret text filename None) =>
      let strargs := map show (command_args args) in
      let found :=
        match filename with
        | [] => inl (command_from_string look glob shell temp text strargs)
        | _ => match read_file filename with
               | Content content => inl (command_from_file look glob filename content strargs)
               | Missing => inr $"no such file"
               | Failing e => inr e
               end
        end in
      match found with
      | inr e => Some (st, Some (Ending None None RNone (Some e)))
      | inl l =>
          match l_command l with
          | None => Some (st, Some (Ending (Some l) None RNone (if l_error l then Some no_command else None)))
          | Some argv =>
              match process argv folder with
              | inl out => Some (st, Some (Ending (Some l) (Some (argv, folder)) (RText out) None))
              | inr e => Some (st, Some (Ending (Some l) (Some (argv, folder)) RNone (Some ($"error " ++ e))))
              end
          end
      end
  end.

(** exec: extra_runtime.go:416-430 *)
Definition exec_command (fuel : nat) (command : str) (args : list hval) (st : state) : option (state * option ending) :=
  match run_command fuel command args st with
  | Some (st, Some (Ending l p (RText out) None)) =>
      Some (st, Some (Ending l p (match as_data out with Some v => RData v | None => RText out end) None))
  | r => r
  end.

(** include of a text: extra_runtime.go:191-197; the comparison comes before the error of the template. *)
Definition not_found (source : str) : str := $"unable to find a template or a file named " ++ source.
Definition include (fuel : nat) (source : str) (args : list hval) (st : state) : option (state * option (str * option str)) :=
  match run grow d constants folder accept_no_value fuel false source args st with
  | None => None
  | Some (st, Panics) => Some (st, None)
  | Some (st, Ret text _ err) => Some (st, Some (if str_eqb source text then ([], Some (not_found source)) else (text, err)))
  end.
End Run.
