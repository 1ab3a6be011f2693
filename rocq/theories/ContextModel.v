(** Variables given on the command line: createContext, context.go. *)
From Coq Require Import String Ascii List ZArith NArith Bool.
From Verif Require Import GoStr ValueModel DictModel TextModel PathModel.
Import ListNotations.
Local Notation dict := (list (str * value)).

(** What collections.LoadData (convert_data.go:66-72) gives for a *interface{}: the content, an
    *os.PathError, or another error. *)
Inductive loaded := Content (v : value) | Missing (e : str) | Corrupt (e : str).

(** Files and decoders.  [decode] is ConvertData to a *interface{} (see C36); None is an error. *)
Class Files := {
  load : str -> loaded;
  decode : str -> option value;
  stdin_data : str                     (* readStdin: utilities.go:33-39 *)
}.

(** filepath.Base *)
Fixpoint drop_slashes (r : str) : str := match r with c :: r' => if Ascii.eqb c SLASH then drop_slashes r' else r | [] => [] end.
Fixpoint until_slash (r : str) : str := match r with c :: r' => if Ascii.eqb c SLASH then [] else c :: until_slash r' | [] => [] end.
Definition path_base (p : str) : str :=
  match p with
  | [] => $"."
  | _ => match rev (until_slash (drop_slashes (rev p))) with [] => [SLASH] | b => b end
  end.

(** fileDef: context.go:17-22 *)
Record filedef := { fd_name : str; fd_value : value; fd_unnamed : bool; fd_required : bool }.

(** The error messages of the decoders. *)
Definition decode_error : str := $"error while decoding".
Definition nil_panic : str := $"reflect: call of reflect.Value.Interface on zero Value".

Section WithEnv.
Context {E : Env} {L : Files}.
(** ConvertData to an empty map: None is an error; the map is in one iteration order. *)
Variable decode_map : str -> option dict.

(** context.go:38-58, one named variable *)
Definition named_defs (s : str) : list filedef :=
  match decode_map s with
  | None =>
      let '(name, value) := split2 s $"=" in
      match value with
      | [] => [{| fd_name := []; fd_value := vstr name; fd_unnamed := true; fd_required := false |}]
      | _ => [{| fd_name := name; fd_value := vstr value; fd_unnamed := false; fd_required := false |}]
      end
  | Some data =>
      let data := match data with
                  | [] => if contains $"=" s then let '(name, value) := split2 s $"=" in [(name, vstr value)] else []
                  | _ => data
                  end in
      map (fun kv => {| fd_name := fst kv; fd_value := snd kv; fd_unnamed := false; fd_required := false |}) data
  end.
(** context.go:30-58 *)
Definition all_defs (files optional named : list str) : list filedef :=
  map (fun f => {| fd_name := []; fd_value := vstr f; fd_unnamed := false; fd_required := false |}) optional ++
  map (fun f => {| fd_name := []; fd_value := vstr f; fd_unnamed := false; fd_required := true |}) files ++
  flat_map named_defs named.

(** What a loader returns: a dictionary, nothing, an *os.PathError or another error. *)
Inductive outcome := Dictionary (j : impl) (m : dict) | Nothing | NotFound (e : str) | Failed (e : str).
(** collections.AsDictionary(map[string]interface{}{name: content}), with the current helper d *)
Definition single (d : impl) (name : str) (content : value) : outcome :=
  match try_as_dict d (VMap 0 [(name, content)]) with Some (j, m) => Dictionary j m | None => Failed [] end.

(** context.go:104-118 *)
Definition load_stdin (d : impl) (nv : filedef) : outcome :=
  match decode stdin_data with
  | None => Failed decode_error
  | Some content =>
      match fd_name nv, try_as_dict d content with
      | [], Some (j, m) => Dictionary j m
      | [], None => single d $"STDIN" content
      | name, _ => single d name content
      end
  end.
(** context.go:65-101.  Line 94 is not reached, because a nil or other error is handled before, so that
    [unnamed] stays empty and ARGS (154-156) is never set. *)
Definition load_file (d : impl) (nv : filedef) (filename : str) : outcome :=
  let base := trim_suffix (path_ext filename) (path_base filename) in
  match load filename with
  | Content content =>
      match fd_name nv, fd_unnamed nv, try_as_dict d content with
      | [], false, Some (j, m) => Dictionary j m
      | [], _, _ => single d base content
      | name, _, _ => single d name content
      end
  | Corrupt e => Failed e
  | Missing e =>
      let content := match decode filename with Some c => c | None => fd_value nv end in
      match fd_name nv with
      | [] => if fd_required nv then NotFound e else Nothing
      | name => single d name content
      end
  end.

(** The context, if any, and the current dictionary helper (a global variable) *)
Record variables := { v_context : option (impl * dict); v_helper : impl }.

(** The body of the loop: context.go:61-152 *)
Definition add_def (ignore_missing : bool) (nv : filedef) (st : variables) : res variables :=
  let d := v_helper st in
  let set_one :=
    let '(i, m) := match v_context st with Some c => c | None => (d, []) end in
    Ok {| v_context := Some (i, dict_set i m (vstr (fd_name nv)) (fd_value nv)); v_helper := d |} in
  match fd_value nv with
  | VNil => Panic nil_panic
  | VScal (SStr false []) => set_one
  | VScal (SStr false filename) =>
      match (if str_eqb filename $"-" then load_stdin d nv else load_file d nv filename) with
      | Nothing => Ok st
      | NotFound e => if ignore_missing then Ok st else Err ($"error " ++ e ++ $" while loading variable file " ++ filename)
      | Failed e => Err ($"error " ++ e ++ $" while loading variable file " ++ filename)
      | Dictionary j content =>
          let '(i, m, d) := match v_context st with Some (i, m) => (i, m, d) | None => (j, [], j) end in
          Ok {| v_context := Some (i, fold_left (fun m kv => dict_set i m (vstr (fst kv)) (snd kv)) content m); v_helper := d |}
      end
  | _ => set_one
  end.
Fixpoint add_defs (ignore_missing : bool) (l : list filedef) (st : variables) : res variables :=
  match l with
  | [] => Ok st
  | nv :: l' => do st <- add_def ignore_missing nv st; add_defs ignore_missing l' st
  end.

(** createContext: context.go:14-158; None is a nil context. *)
Definition create_context (files optional named : list str) (mode : str) (ignore_missing : bool) : res (option (impl * dict)) :=
  let st := {| v_context := match mode with [] => None | _ => Some (dflt, []) end; v_helper := dflt |} in
  do st <- add_defs ignore_missing (all_defs files optional named) st; Ok (v_context st).
End WithEnv.
