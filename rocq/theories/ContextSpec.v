(** What the variables of the command line mean. *)
From Coq Require Import String Ascii List ZArith NArith Bool.
From Verif Require Import GoStr ValueModel PathModel ContextModel.
Import ListNotations.
Local Notation pairs := (list (str * value)).

(** Sources of variables: imported files, variables with a name, other arguments. *)
Inductive source := Import (required : bool) (f : str) | Named (n : str) (v : value) | Argument (s : str).

Section Arguments.
Variable decode_map : str -> option pairs.   (* data given as an argument, in one iteration order *)
(** What an argument --var means. *)
Inductive argument : str -> list source -> Prop :=
| arg_data s kvs : decode_map s = Some kvs -> kvs <> [] -> argument s (map (fun kv => Named (fst kv) (snd kv)) kvs)
| arg_nothing s : decode_map s = Some [] -> ~ In "="%char s -> argument s []
| arg_empty n v : decode_map (n ++ "="%char :: v) = Some [] -> ~ In "="%char n -> argument (n ++ "="%char :: v) [Named n (vstr v)]
| arg_text n v : decode_map (n ++ "="%char :: v) = None -> ~ In "="%char n -> v <> [] -> argument (n ++ "="%char :: v) [Named n (vstr v)]
| arg_file s : decode_map s = None -> ~ In "="%char s -> argument s [Argument s]
| arg_equal n : decode_map (n ++ $"=") = None -> ~ In "="%char n -> argument (n ++ $"=") [Argument n].

(** The sources of a command line. *)
Inductive command_line : list str -> list str -> list str -> list source -> Prop :=
| command files optional named args : Forall2 argument named args ->
    command_line files optional named (map (Import false) optional ++ map (Import true) files ++ concat args).
End Arguments.

Section WithEnv.
Context {E : Env} {L : Files}.

(** Values that are dictionaries, and their entries. *)
Definition entries (v : value) : option pairs :=
  match v with
  | VNil => Some []
  | VDict _ m | VMap _ m => Some m
  | VMapK _ m => Some (map (fun kv => (sprint_scalar (fst kv), snd kv)) m)
  | _ => None
  end.

(** Entries of a dictionary, else the value under a name. *)
Definition named_or_entries (n : str) (v : value) : pairs := match entries v with Some m => m | None => [(n, v)] end.

(** The name of a file without folder and extension. *)
Definition stem (f n : str) : Prop := exists dir ext, f = dir ++ n ++ ext /\ (dir = [] \/ exists d, dir = d ++ [SLASH]) /\
  ~ In SLASH (n ++ ext) /\ n ++ ext <> [] /\ ((ext = [] /\ ~ In "."%char n) \/ exists e, ext = "."%char :: e /\ ~ In "."%char e).

Definition is_text (v : value) : Prop := exists c s, v = vstr (c :: s).

(** What a source gives: None when it is skipped. *)
Inductive gives (ignore : bool) : source -> option pairs -> Prop :=
(* Files *)
| import_file r f c : f <> [] -> f <> $"-" -> load f = Content c -> forall n, stem f n -> gives ignore (Import r f) (Some (named_or_entries n c))
| import_missing f e r : f <> [] -> f <> $"-" -> load f = Missing e -> r = false \/ ignore = true -> gives ignore (Import r f) None
| import_stdin r c : decode stdin_data = Some c -> gives ignore (Import r $"-") (Some (named_or_entries $"STDIN" c))
| import_empty r : gives ignore (Import r []) (Some [([], vstr [])])
(* Named ones: a text may be the name of a file or of data *)
| variable_value n v : v <> VNil -> ~ is_text v -> gives ignore (Named n v) (Some [(n, v)])
| variable_file n f c : n <> [] -> f <> [] -> f <> $"-" -> load f = Content c -> gives ignore (Named n (vstr f)) (Some [(n, c)])
| variable_data n f e c : n <> [] -> f <> [] -> f <> $"-" -> load f = Missing e -> decode f = Some c -> gives ignore (Named n (vstr f)) (Some [(n, c)])
| variable_text n f e : n <> [] -> f <> [] -> f <> $"-" -> load f = Missing e -> decode f = None -> gives ignore (Named n (vstr f)) (Some [(n, vstr f)])
| variable_stdin n c : n <> [] -> decode stdin_data = Some c -> gives ignore (Named n (vstr $"-")) (Some [(n, c)])
| variable_nameless f p : f <> [] -> gives ignore (Import false f) p -> gives ignore (Named [] (vstr f)) p
(* Arguments *)
| argument_file f c n : f <> [] -> f <> $"-" -> load f = Content c -> stem f n -> gives ignore (Argument f) (Some [(n, c)])
| argument_missing f e : f <> [] -> f <> $"-" -> load f = Missing e -> gives ignore (Argument f) None
| argument_stdin c : decode stdin_data = Some c -> gives ignore (Argument $"-") (Some (named_or_entries $"STDIN" c))
| argument_empty : gives ignore (Argument []) (Some [([], vstr [])]).

(** The data of a source that may be a dictionary of its own. *)
Definition data_of (s : source) : option value :=
  let file f := if str_eqb f $"-" then decode stdin_data else match load f with Content c => Some c | _ => None end in
  match s with
  | Import _ f | Named [] (VScal (SStr false f)) => match f with [] => None | _ => file f end
  | Argument f => if str_eqb f $"-" then decode stdin_data else None
  | _ => None
  end.
(** The type of the context if this source is the first. *)
Definition creates (s : source) : impl :=
  match data_of s with Some (VDict j m) => if need_conv (VDict j m) then dflt else j | _ => dflt end.
(** The type given by the first source that is not skipped. *)
Fixpoint first_type (ss : list source) (ps : list (option pairs)) : option impl :=
  match ss, ps with
  | s :: _, Some _ :: _ => Some (creates s)
  | _ :: ss', None :: ps' => first_type ss' ps'
  | _, _ => None
  end.
End WithEnv.

(** The last value given to a name. *)
Fixpoint last_value (k : str) (l : pairs) : option value :=
  match l with
  | [] => None
  | (k', v) :: l' => match last_value k l' with Some w => Some w | None => if str_eqb k k' then Some v else None end
  end.
Definition all_pairs (ps : list (option pairs)) : pairs := flat_map (fun p => match p with Some m => m | None => [] end) ps.
