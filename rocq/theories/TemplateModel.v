(** Templates: detection of code, options, constants, names of result files.
    template/template.go, template/options.go, template/template_process.go, template/template_handler.go. *)
From Coq Require Import String Ascii List ZArith NArith Bool Arith.
From Verif Require Import GoStr ValueModel DictModel CliModel PathModel.
Import ListNotations.
Local Notation dict := (list (str * value)).

(** ** Detection of code *)

(** Template.delimiters: template.go:30, 129 *)
Record delims := { left_delim : str; right_delim : str; razor_delim : str }.
Definition default_delims : delims := {| left_delim := $"{{"; right_delim := $"}}"; razor_delim := $"@" |}.

(** template.go:55-57 *)
Definition no_go_template : str := $"no-gotemplate!".
Definition no_razor : str := $"no-razor!".

(** Template.IsRazor: template.go:227-229 *)
Definition is_razor (d : delims) (code : str) : bool :=
  contains (razor_delim d) code && negb (contains no_go_template code) && negb (contains no_razor code).
(** Template.IsCode: template.go:222-224 *)
Definition is_code (d : delims) (code : str) : bool :=
  negb (contains no_go_template code) && (is_razor d code || contains (left_delim d) code || contains (right_delim d) code).

(** NewTemplate, the delimiters: template.go:165-174, from the defaults; None is the error. *)
Definition set_delim (d : delims) (i : nat) (s : str) : delims :=
  match i with
  | 0 => {| left_delim := s; right_delim := right_delim d; razor_delim := razor_delim d |}
  | 1 => {| left_delim := left_delim d; right_delim := s; razor_delim := razor_delim d |}
  | _ => {| left_delim := left_delim d; right_delim := right_delim d; razor_delim := s |}
  end.
Fixpoint set_delims (d : delims) (i : nat) (l : list str) : option delims :=
  match l with
  | [] => Some d
  | s :: l' => if Nat.eqb i 3 then None else set_delims (match s with [] => d | _ => set_delim d i s end) (S i) l'
  end.
Definition new_delims (text : str) : option delims :=
  match text with [] => Some default_delims | _ => set_delims default_delims 0 (split $"," text) end.

(** ** Options *)

(** Options: options.go:10-28, numbered by iota. *)
Definition o_razor := 0. Definition o_extension := 1. Definition o_math := 2. Definition o_sprig := 3. Definition o_data := 4.
Definition o_logging := 5. Definition o_runtime := 6. Definition o_utils := 7. Definition o_net := 8. Definition o_os := 9.
Definition o_git := 10. Definition o_on_by_default_count := 11. Definition o_overwrite := 12. Definition o_output_stdout := 13.
Definition o_rendering_disabled := 14. Definition o_accept_no_value := 15. Definition o_strict_error_check := 16.

(** OptionsSet: options.go:4, a map; missing keys read as false. *)
Notation optset := (list (nat * bool)).
Fixpoint oget (o : optset) (k : nat) : bool :=
  match o with [] => false | (k', v) :: o' => if Nat.eqb k k' then v else oget o' k end.
Fixpoint oset (o : optset) (k : nat) (v : bool) : optset :=
  match o with [] => [(k, v)] | (k', v') :: o' => if Nat.eqb k k' then (k, v) :: o' else (k', v') :: oset o' k v end.

(** set, Set, Unset: options.go:31-41 *)
Definition opt_set (o : optset) (value : bool) (ks : list nat) : optset := fold_left (fun o k => oset o k value) ks o.
(** DefaultOptions: options.go:44-50 *)
Definition default_options : optset := fold_left (fun o k => oset o k true) (seq 0 o_on_by_default_count) [].

(** Templates and the option sets they point to: template.go:25-40.  Maps are references. *)
Record tpl := { t_options : nat; t_folder : str; t_children : list (str * nat) }.
Record heap := { h_sets : list optset; h_tpls : list tpl }.

Definition tpl_at (h : heap) (t : nat) : tpl := nth t (h_tpls h) {| t_options := 0; t_folder := []; t_children := [] |}.
Definition option_of (h : heap) (t k : nat) : bool := oget (nth (t_options (tpl_at h t)) (h_sets h) []) k.

Fixpoint update {A} (l : list A) (i : nat) (f : A -> A) : list A :=
  match l, i with
  | [], _ => []
  | x :: l', O => f x :: l'
  | x :: l', S i' => x :: update l' i' f
  end.

(** SetOption: template.go:247 *)
Definition set_option (h : heap) (t k : nat) (v : bool) : heap :=
  {| h_sets := update (h_sets h) (t_options (tpl_at h t)) (fun o => oset o k v); h_tpls := h_tpls h |}.

(** GetNewContext: template.go:192-219; the templates, functions and constants of the child are not
    part of this model, [abs] is filepath.Abs.  The options are copied in any iteration order. *)
Definition get_new_context (abs : str -> str) (h : heap) (t : nat) (folder : str) (use_cache : bool) : heap * nat :=
  let folder := match folder with [] => t_folder (tpl_at h t) | _ => folder end in
  match (if use_cache then mget (t_children (tpl_at h t)) folder else None) with
  | Some c => (h, c)
  | None =>
      let child := {| t_options := List.length (h_sets h); t_folder := match folder with [] => t_folder (tpl_at h t) | _ => abs folder end; t_children := [] |} in
      let copy := fold_left (fun o kv => oset o (fst kv) (snd kv)) (nth (t_options (tpl_at h t)) (h_sets h) []) [] in
      let n := List.length (h_tpls h) in
      let parents := if use_cache
                     then update (h_tpls h) t (fun p => {| t_options := t_options p; t_folder := t_folder p; t_children := mset (t_children p) folder n |})
                     else h_tpls h in
      ({| h_sets := h_sets h ++ [copy]; h_tpls := parents ++ [child] |}, n)
  end.

(** ** Constants *)

Section WithEnv.
Context {E : Env}.

(** reflect.DeepEqual of a constant (text, boolean or nil) and any value. *)
Definition const_eq (c v : value) : bool := match iface_eq c v with Ok b => b | _ => false end.

(** The loop of setConstant: template.go:317-328, on the map of the context and t.constantKeys. *)
Fixpoint set_constant (stop_on_first : bool) (value : value) (names : list str) (st : dict * list str) : dict * list str :=
  match names with
  | [] => st
  | n :: names' =>
      match mget (fst st) n with
      | None =>
          let st := (mset (fst st) n value, snd st ++ [n]) in
          if stop_on_first then st else set_constant stop_on_first value names' st
      | Some val => if const_eq value val then st else set_constant stop_on_first value names' st
      end
  end.

(** The constants set by init: template.go:305-308 *)
Definition newline : str := [NL].
Definition init_constants (st : dict * list str) : dict * list str :=
  let st := set_constant false (vstr newline) [$"NL"; $"CR"; $"NEWLINE"] st in
  let st := set_constant false (vbool true) [$"true"] st in
  let st := set_constant false (vbool false) [$"false"] st in
  set_constant false VNil [$"null"] st.

(** setConstant on the context itself: template.go:311-316.  A dictionary, or a map[string]interface{}
    without native content, is the map that is written; anything else is first copied by
    TryAsDictionary, or refused. *)
Definition context_constants (ctx : value) : value :=
  match ctx with
  | VDict i m => VDict i (fst (init_constants (m, [])))
  | VMap 0 m => if existsb (fun kv => need_conv (snd kv)) m then ctx else VMap 0 (fst (init_constants (m, [])))
  | _ => ctx
  end.

(** ** Values added to the context *)

(** Template.Merge: template.go:348-350, for a context that is a dictionary of implementation i.  The first argument of Add is the function [key]
    (extra_data.go:426). *)
Definition key_function : value := VOpaque 426 false 0.
Definition template_merge (i : impl) (ctx : dict) (values : value) : res dict :=
  match values with
  | VDict j m => Ok (dict_add i ctx key_function (VDict j m))
  | _ => match try_as_dict dflt values with
         | Some (j, m) => Ok (dict_add i ctx key_function (VDict j m))
         | None => Panic $"object cannot be converted to dictionary"
         end
  end.
End WithEnv.

(** ** Names of result files *)

(** templateExt: template_process.go:13 *)
Definition template_ext : list str := [$".gt"; $".template"].
(** isTemplate: template.go:249-256 *)
Definition is_template (file : str) : bool := existsb (fun e => has_suffix e file) template_ext.
(** template_handler.go:79-81 *)
Definition strip_ext (file : str) : str := fold_left (fun f e => trim_suffix e f) template_ext file.
(** template_handler.go:92-93 *)
Definition generated (file : str) : str := let ext := path_ext file in trim_suffix ext file ++ $".generated" ++ ext.
(** template_handler.go:78-95: the name of the result file, None when nothing is saved. *)
Definition result_name (overwrite : bool) (source_folder target_folder file result : str) : res (option str) :=
  do name <- get_target_file (strip_ext file) source_folder target_folder;
  if is_template file then
    if str_eqb (trim_space result ++ path_ext name) [] then Ok None
    else Ok (Some (if overwrite then name else generated name))
  else Ok (Some name).
