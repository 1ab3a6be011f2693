(** The program: runGotemplate (main.go:39-314), around the reading of the arguments by kingpin, which is not modelled:
    the flags are given.  The file system and the rest of the program are parameters; logs, colours, the type of the
    collections (main.go:149-164), the strictness of assignments, the formatting of terraform files and the texts of
    errors are not modelled. *)
From Coq Require Import String Ascii List ZArith NArith Bool.
From Verif Require Import GoStr ValueModel TemplateModel CliModel.
Import ListNotations.

(** The arguments given to kingpin: main.go:104-108 *)
Definition mark : str := $"#!!".
Definition protect_args (args : list str) : list str := map (fun a => if has_prefix $"@" a then mark ++ a else a) args.
(** strings.TrimPrefix *)
Definition trim_prefix (p s : str) : str := if has_prefix p s then skipn (length p) s else s.
(** The templates read by kingpin: main.go:135-138 *)
Definition restore_templates (l : list str) : list str := map (trim_prefix mark) l.

(** The flags: main.go:56-101, 114-122.  An addon may be left to its default. *)
Record flags := Flags {
  f_args : list str;                                                  (* os.Args *)
  f_version : bool; f_list : bool;                                    (* --version, the command list *)
  f_base : bool; f_addons : list (option bool);                       (* --base, --razor, --extension ... *)
  f_overwrite : bool; f_print : bool; f_disable : bool; f_no_value : bool; f_strict : bool;
  f_source : str; f_target : str;
  f_recursive : bool; f_depth : Z; f_links : bool; f_stdin : bool;
  f_patterns : list str; f_excluded : list str; f_substitutes : list str; f_remove_empty : bool;
  f_ignore_import : bool; f_ignore_source : bool; f_ignore_paths : bool;
  f_templates : list str }.                                           (* as read by kingpin *)

(** What the program meets. *)
Record world := World {
  w_abs : str -> str;                                  (* filepath.Abs, in the folder where the program starts *)
  w_exists : str -> bool;                              (* os.Stat of the source *)
  w_piped : bool;                                      (* standard input is piped and GOTEMPLATE_NO_STDIN is empty *)
  w_context : bool -> res str;                         (* createContext: context.go; what it has read from standard input *)
  w_template : optset -> list str -> res unit;         (* NewTemplate *)
  w_chdir : str -> bool;                               (* os.Chdir *)
  w_find : str -> Z -> bool -> list str -> res (list str);   (* utils.MustFindFilesMaxDepth *)
  w_relative : str -> str -> option str;               (* filepath.Rel, when the file is there: main.go:287-288 *)
  w_path : str -> res str; w_match : str -> str -> res bool;   (* filepath.Abs and doublestar.PathMatch in the source folder *)
  w_stdin : str;                                       (* readStdin *)
  w_process : optset -> str -> str -> list str -> res unit (* ProcessTemplates *) }.

(** exclude with the files it gives back beside an error: utilities.go:43-74; the flag tells that there is no error. *)
Section Exclude.
Variable abs : str -> res str.
Variable path_match : str -> str -> res bool.
Fixpoint keep_until (patterns files : list str) : list str * bool :=
  match files with
  | [] => ([], true)
  | f :: fs =>
      match (do file <- abs f; excluded abs path_match file patterns) with
      | Ok e => let (r, ok) := keep_until patterns fs in (if e : bool then r else f :: r, ok)
      | _ => ([], false)
      end
  end.
Definition exclude_until (files patterns : list str) : list str * bool :=
  match extend patterns with [] => (files, true) | ps => keep_until ps files end.
End Exclude.

(** The addons: main.go:103-122 *)
Definition load_all (f : flags) : bool := negb (existsb (str_eqb $"--base") (f_args f)).
Definition addon (f : flags) (i : nat) : bool := match nth i (f_addons f) None with Some b => b | None => load_all f end.

(** optionsSet: main.go:141-146, 166-173 *)
Definition build_options (f : flags) : optset :=
  let o := if f_base f then [] else default_options in
  let o := oset o o_rendering_disabled (f_disable f) in
  let o := oset o o_overwrite (f_overwrite f) in
  let o := oset o o_output_stdout (f_print f) in
  let o := oset o o_accept_no_value (f_no_value f) in
  let o := oset o o_strict_error_check (f_strict f) in
  fold_left (fun o i => oset o i (addon f i)) (seq 0 o_on_by_default_count) o.

(** The exit code, and the call of ProcessTemplates. *)
Record outcome := Outcome { r_code : Z; r_call : option (optset * str * str * list str) }.
(** The recovered panics: main.go:40-45 *)
Definition crash : outcome := Outcome (-1) None.

(** runGotemplate: main.go:141-314.  The assignment of overwrite (235) is kept, though nothing reads it. *)
Definition run_program (w : world) (f : flags) : outcome :=
  let o := build_options f in
  let depth := if f_recursive f && (f_depth f =? 0)%Z then 65536%Z else f_depth f in                  (* 188-191 *)
  if f_version f then Outcome 0 None else                                                             (* 197-200 *)
  let ignore_import := f_ignore_import f || f_ignore_paths f in                                       (* 202-205 *)
  let ignore_source := f_ignore_source f || f_ignore_paths f in
  let target := match f_target f with [] => f_source f | t => t end in                                (* 218-221 *)
  let source := w_abs w (f_source f) in                                                               (* 222 *)
  if negb (w_exists w source) then Outcome (if ignore_source then 0 else 1) None else                 (* 223-230 *)
  let target := w_abs w target in                                                                     (* 232 *)
  let overwrite := f_overwrite f || negb (str_eqb source target) in                                   (* 235 *)
  let force_stdin := f_stdin f || w_piped w in                                                        (* 237-240 *)
  let substitutes := f_substitutes f ++ (if f_remove_empty f then [$"/^\s*$/d"] else []) in           (* 242-245 *)
  match w_context w ignore_import with
  | Panic _ => crash
  | Err _ => Outcome 1 None                                                                           (* 247-251 *)
  | Ok content =>
      match w_template w o substitutes with
      | Panic _ => crash
      | Err _ => Outcome 3 None                                                                       (* 253-257 *)
      | Ok _ =>
          if f_list f then Outcome 0 None else                                                        (* 264-277 *)
          if negb (w_chdir w source) then crash else                                                  (* 279 *)
          let arguments := restore_templates (f_templates f) in                                       (* 135-138 *)
          let patterns := f_patterns f ++
            (if negb force_stdin && match arguments with [] => true | _ => false end then [$"*.gt,*.template"] else []) in (* 280-283 *)
          match w_find w source depth (f_links f) (extend patterns) with                              (* 285 *)
          | Ok found =>
              let templates := map (fun t => match w_relative w source t with Some r => r | None => t end) (found ++ arguments) in
              let (templates, kept_ok) := exclude_until (w_path w) (w_match w) templates (f_excluded f) in (* 293-297 *)
              let templates := templates ++ (if force_stdin && str_eqb content [] then [w_stdin w] else []) in (* 299-301 *)
              Outcome match w_process w o source target templates with                                (* 303-307 *)
                      | Panic _ => -1
                      | Err _ => 1
                      | Ok _ => if kept_ok then 0 else 1
                      end (Some (o, source, target, templates))
          | _ => crash
          end
      end
  end.
