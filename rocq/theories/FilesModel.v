(** Processing of files: processTemplate and ProcessTemplatesWithHandler.
    template/template_handler.go:21-134, template/template_process.go:53-86.

    The file system is a finite map from places (see [resolve]) to files; folders, links and permissions
    are not modelled.  The processing gives the system calls that it does in order; a failed call or a
    crash leaves the file system in one of the states met while they are executed ([instant]). *)
From Coq Require Import String Ascii List ZArith NArith Bool Arith.
From Verif Require Import GoStr PathModel TemplateModel ProcessModel.
Import ListNotations.

(** ** File systems *)

Record file := { f_text : str; f_mode : N }.
Definition fs := list (list str * file).

Definition place_eqb (a b : list str) : bool := if list_eq_dec (list_eq_dec ascii_dec) a b then true else false.
Fixpoint fget (s : fs) (p : list str) : option file := match s with [] => None | (q, f) :: s' => if place_eqb p q then Some f else fget s' p end.
Definition fdel (s : fs) (p : list str) : fs := filter (fun x => negb (place_eqb p (fst x))) s.
Definition fset (s : fs) (p : list str) (f : file) : fs := (p, f) :: fdel s p.

(** The place of a path for a process in folder cwd. *)
Definition resolve (cwd p : str) : list str := norm (if is_abs p then p else cwd ++ [SLASH] ++ p).

(** System calls that change files: os.MkdirAll, os.Rename, os.WriteFile, os.Remove *)
Inductive event := Mkdir (p : list str) | Rename (a b : list str) | Write (p : list str) (text : str) (mode : N) | Remove (p : list str).

(** The mode is only used for a new file. *)
Definition write (s : fs) (p : list str) (text : str) (mode : N) : fs :=
  fset s p {| f_text := text; f_mode := match fget s p with Some f => f_mode f | None => mode end |}.
Definition effect (s : fs) (e : event) : fs :=
  match e with
  | Mkdir _ => s
  | Rename a b => match fget s a with Some f => fset (fdel s a) b f | None => s end
  | Write p text mode => write s p text mode
  | Remove p => fdel s p
  end.
Definition effects (s : fs) (es : list event) : fs := fold_left effect es s.

(** ** One template *)

Section WithEngine.
Context {G : Engine}.
Variables (cwd : str) (is_script : str -> bool).   (* utils.IsShebangScript *)

(** IsTerraformFile: utils/terraform.go:13-20 *)
Definition is_terraform (f : str) : bool := existsb (fun e => has_suffix e f) [$".tf"; $".tf.json"; $".tfvars"].
(** printResult: template_process.go:53-86.  os.CreateTemp gives a file, not a text, so that terraform files
    panic in line 56.  The texts printed. *)
Definition print_result (target result : str) : res (list str) :=
  if is_terraform target then Panic $"interface conversion: interface {} is *os.File, not string" else Ok [result].

Record done := { d_options : optset; d_state : state; d_events : list event; d_printed : list str; d_result : res str }.

Definition blank_right (s : str) : bool := forallb (fun c => Ascii.eqb c " " || Ascii.eqb c TAB) s.

(** template_handler.go:100-133, the result file is named *)
Definition save (o : optset) (source_folder target_folder template : str) (mode : N) (name result : str) : list event :=
  let same := str_eqb source_folder target_folder in
  let overwrite := oget o o_overwrite in
  (if negb same then [Mkdir (removelast (resolve cwd name))]
   else if negb (is_template template) && negb overwrite then [Rename (resolve cwd template) (resolve cwd (template ++ $".original"))] else []) ++
  [Write (resolve cwd name) result (if is_script result then 493%N else mode)] ++
  (if is_template template && overwrite && same then [Remove (resolve cwd template)] else []).

(** template_handler.go:43-134 *)
Definition process_template (h : option custom_handler) (stack : nat) (o : optset) (d : delims) (st : state) (s : fs) (template source_folder target_folder : str) : done :=
  let stop o st r := {| d_options := o; d_state := st; d_events := []; d_printed := []; d_result := r |} in
  match fget s (resolve cwd template) with
  | None =>
      if is_code d template then
        let '(o, st, r) := process_with h stack o d st $"." template in
        match r with
        | Ok (result, _, None) =>
            {| d_options := o; d_state := st; d_events := [];
               d_printed := if blank_right result then [] else [if has_suffix [NL] result then result else result ++ [NL]]; d_result := Ok [] |}
        | Ok (_, _, Some e) => stop o st (Err e)
        | Err e => stop o st (Err e)
        | Panic m => stop o st (Panic m)
        end
      else stop o st (Err ($"open " ++ template ++ $": no such file or directory"))
  | Some f =>
      let '(o, st, r) := process_with h stack o d st template (f_text f) in
      match r with
      | Ok (result, changed, None) =>
          match result_name (oget o o_overwrite) source_folder target_folder template result with
          | Ok (Some name) =>
              if oget o o_output_stdout then
                match print_result name result with
                | Ok out => {| d_options := o; d_state := st; d_events := []; d_printed := out; d_result := Ok [] |}
                | Err e => stop o st (Err e)
                | Panic m => stop o st (Panic m)
                end
              else if str_eqb source_folder target_folder && negb changed then stop o st (Ok [])
              else {| d_options := o; d_state := st; d_events := save o source_folder target_folder template (f_mode f) name result; d_printed := []; d_result := Ok name |}
          | Ok None => stop o st (Ok [])
          | Err e => stop o st (Err e)
          | Panic m => stop o st (Panic m)
          end
      | Ok (_, _, Some e) => stop o st (Err e)
      | Err e => stop o st (Err e)
      | Panic m => stop o st (Panic m)
      end
  end.

(** ** Many templates *)

(** ProcessTemplatesWithHandler: template_handler.go:21-41: the result files, and the errors. *)
Record batch := { b_options : optset; b_state : state; b_fs : fs; b_printed : list str; b_files : list str; b_errors : list str; b_panic : option str }.
Fixpoint process_all (h : option custom_handler) (stack : nat) (print : bool) (d : delims) (source_folder target_folder : str) (templates : list str) (b : batch) : batch :=
  match templates with
  | [] => b
  | t :: templates' =>
      let o := oset (b_options b) o_output_stdout print in
      let r := process_template h stack o d (b_state b) (b_fs b) t source_folder target_folder in
      let b' files errors panic := {| b_options := d_options r; b_state := d_state r; b_fs := effects (b_fs b) (d_events r); b_printed := b_printed b ++ d_printed r;
                                      b_files := b_files b ++ files; b_errors := b_errors b ++ errors; b_panic := panic |} in
      match d_result r with
      | Ok f => process_all h stack print d source_folder target_folder templates' (b' (match f with [] => [] | _ => [f] end) [] None)
      | Err e => process_all h stack print d source_folder target_folder templates' (b' [] [e] None)
      | Panic m => b' [] [] (Some m)
      end
  end.
(** [folder] is t.folder *)
Definition process_templates (h : option custom_handler) (stack : nat) (o : optset) (d : delims) (st : state) (s : fs) (folder source_folder target_folder : str) (templates : list str) : batch :=
  process_all h stack (oget o o_output_stdout) d (match source_folder with [] => folder | _ => source_folder end) (match target_folder with [] => folder | _ => target_folder end) templates
    {| b_options := o; b_state := st; b_fs := s; b_printed := []; b_files := []; b_errors := []; b_panic := None |}.
End WithEngine.
