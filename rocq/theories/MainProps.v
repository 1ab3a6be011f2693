(** C84: from the command line to the templates.  C85: what the command line says about itself. *)
From Coq Require Import String Ascii List ZArith NArith Bool.
From Verif Require Import GoStr ValueModel TemplateModel CliModel CliSpec MainModel MainSpec MainProofs.
Import ListNotations.

(** ** C84 *)

(** kingpin meets no argument starting with an at sign, which it would take for a file ... *)
Theorem C84_protected : forall args, Forall (fun a => forall r, a <> $"@" ++ r) (protect_args args) /\ Forall2 read_as args (protect_args args).
Proof. intro args. split; [exact (protect_never_at args)|exact (protect_reads args)]. Qed.
Print Assumptions C84_protected.

(** ... and the templates are those that have been given. *)
Theorem C84_restored : forall given read, Forall2 read_as given read -> Forall (fun a => forall r, a <> $"#!!" ++ r) given -> restore_templates read = given.
Proof. exact restored. Qed.
Print Assumptions C84_restored.

(** What is handed over to the engine, and the exit code. *)
Theorem C84_call : forall w f given, Forall2 read_as given (f_templates f) -> Forall (fun a => forall r, a <> $"#!!" ++ r) given ->
  forall code o s t ts, run_program w f = Outcome code (Some (o, s, t, ts)) ->
  f_version f = false /\ f_list f = false /\ o = build_options f /\ s = source_of w f /\ w_exists w s = true /\ target_is w f t /\
  exists content, w_context w (f_ignore_import f || f_ignore_paths f) = Ok content /\
    (exists u, w_template w o (f_substitutes f ++ (if f_remove_empty f then [$"/^\s*$/d"] else [])) = Ok u) /\
    w_chdir w s = true /\ handed_over w f given t content code ts.
Proof. exact call_ok. Qed.
Print Assumptions C84_call.

(** It is done whenever nothing fails before. *)
Theorem C84_called : forall w f content u, f_version f = false -> f_list f = false -> w_exists w (source_of w f) = true ->
  w_context w (f_ignore_import f || f_ignore_paths f) = Ok content ->
  w_template w (build_options f) (f_substitutes f ++ (if f_remove_empty f then [$"/^\s*$/d"] else [])) = Ok u -> w_chdir w (source_of w f) = true ->
  (forall d pats, exists found, w_find w (source_of w f) d (f_links f) pats = Ok found) ->
  exists code c, run_program w f = Outcome code (Some c).
Proof. exact called. Qed.
Print Assumptions C84_called.

(** The version needs nothing; a missing source is an error unless it is ignored. *)
Theorem C84_missing : forall w f,
  (f_version f = true -> run_program w f = Outcome 0 None) /\
  (f_version f = false -> w_exists w (source_of w f) = false ->
     ((f_ignore_source f = true \/ f_ignore_paths f = true) -> run_program w f = Outcome 0 None) /\
     (f_ignore_source f = false -> f_ignore_paths f = false -> run_program w f = Outcome 1 None)).
Proof.
  intros w f. split; [exact (run_version w f)|]. intros V E. pose proof (run_missing w f V E) as H. split.
  - intro I. rewrite H. apply orb_true_iff in I. rewrite I. reflexivity.
  - intros A B. rewrite H, A, B. reflexivity.
Qed.
Print Assumptions C84_missing.

(** The other ends: 1 for the variables, 3 for the template, 0 for the list of functions. *)
Theorem C84_ends : forall w f, f_version f = false -> w_exists w (source_of w f) = true ->
  let variables := w_context w (f_ignore_import f || f_ignore_paths f) in
  let template := w_template w (build_options f) (f_substitutes f ++ (if f_remove_empty f then [$"/^\s*$/d"] else [])) in
  (forall m, variables = Err m -> run_program w f = Outcome 1 None) /\
  (forall m, variables = Panic m -> run_program w f = Outcome (-1) None) /\
  (forall c m, variables = Ok c -> template = Err m -> run_program w f = Outcome 3 None) /\
  (forall c m, variables = Ok c -> template = Panic m -> run_program w f = Outcome (-1) None) /\
  (forall c u, variables = Ok c -> template = Ok u -> f_list f = true -> run_program w f = Outcome 0 None) /\
  (forall c u, variables = Ok c -> template = Ok u -> f_list f = false -> w_chdir w (source_of w f) = false -> run_program w f = Outcome (-1) None).
Proof.
  intros w f V E variables template. pose proof (run_eq w f V E) as H. fold variables in H. change (w_template w (build_options f) (lines f)) with template in H.
  split; [|split; [|split; [|split; [|split]]]]; intros; rewrite H;
    repeat match goal with X : variables = _ |- _ => rewrite X; clear X | X : template = _ |- _ => rewrite X; clear X
                         | X : f_list f = _ |- _ => rewrite X; clear X | X : w_chdir _ _ = _ |- _ => rewrite X; clear X end; reflexivity.
Qed.
Print Assumptions C84_ends.

(** The options: the addons are on unless they are turned off, or --base is among the arguments. *)
Theorem C84_options : forall f,
  (forall i b, i < o_on_by_default_count -> nth i (f_addons f) None = Some b -> oget (build_options f) i = b) /\
  (forall i, i < o_on_by_default_count -> nth i (f_addons f) None = None -> (oget (build_options f) i = true <-> ~ In $"--base" (f_args f))) /\
  (forall i b, option_flag f i = Some b -> oget (build_options f) i = b) /\
  (forall i, o_on_by_default_count <= i -> option_flag f i = None -> oget (build_options f) i = false).
Proof.
  intro f. split; [|split; [|split]].
  - intros i b L H. rewrite options_addon by exact L. exact (proj1 (addon_ok f i) b H).
  - intros i L H. rewrite options_addon by exact L. exact (proj2 (addon_ok f i) H).
  - exact (options_flag f).
  - exact (options_rest f).
Qed.
Print Assumptions C84_options.

(** A small world: two files in /s, /t is another folder, and patterns ending with a star. *)
Definition in_s (s : str) : str := if has_prefix $"/" s then s else match s with [] => $"/s" | _ => $"/s/" ++ s end.
Definition small (stdin : bool) (process : optset -> str -> str -> list str -> res unit) : world :=
  {| w_abs := in_s; w_exists := fun s => str_eqb s $"/s"; w_piped := stdin; w_context := fun _ => Ok []; w_template := fun _ _ => Ok tt; w_chdir := fun _ => true;
     w_find := fun s d _ ps => Ok (flat_map (fun p => if str_eqb p $"*.gt" then [$"/s/a.txt.gt"] else if str_eqb p $"*.tf" then if (0 <? d)%Z then [$"/s/b.tf"; $"/s/d/c.tf"] else [$"/s/b.tf"] else []) ps);
     w_relative := fun s t => if has_prefix $"/s/" t then Some (skipn 3 t) else None;
     w_path := fun p => Ok (in_s p);
     w_match := fun p f => match rev p with "["%char :: _ => Err $"syntax error in pattern" | "*"%char :: q => Ok (has_prefix (rev q) f) | _ => Ok (str_eqb p f) end;
     w_stdin := $"@(1+1)"; w_process := process |}.
Definition fine_process (_ : optset) (_ _ : str) (_ : list str) : res unit := Ok tt.
Definition plain : flags :=
  {| f_args := [$"gotemplate"]; f_version := false; f_list := false; f_base := false; f_addons := []; f_overwrite := false; f_print := false; f_disable := false;
     f_no_value := false; f_strict := false; f_source := []; f_target := []; f_recursive := false; f_depth := 0; f_links := false; f_stdin := false;
     f_patterns := []; f_excluded := []; f_substitutes := []; f_remove_empty := false; f_ignore_import := false; f_ignore_source := false; f_ignore_paths := false;
     f_templates := [] |}.
Definition with_files (patterns excluded templates : list str) (recursive : bool) (target : str) : flags :=
  {| f_args := f_args plain; f_version := false; f_list := false; f_base := false; f_addons := []; f_overwrite := false; f_print := false; f_disable := false;
     f_no_value := false; f_strict := false; f_source := []; f_target := target; f_recursive := recursive; f_depth := 0; f_links := false; f_stdin := false;
     f_patterns := patterns; f_excluded := excluded; f_substitutes := []; f_remove_empty := false; f_ignore_import := false; f_ignore_source := false; f_ignore_paths := false;
     f_templates := templates |}.
Definition seen (r : outcome) : Z * option (str * list str) := (r_code r, match r_call r with Some (_, _, t, ts) => Some (t, ts) | None => None end).
Example C84_example :
  seen (run_program (small false fine_process) plain) = (0%Z, Some ($"/s", [$"a.txt.gt"])) /\
  seen (run_program (small true fine_process) plain) = (0%Z, Some ($"/s", [$"@(1+1)"])) /\
  seen (run_program (small false fine_process) (with_files [$"*.tf"] [$"d/*"] (protect_args [$"@x"; $"d/x"; $"y"]) true $"/t")) = (0%Z, Some ($"/t", [$"b.tf"; $"@x"; $"y"])) /\
  seen (run_program (small false fine_process) (with_files [$"*.tf"] [] [] true [])) = (0%Z, Some ($"/s", [$"b.tf"; $"d/c.tf"; $"a.txt.gt"])) /\
  seen (run_program (small false fine_process) (with_files [$"*.tf"] [] [] false [])) = (0%Z, Some ($"/s", [$"b.tf"; $"a.txt.gt"])) /\
  (* the exclusion of b.tf is found before the wrong pattern is *)
  seen (run_program (small true fine_process) (with_files [$"*.tf"] [$"b.tf, ["] [$"y"] false [])) = (1%Z, Some ($"/s", [$"@(1+1)"])) /\
  seen (run_program (small false (fun _ _ _ _ => Err $"x")) plain) = (1%Z, Some ($"/s", [$"a.txt.gt"])).
Proof. vm_compute. repeat split. Qed.

(** ** C85 *)

(** --overwrite is said to be "required only if source folder is the same as the target folder" (main.go:74, 234-235);
    but the option handed over is the flag, whatever the folders are. *)
Theorem C85_overwrite : forall w f code o s t ts, run_program w f = Outcome code (Some (o, s, t, ts)) -> oget o o_overwrite = f_overwrite f.
Proof.
  intros w f code o s t ts H. destruct (f_version f) eqn:V; [rewrite run_version in H by exact V; discriminate|].
  destruct (w_exists w (source_of w f)) eqn:E; [|rewrite run_missing in H by assumption; discriminate].
  rewrite run_eq in H by assumption. destruct (w_context w _); [|discriminate..]. destruct (w_template w _ _); [|discriminate..]. destruct (f_list f); [discriminate|].
  destruct (w_chdir w _); [|discriminate]. unfold run_tail in H. destruct (w_find w _ _ _ _); [|discriminate..].
  destruct (exclude_until _ _ _ _) as [l k]. inversion H; subst. apply options_flag. reflexivity.
Qed.
Print Assumptions C85_overwrite.

(** So that, from /s to /t, the file is not named x.txt. *)
Theorem C85_overwrite_refuted : exists w f code o ts, run_program w f = Outcome code (Some (o, $"/s", $"/t", ts)) /\ oget o o_overwrite = false /\
  ts = [$"a.txt.gt"] /\ result_name (oget o o_overwrite) $"/s" $"/t" $"a.txt.gt" $"text" = Ok (Some $"/t/a.generated.txt") /\
  result_name true $"/s" $"/t" $"a.txt.gt" $"text" = Ok (Some $"/t/a.txt").
Proof. exists (small false fine_process), (with_files [] [] [] false $"/t"). do 3 eexists. vm_compute. repeat split. Qed.
Print Assumptions C85_overwrite_refuted.

(** "We restore back the modified arguments" (main.go:135): not the ones of flags.  A substitution may be separated by any
    character (main.go:75), but not by an at sign. *)
Theorem C85_flag_refuted : forall {RE} (compile : str -> option RE), exists given read,
  read_as given read /\ substitution given "@" $"a" $"b" /\ init_replacer compile read = Panic bad_replacer /\
  init_replacer compile given = match compile $"a" with Some re => Ok (re, $"b") | None => Panic $"regexp: Compile" end.
Proof.
  intros RE compile. exists $"@a@b", $"#!!@a@b". split; [left; exists $"a@b"; split; reflexivity|]. split.
  - split; [reflexivity|]. split; [discriminate|]. split; intros [X|[]]; discriminate X.
  - split; [vm_compute; reflexivity|]. vm_compute. destruct (compile _); reflexivity.
Qed.
Print Assumptions C85_flag_refuted.

(** A template that starts with the mark loses it. *)
Theorem C85_mark_refuted : exists given read, read_as given read /\ restore_templates [read] <> [given].
Proof. exists $"#!!a", $"#!!a". split; [right; split; [intros r E; discriminate|reflexivity]|]. vm_compute. discriminate. Qed.
Print Assumptions C85_mark_refuted.

(** --base "Turn off all addons" (main.go:115) only when it is written so: set by an environment variable it does nothing,
    and a template with this name does it. *)
Theorem C85_base_refuted : exists f g, f_base f = true /\ f_addons f = [] /\ (forall i, i < o_on_by_default_count -> oget (build_options f) i = true) /\
  f_base g = false /\ f_addons g = [] /\ (forall i, i < o_on_by_default_count -> oget (build_options g) i = false).
Proof.
  exists {| f_args := [$"gotemplate"]; f_version := false; f_list := false; f_base := true; f_addons := []; f_overwrite := false; f_print := false; f_disable := false;
     f_no_value := false; f_strict := false; f_source := []; f_target := []; f_recursive := false; f_depth := 0; f_links := false; f_stdin := false;
     f_patterns := []; f_excluded := []; f_substitutes := []; f_remove_empty := false; f_ignore_import := false; f_ignore_source := false; f_ignore_paths := false;
     f_templates := [] |},
    {| f_args := [$"gotemplate"; $"--"; $"--base"]; f_version := false; f_list := false; f_base := false; f_addons := []; f_overwrite := false; f_print := false; f_disable := false;
     f_no_value := false; f_strict := false; f_source := []; f_target := []; f_recursive := false; f_depth := 0; f_links := false; f_stdin := false;
     f_patterns := []; f_excluded := []; f_substitutes := []; f_remove_empty := false; f_ignore_import := false; f_ignore_source := false; f_ignore_paths := false;
     f_templates := [$"--base"] |}.
  assert (P : forall g b, forallb (fun i => Bool.eqb (oget (build_options g) i) b) (seq 0 11) = true -> forall i, i < o_on_by_default_count -> oget (build_options g) i = b).
  { intros g b Hb i Hi. rewrite forallb_forall in Hb. apply Bool.eqb_prop. apply Hb. apply in_seq. split; [apply PeanoNat.Nat.le_0_l|exact Hi]. }
  split; [reflexivity|]. split; [reflexivity|]. split; [apply P; reflexivity|]. split; [reflexivity|]. split; [reflexivity|]. apply P; reflexivity.
Qed.
Print Assumptions C85_base_refuted.
