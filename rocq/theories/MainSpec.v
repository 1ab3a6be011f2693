(** Vocabulary for the program. *)
From Coq Require Import String Ascii List ZArith NArith Bool.
From Verif Require Import GoStr ValueModel TemplateModel CliModel CliSpec MainModel.
Import ListNotations.

(** The source folder, and the target folder which defaults to it. *)
Definition source_of (w : world) (f : flags) : str := w_abs w (f_source f).
Definition target_is (w : world) (f : flags) (t : str) : Prop :=
  (f_target f <> [] /\ t = w_abs w (f_target f)) \/ (f_target f = [] /\ t = w_abs w (f_source f)).

(** Standard input is a template, unless it has been read for the variables. *)
Definition takes_stdin (w : world) (f : flags) : Prop := f_stdin f = true \/ w_piped w = true.

(** The patterns of the files that are looked for. *)
Definition looked_for (w : world) (f : flags) (q : str) : Prop :=
  wanted (f_patterns f) q \/ (~ takes_stdin w f /\ f_templates f = [] /\ In q [$"*.gt"; $"*.template"]).

(** How deep they are looked for. *)
Definition deep (f : flags) (d : Z) : Prop :=
  (f_depth f <> 0%Z -> d = f_depth f) /\ (f_depth f = 0%Z -> f_recursive f = false -> d = 0%Z) /\ (f_depth f = 0%Z -> f_recursive f = true -> d = 65536%Z).

(** An argument as the user has written it, and the template got from what kingpin has read. *)
Definition read_as (given read : str) : Prop := (exists r, given = $"@" ++ r /\ read = $"#!!" ++ given) \/ ((forall r, given <> $"@" ++ r) /\ read = given).

(** A template as it is handed over: relative to the source, when there is such a file. *)
Definition placed (w : world) (f : flags) (t t' : str) : Prop :=
  w_relative w (source_of w f) t = Some t' \/ (w_relative w (source_of w f) t = None /\ t' = t).

(** The file cannot be tested against the patterns. *)
Definition untestable (abs : str -> res str) (pm : str -> str -> res bool) (ps : list str) (f : str) : Prop :=
  (forall p, abs f <> Ok p) \/
  exists file q, abs f = Ok file /\ In q ps /\ forall b, ~ hit abs pm file q b.

(** The files left by the exclusions: [fine] if none of them raises an error, else those before the first one that does. *)
Definition left_over (abs : str -> res str) (pm : str -> str -> res bool) (ps files r : list str) (fine : bool) : Prop :=
  if fine then kept abs pm ps files r
  else exists before bad after, files = before ++ bad :: after /\ kept abs pm ps before r /\ untestable abs pm ps bad.

(** The options of the command line. *)
Definition option_flag (f : flags) (i : nat) : option bool :=
  if Nat.eqb i o_overwrite then Some (f_overwrite f) else if Nat.eqb i o_output_stdout then Some (f_print f) else
  if Nat.eqb i o_rendering_disabled then Some (f_disable f) else if Nat.eqb i o_accept_no_value then Some (f_no_value f) else
  if Nat.eqb i o_strict_error_check then Some (f_strict f) else None.

(** The templates handed over: the files found, then the arguments, without the excluded ones, and standard input; and the exit code. *)
Definition handed_over (w : world) (f : flags) (given : list str) (t content : str) (code : Z) (ts : list str) : Prop :=
  exists d pats found all left fine,
    deep f d /\ (forall q, In q pats <-> looked_for w f q) /\ w_find w (source_of w f) d (f_links f) pats = Ok found /\
    Forall2 (placed w f) (found ++ given) all /\
    ((forall q, ~ wanted (f_excluded f) q) /\ left = all /\ fine = true \/
     (exists q, wanted (f_excluded f) q) /\ exists ps, (forall q, In q ps <-> wanted (f_excluded f) q) /\ left_over (w_path w) (w_match w) ps all left fine) /\
    (takes_stdin w f -> content = [] -> ts = left ++ [w_stdin w]) /\
    (~ takes_stdin w f \/ content <> [] -> ts = left) /\
    code = match w_process w (build_options f) (source_of w f) t ts with Panic _ => (-1)%Z | Err _ => 1%Z | Ok _ => if fine then 0%Z else 1%Z end.
