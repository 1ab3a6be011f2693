(** Rendering of one content: processContentInternal and the retries of its error handler.
    template/template_handler.go:136-282, template/template_error_handler.go:24-183.

    The text/template engine, the razor rewriting, the substitutions, the analysis of error messages
    and the colours are arbitrary functions.  The engine does not change the options of the template. *)
From Coq Require Import String Ascii List ZArith NArith Bool Arith.
From Verif Require Import GoStr TemplateModel PathModel.
Import ListNotations.

(** ** Constants *)

(** template.go:58-64 *)
Definition explicit_go_template : str := $"force-gotemplate!".
Definition pause_go_template : str := $"gotemplate-pause!".
Definition resume_go_template : str := $"gotemplate-resume!".
Definition pause_razor : str := $"razor-pause!".
Definition resume_razor : str := $"razor-resume!".
(** template_process.go:18-21 *)
Definition no_value : str := $"<no value>".
Definition no_value_repl : str := $"!NO_VALUE!".
Definition nil_value : str := $"<nil>".
Definition nil_value_repl : str := $"!NIL_VALUE!".
(** template_handler.go:151 *)
Definition left_repl : str := $"$&paused-left&$".
Definition right_repl : str := $"$&paused-right&$".
Definition razor_repl : str := $"$&paused-razor&$".

(** ** Paused sections *)

(** template_handler.go:148 *)
Definition pausing (content : str) : bool := contains pause_go_template content || contains pause_razor content.
(** revertReplacements: template_handler.go:152-159, once pausing is enabled *)
Definition revert (d : delims) (s : str) : str :=
  replace_all razor_repl (razor_delim d) (replace_all right_repl (right_delim d) (replace_all left_repl (left_delim d) s)).
Definition revert_if (p : bool) (d : delims) (s : str) : str := if p then revert d s else s.

(** The body of the loop: template_handler.go:185-193 *)
Definition pause_step (d : delims) (go raz : bool) (line : str) : bool * bool * str :=
  let go := (go || contains pause_go_template line) && negb (contains resume_go_template line) in
  let raz := (raz || contains pause_razor line) && negb (contains resume_razor line) in
  let line := if raz || go then replace_all (razor_delim d) razor_repl line else line in
  let line := if go then replace_all (right_delim d) right_repl (replace_all (left_delim d) left_repl line) else line in
  (go, raz, line).
Fixpoint pause_lines (d : delims) (go raz : bool) (lines : list str) : list str :=
  match lines with
  | [] => []
  | l :: lines' => let '(go, raz, l) := pause_step d go raz l in l :: pause_lines d go raz lines'
  end.
(** template_handler.go:181-196 *)
Definition hide (d : delims) (code : str) : str := join [NL] (pause_lines d false false (split [NL] code)).

(** ** Preparation *)

(** template_handler.go:172-179: the code, and whether the output option is switched on *)
Definition strip_shebang (code : str) : str * bool :=
  if has_prefix $"#!" code then
    match split [NL] code with
    | first :: rest => if contains $"gotemplate" first then (join [NL] rest, true) else (code, false)
    | [] => (code, false)
    end
  else (code, false).

(** template_handler.go:210-214 *)
Definition protect_values (s : str) : str := replace_all nil_value nil_value_repl (replace_all no_value no_value_repl s).
(** template_handler.go:269 *)
Definition restore_values (s : str) : str := replace_all nil_value_repl nil_value (replace_all no_value_repl no_value s).

(** template_handler.go:222-225 *)
Definition is_strict (o : optset) (file source : str) : bool :=
  oget o o_strict_error_check || contains explicit_go_template source ||
  (negb (str_eqb (path_ext file) []) && contains (path_ext file) $".gt,.gte,.template").

(** ** Rendering *)

(** What the error handler decides (template_error_handler.go:24-180): give up with an error, try again
    with another code, or panic (for instance when the error is after the last line of the source). *)
Inductive diag := Stop (e : str) | Again (code : str) (e : option str) | Boom (e : str).

(** template_error_handler.go:164-175 *)
Definition merge_errors (unable : str) (e1 e2 : option str) : option str :=
  match e2, e1 with
  | None, _ => e1
  | Some y, None => Some y
  | Some y, Some x => Some (x ++ [NL] ++ if str_eqb x y then unable else y)
  end.

(** Result, changed, error *)
Definition rendering : Type := str * bool * option str.

(** Everything that is not modelled. *)
Class Engine := {
  state : Type;                                                    (* contexts, templates *)
  substitute : str -> str;                                         (* add_funcs.go:53, see C59 *)
  rewrite_razor : str -> str;                                      (* razor.go:17-46 *)
  run_engine : state -> nat -> str -> str -> state * res str;      (* state, try, file, code *)
  diagnose : str -> list str -> str -> str -> diag;                (* file, lines of the source, code, error *)
  highlight : str -> str;                                          (* template_handler.go:261-266 *)
  numbered : str -> str;                                           (* AddLineNumber, HiBlackString *)
  unable_text : str
}.

Section WithEngine.
Context {G : Engine}.

(** applyRazor: razor.go:13-16 *)
Definition apply_razor (o : optset) (d : delims) (s : str) : str :=
  if oget o o_razor && is_razor d s then rewrite_razor s else s.

(** The code that is rendered, and whether it comes from a gotemplate script: template_handler.go:170-200 *)
Definition prepare (o : optset) (d : delims) (source : str) : str * bool :=
  let '(code, script) := strip_shebang (substitute source) in
  let code := if pausing source then hide d code else code in
  (apply_razor o d code, script).

(** The detection of undefined values: template_handler.go:255-276 *)
Definition check_values (file result : str) : str * option str :=
  let found := Nat.ltb 0 (count_sub no_value (replace_all nil_value no_value result)) in
  let s := restore_values (if found then highlight result else result) in
  (s, if found then Some ($"template: " ++ file ++ $":: contains undefined value(s)" ++ [NL] ++ numbered s) else None).

(** One attempt and the following ones: template_handler.go:234-281.  [check]: undefined values are looked
    for, in the first attempt only.  The number of attempts is bounded by the stack. *)
Fixpoint attempt (stack : nat) (d : delims) (st : state) (file : str) (lines : list str) (check : bool) (try : nat) (original code : str) : state * res rendering :=
  match stack with
  | O => (st, Panic $"stack overflow")
  | S stack' =>
      let '(st, r) := run_engine st try file code in
      match r with
      | Panic m => (st, Panic m)
      | Ok out =>
          let result := revert_if (pausing original) d (substitute out) in
          let '(result, err) := if check then check_values file result else (result, None) in
          (st, Ok (result, negb (str_eqb result original), err))
      | Err e =>
          match diagnose file lines code e with
          | Boom m => (st, Panic m)
          | Stop e => (st, Ok ([], true, Some e))
          | Again code' e1 =>
              let '(st, r) := attempt stack' d st file lines false (S try) code' code' in
              match r with
              | Ok (result, changed, e2) => (st, Ok (result, changed, merge_errors unable_text e1 e2))
              | Err e => (st, Err e)
              | Panic m => (st, Panic m)
              end
          end
      end
  end.

(** The whole: template_handler.go:136-282 without handler.  The options only change by OutputStdout. *)
Definition process_content (stack : nat) (o : optset) (d : delims) (st : state) (file source : str) : optset * state * res rendering :=
  let '(code, script) := prepare o d source in
  let o := if script then oset o o_output_stdout true else o in
  if oget o o_rendering_disabled || negb (is_code d code) then (o, st, Ok (revert_if (pausing source) d code, false, None))
  else
    let code := if oget o o_accept_no_value then code else protect_values code in
    let '(st, r) := attempt stack d st file (split [NL] source) (negb (oget o o_accept_no_value)) 0 source code in
    match r with
    | Ok (result, changed, Some e) => if is_strict o file source then (o, st, Ok (result, changed, Some e)) else (o, st, Ok (source, false, None))
    | r => (o, st, r)
    end.

(** CustomHandler: template_handler.go:18, 163-167; not modelled when the rendering panics. *)
Definition custom_handler : Type := state -> str -> str -> rendering -> state * (str * bool * option str).
Definition process_with (h : option custom_handler) (stack : nat) (o : optset) (d : delims) (st : state) (file source : str) : optset * state * res rendering :=
  let '(o, st, r) := process_content stack o d st file source in
  match h, r with
  | Some h, Ok (result, changed, err) =>
      let '(st, (result, by_handler, err)) := h st file source (result, changed, err) in
      (o, st, Ok (result, changed || by_handler, err))
  | _, _ => (o, st, r)
  end.
End WithEngine.
