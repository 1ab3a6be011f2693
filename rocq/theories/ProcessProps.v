(** C39: paused sections.  C40: failed renderings.  C41: strict files. *)
From Coq Require Import String Ascii List ZArith NArith Bool Arith.
From Verif Require Import GoStr TemplateModel TemplateSpec PathModel ProcessModel ProcessSpec PauseProofs ProcessProofs.
Import ListNotations.

(** An engine for examples: x is 1, y is undefined, bad fails and is reported, worse stops everything. *)
Definition engine0 : Engine := {|
  state := nat;
  substitute := fun s => s;
  rewrite_razor := replace_all $"@" $"";
  run_engine := fun st try file code =>
    (S st, if contains $"{{worse}}" code then Err $"worse" else if contains $"{{bad}}" code then Err $"bad"
           else Ok (replace_all $"{{y}}" $"<no value>" (replace_all $"{{x}}" $"1" code)));
  diagnose := fun file lines code e => if str_eqb e $"bad" then Again (replace_all $"{{bad}}" $"ERROR" code) (Some $"bad is bad") else Stop $"worse is worse";
  highlight := fun s => s; numbered := fun s => s; unable_text := $"Unable to continue"
|}.

(** ** C39 *)

(** Paused lines have no delimiter, the others are not altered, and all are restored. *)
Theorem C39_lines : forall d lines, ordinary_delims d -> lines <> [] -> Forall (fun l => ~ In NL l) lines ->
  exists lines', hide d (join [NL] lines) = join [NL] lines' /\ List.length lines' = List.length lines /\
  forall i, i < List.length lines ->
    (code_paused lines i -> ~ holds (nth i lines' []) (left_delim d) /\ ~ holds (nth i lines' []) (right_delim d) /\ ~ holds (nth i lines' []) (razor_delim d)) /\
    (razor_paused lines i -> ~ holds (nth i lines' []) (razor_delim d)) /\
    (~ code_paused lines i -> ~ razor_paused lines i \/ ~ holds (nth i lines []) (razor_delim d) -> nth i lines' [] = nth i lines []) /\
    (~ holds (nth i lines []) $"&paused-" -> revert d (nth i lines' []) = nth i lines []).
Proof. exact hide_lines. Qed.
Print Assumptions C39_lines.
(** Lines of the output are restored one by one. *)
Theorem C39_revert : forall d lines, lines <> [] -> revert d (join [NL] lines) = join [NL] (map (revert d) lines).
Proof. exact revert_join. Qed.
Print Assumptions C39_revert.
(** A document in which all code is paused is left as it is, whatever the engine. *)
Theorem C39_document : forall {G : Engine} stack o d st file lines, let source := join [NL] lines in
  ordinary_delims d -> ~ In NL (left_delim d ++ right_delim d ++ razor_delim d) -> lines <> [] -> Forall (fun l => ~ In NL l) lines ->
  substitute source = source -> ~ (exists r, source = $"#!" ++ r) ->
  (forall i, i < List.length lines -> ~ holds (nth i lines []) $"&paused-" /\
     (code_paused lines i \/ (~ holds (nth i lines []) (left_delim d) /\ ~ holds (nth i lines []) (right_delim d) /\ ~ holds (nth i lines []) (razor_delim d)))) ->
  process_content stack o d st file source = (o, st, Ok (source, false, None)).
Proof. exact @process_paused. Qed.
Print Assumptions C39_document.
Theorem C39_default : ordinary_delims default_delims.
Proof. repeat split; try discriminate; intros c I J; cbn in I, J; intuition (subst; discriminate). Qed.
Print Assumptions C39_default.
(** Other delimiters, and lines with an internal word, are not restored. *)
Theorem C39_custom_refuted : exists d line, revert d (hide d line) <> line /\ ~ holds line $"&paused-".
Proof.
  exists {| left_delim := $"%"; right_delim := $"$"; razor_delim := $"@" |}, $"gotemplate-pause! %x$". split; [vm_compute; discriminate|]. apply TemplateProofs.holds_not. reflexivity.
Qed.
Print Assumptions C39_custom_refuted.
Theorem C39_word_refuted : exists line, revert default_delims (hide default_delims line) <> line.
Proof. exists $"gotemplate-pause! $&paused-left&$". vm_compute. discriminate. Qed.
Print Assumptions C39_word_refuted.

Example C39_example :
  let G := engine0 in let doc := join [NL] [$"a {{x}}"; $"# gotemplate-pause!"; $"b {{x}} @x"; $"# gotemplate-resume!"; $"c {{x}} @{{x}}"; $"razor-pause! {{x}} @x"; $"razor-resume! @{{x}}"] in
  hide default_delims doc = join [NL] [$"a {{x}}"; $"# gotemplate-pause!"; $"b $&paused-left&$x$&paused-right&$ $&paused-razor&$x"; $"# gotemplate-resume!"; $"c {{x}} @{{x}}"; $"razor-pause! {{x}} $&paused-razor&$x"; $"razor-resume! @{{x}}"] /\
  snd (process_content 5 default_options default_delims 0 $"f.txt" doc) =
    Ok (join [NL] [$"a 1"; $"# gotemplate-pause!"; $"b {{x}} @x"; $"# gotemplate-resume!"; $"c 1 1"; $"razor-pause! 1 @x"; $"razor-resume! 1"], true, None).
Proof. vm_compute. split; reflexivity. Qed.

(** ** C40 *)

(** Errors met while rendering are all reported when the file is strict; otherwise the source is left alone. *)
Theorem C40_failed : forall {G : Engine} stack o d st file source code script o' st' result changed err,
  prepare o d source = (code, script) -> oget o o_rendering_disabled = false -> is_code d code = true ->
  process_content stack o d st file source = (o', st', Ok (result, changed, err)) ->
  exists out errs, ends_with file (split [NL] source) 0 st (if oget o o_accept_no_value then code else protect_values code) st' out errs /\
    (errs <> [] -> strict o file source -> exists e, err = Some e /\ Forall (holds e) errs) /\
    (errs <> [] -> ~ strict o file source -> result = source /\ changed = false /\ err = None).
Proof. exact @process_failed. Qed.
Print Assumptions C40_failed.
(** The rendering ends, with enough stack, when the attempts do. *)
Theorem C40_ends : forall {G : Engine} o d st file source code script st' out errs,
  prepare o d source = (code, script) -> oget o o_rendering_disabled = false -> is_code d code = true ->
  ends_with file (split [NL] source) 0 st (if oget o o_accept_no_value then code else protect_values code) st' out errs ->
  exists N, forall stack, N <= stack -> exists o' result changed err, process_content stack o d st file source = (o', st', Ok (result, changed, err)).
Proof. exact @process_ends. Qed.
Print Assumptions C40_ends.
Theorem C40_lenient : forall {G : Engine} stack o d st file source o' st' result changed err,
  ~ strict o file source -> process_content stack o d st file source = (o', st', Ok (result, changed, err)) -> err = None.
Proof. exact @process_no_error. Qed.
Print Assumptions C40_lenient.
(** When the first attempt succeeds, undefined values are errors unless they are accepted. *)
Theorem C40_first : forall {G : Engine} stack o d st file source code script st' out,
  prepare o d source = (code, script) -> oget o o_rendering_disabled = false -> is_code d code = true ->
  run_engine st 0 file (if oget o o_accept_no_value then code else protect_values code) = (st', Ok out) ->
  let text := revert_if (pausing source) d (substitute out) in
  let '(_, st2, r) := process_content (S stack) o d st file source in st2 = st' /\
  (oget o o_accept_no_value = true -> r = Ok (text, negb (str_eqb text source), None)) /\
  (oget o o_accept_no_value = false -> ~ undefined_value text -> r = Ok (restore_values text, negb (str_eqb (restore_values text) source), None)) /\
  (oget o o_accept_no_value = false -> undefined_value text -> strict o file source ->
    let result := restore_values (highlight text) in
    r = Ok (result, negb (str_eqb result source), Some ($"template: " ++ file ++ $":: contains undefined value(s)" ++ [NL] ++ numbered result))) /\
  (oget o o_accept_no_value = false -> undefined_value text -> ~ strict o file source -> r = Ok (source, false, None)).
Proof. exact @process_first. Qed.
Print Assumptions C40_first.
(** Texts that look like undefined values in the source are put aside and restored ... *)
Theorem C40_values : forall s, ~ holds s $"_VALUE" -> restore_values (protect_values s) = s.
Proof. intros s H. apply values_back. apply TemplateProofs.holds_not. exact H. Qed.
Print Assumptions C40_values.
Theorem C40_values_hidden : forall s, ~ undefined_value (protect_values s).
Proof. exact protect_hides. Qed.
Print Assumptions C40_values_hidden.
(** ... but not the texts used to put them aside. *)
Theorem C40_values_refuted : restore_values (protect_values $"!NO_VALUE!") = $"<no value>" /\ restore_values (protect_values $"<nil>NO_VALUE<nil>") = $"!NIL_VALUE<no value>NIL_VALUE!".
Proof. vm_compute. split; reflexivity. Qed.
Print Assumptions C40_values_refuted.
(** When the handler of errors gives up at the first attempt there is no result: strict files report the error and an
    empty text. *)
Theorem C40_stopped : forall {G : Engine} stack o d st file source code script st' e e',
  prepare o d source = (code, script) -> oget o o_rendering_disabled = false -> is_code d code = true ->
  let first := if oget o o_accept_no_value then code else protect_values code in
  run_engine st 0 file first = (st', Err e) -> diagnose file (split [NL] source) first e = Stop e' ->
  exists o', process_content (S stack) o d st file source = (o', st', Ok (if is_strict o file source then ([], true, Some e') else (source, false, None))).
Proof.
  intros G stack o d st file source code script st' e e' P D C first R X. unfold process_content. rewrite P.
  assert (DD : oget (if script then oset o o_output_stdout true else o) o_rendering_disabled = false).
  { rewrite oget_script by discriminate. exact D. }
  assert (AA : oget (if script then oset o o_output_stdout true else o) o_accept_no_value = oget o o_accept_no_value) by (apply oget_script; discriminate).
  assert (ST : is_strict (if script then oset o o_output_stdout true else o) file source = is_strict o file source) by (unfold is_strict; rewrite oget_script by discriminate; reflexivity).
  exists (if script then oset o o_output_stdout true else o). rewrite DD, AA, ST, C. cbn [orb negb]. cbn [attempt]. fold first. rewrite R, X.
  destruct (is_strict o file source); reflexivity.
Qed.
Print Assumptions C40_stopped.
(** A handler has the last word on the text and the error; a change is reported when the rendering or the handler changed something. *)
Theorem C40_handler : forall {G : Engine} (h : custom_handler) stack o d st file source o' st' text changed err st2 text2 changed2 err2,
  process_content stack o d st file source = (o', st', Ok (text, changed, err)) -> h st' file source (text, changed, err) = (st2, (text2, changed2, err2)) ->
  exists any, process_with (Some h) stack o d st file source = (o', st2, Ok (text2, any, err2)) /\ (any = true <-> changed = true \/ changed2 = true) /\
  process_with None stack o d st file source = (o', st', Ok (text, changed, err)).
Proof.
  intros G h stack o d st file source o' st' text changed err st2 text2 changed2 err2 P H. exists (changed || changed2). unfold process_with. rewrite P, H.
  split; [reflexivity|]. split; [apply orb_true_iff | reflexivity].
Qed.
Print Assumptions C40_handler.
(** A text without code is reported unchanged ... *)
Theorem C40_plain : forall {G : Engine} stack o d st file source,
  let text := substitute source in
  ~ (exists r, text = $"#!" ++ r) -> ~ holds source $"gotemplate-pause!" -> ~ holds source $"razor-pause!" ->
  (holds text $"no-gotemplate!" \/ (~ holds text (left_delim d) /\ ~ holds text (right_delim d) /\ ~ holds text (razor_delim d))) ->
  process_content stack o d st file source = (o, st, Ok (text, false, None)).
Proof. exact @process_plain. Qed.
Print Assumptions C40_plain.
(** ... even when it was changed by the substitutions. *)
Theorem C40_changed_refuted : exists (G : Engine) stack o d st file source result,
  snd (process_content stack o d st file source) = Ok (result, false, None) /\ result <> source.
Proof.
  exists {| state := nat; substitute := replace_all $"a" $"b"; rewrite_razor := fun s => s; run_engine := fun st _ _ code => (st, Ok code); diagnose := fun _ _ _ e => Stop e; highlight := fun s => s; numbered := fun s => s; unable_text := $"" |}.
  exists 1, default_options, default_delims, 0, $"f", $"a text", $"b text". split; [vm_compute; reflexivity|discriminate].
Qed.
Print Assumptions C40_changed_refuted.
(** A script of gotemplate loses its first line and is printed; no other option changes. *)
Theorem C40_script : forall first rest, ~ In NL first ->
  strip_shebang ($"#!" ++ first ++ NL :: rest) = (if contains $"gotemplate" ($"#!" ++ first) then rest else $"#!" ++ first ++ NL :: rest, contains $"gotemplate" ($"#!" ++ first)).
Proof. exact script_first. Qed.
Print Assumptions C40_script.
Theorem C40_options : forall {G : Engine} stack o d st file source o' st' r k,
  process_content stack o d st file source = (o', st', r) -> oget o' k = oget o k \/ (k = o_output_stdout /\ oget o' k = true /\ exists x, substitute source = $"#!" ++ x).
Proof. exact @process_options. Qed.
Print Assumptions C40_options.

Example C40_example :
  let G := engine0 in let run file doc := snd (process_content 5 default_options default_delims 0 file doc) in
  run $"f.txt" $"a {{x}}" = Ok ($"a 1", true, None) /\
  run $"f.txt" $"a {{worse}}" = Ok ($"a {{worse}}", false, None) /\
  run $"f.gt" $"a {{worse}}" = Ok ($"", true, Some $"worse is worse") /\
  run $"f.gt" $"a {{bad}} {{x}}" = Ok ($"a ERROR 1", true, Some $"bad is bad") /\
  run $"f.txt" $"a {{y}}" = Ok ($"a {{y}}", false, None) /\
  run $"f.txt" $"<nil> {{x}} <no value>" = Ok ($"<nil> 1 <no value>", true, None) /\
  run $"f.template" $"{{y}}" = Ok ($"<no value>", true, Some ($"template: f.template:: contains undefined value(s)" ++ NL :: $"<no value>")) /\
  run $"f" ($"#!/usr/bin/env gotemplate" ++ NL :: $"{{x}}") = Ok ($"1", true, None).
Proof. vm_compute. repeat split. Qed.

(** ** C41 *)

Theorem C41_strict : forall o file source, is_strict o file source = true <->
  oget o o_strict_error_check = true \/ holds source $"force-gotemplate!" \/ exists e, extension file e /\ In e
    [$".gt"; $".gte"; $".template"; $"."; $".g"; $".gt,"; $".gte,"; $".t"; $".te"; $".tem"; $".temp"; $".templ"; $".templa"; $".templat"].
Proof. exact strict_exact. Qed.
Print Assumptions C41_strict.
(** Only three of them were meant. *)
Theorem C41_meant_refuted : exists file, is_strict default_options file $"" = true /\ ~ extension file $".gt" /\ ~ extension file $".gte" /\ ~ extension file $".template".
Proof.
  exists $"a.te". split; [vm_compute; reflexivity|]. repeat split; intro X; apply TemplateProofs.ext_unique in X; vm_compute in X; discriminate.
Qed.
Print Assumptions C41_meant_refuted.

Example C41_example :
  is_strict default_options $"a/b.gt" $"" = true /\ is_strict default_options $"a.gt/b" $"" = false /\ is_strict default_options $"x.gt.txt" $"" = false /\
  is_strict default_options $"x.txt" $"# force-gotemplate!" = true /\ is_strict (opt_set default_options true [o_strict_error_check]) $"x" $"" = true /\ is_strict default_options $"x.temp" $"" = true.
Proof. vm_compute. repeat split. Qed.
