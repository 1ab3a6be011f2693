(** C54: exclusion patterns.  C59: substitutions.  C63: wildcards in arguments. *)
From Coq Require Import String Ascii List ZArith NArith Bool.
From Verif Require Import GoStr ValueModel Utf8 QuoteSpec CliModel CliSpec CliProofs.
Import ListNotations.

(** ** C54 *)

(** What trimming means: it is the only decomposition into blanks, a text without blanks around it, and blanks. *)
Theorem C54_trim : forall s t, trimmed s t <-> t = trim_space s.
Proof. intros s t. split; [intro H; symmetry; apply trim_unique; exact H|intros ->; apply trim_trimmed]. Qed.
Print Assumptions C54_trim.

(** The patterns are the trimmed, non empty, comma separated pieces ... *)
Theorem C54_patterns : forall patterns q, In q (extend patterns) <-> wanted patterns q.
Proof. exact extend_wanted. Qed.
Print Assumptions C54_patterns.
(** ... in order. *)
Theorem C54_patterns_app : forall a b, extend (a ++ b) = extend a ++ extend b.
Proof. exact extend_app. Qed.
Print Assumptions C54_patterns_app.
Theorem C54_patterns_order : forall v ps ts, pieces v ps -> Forall2 trimmed ps ts ->
  extend [v] = filter (fun t => if list_eq_dec ascii_dec t [] then false else true) ts.
Proof. exact extend_one. Qed.
Print Assumptions C54_patterns_order.

(** Without pattern all the files are given back, even those without absolute path. *)
Theorem C54_no_pattern : forall abs pm files patterns, (forall q, ~ wanted patterns q) -> exclude abs pm files patterns = Ok files.
Proof. exact exclude_nothing. Qed.
Print Assumptions C54_no_pattern.

(** When no test fails, the files matched by no pattern are kept, in order. *)
Theorem C54_exclude : forall abs pm files patterns (m : str -> str -> bool) keep, (exists q, wanted patterns q) ->
  (forall f, In f files -> exists file, abs f = Ok file /\ forall q, wanted patterns q -> exists p, abs q = Ok p /\ pm p file = Ok (m q f)) ->
  (forall f, In f files -> (keep f = true <-> forall q, wanted patterns q -> m q f = false)) ->
  exclude abs pm files patterns = Ok (filter keep files).
Proof. exact exclude_total. Qed.
Print Assumptions C54_exclude.

(** In general, a kept file has been tested against every pattern, and a dropped file is matched by one. *)
Theorem C54_kept : forall abs pm files patterns r, (exists q, wanted patterns q) -> exclude abs pm files patterns = Ok r ->
  exists ps, (forall q, In q ps <-> wanted patterns q) /\ kept abs pm ps files r.
Proof. exact exclude_kept. Qed.
Print Assumptions C54_kept.

(** Prefixing with the current folder, and patterns ending with a star. *)
Definition abs0 (s : str) : res str := Ok (if has_prefix $"/" s then s else $"/w/" ++ s).
Definition pm0 (p f : str) : res bool :=
  match rev p with
  | "["%char :: _ => Err $"syntax error in pattern"
  | "*"%char :: q => Ok (has_prefix (rev q) f)
  | _ => Ok (str_eqb p f)
  end.
Example C54_example :
  exclude abs0 pm0 [$"a.txt"; $"b/c"; $"b"; $"/w/a.txt"; $"d"] [$" a.txt , ,"; $"/w/b/*"] = Ok [$"b"; $"d"] /\
  exclude abs0 pm0 [$"a.txt"; $"b/c"] [$" , "; $""] = Ok [$"a.txt"; $"b/c"] /\
  exclude abs0 pm0 [$"a"; $"b"] [$"a,["] = Err $"syntax error in pattern" /\
  extend [$"x, y y ,"; $" z"] = [$"x"; $"y y"; $"z"].
Proof. vm_compute. repeat split. Qed.

(** ** C59 *)

(** Three parts around the first character, of the trimmed text. *)
Theorem C59_replace : forall {RE} (compile : str -> option RE) s t c e r, trimmed s t -> ascii_char c -> substitution t c e r -> r <> $"d" ->
  init_replacer compile s = match compile e with Some re => Ok (re, r) | None => Panic $"regexp: Compile" end.
Proof. intros RE. exact init_replace. Qed.
Print Assumptions C59_replace.

(** A single d deletes ... *)
Theorem C59_delete : forall {RE} (compile : str -> option RE) s t c e, trimmed s t -> ascii_char c -> substitution t c e $"d" -> (forall a, e <> a ++ $"$") ->
  init_replacer compile s = match compile e with Some re => Ok (re, []) | None => Panic $"regexp: Compile" end.
Proof. intros RE. exact init_delete. Qed.
Print Assumptions C59_delete.

(** ... and with the end of line, if the expression ends with a dollar. *)
Theorem C59_delete_lines : forall {RE} (compile : str -> option RE) s t c e, trimmed s t -> ascii_char c -> substitution t c (e ++ $"$") $"d" ->
  init_replacer compile s =
  match compile (if has_prefix $"(?m)" (e ++ $"$\n") then e ++ $"$\n" else $"(?m)" ++ e ++ $"$\n") with
  | Some re => Ok (re, [])
  | None => Panic $"regexp: Compile"
  end.
Proof. intros RE. exact init_delete_lines. Qed.
Print Assumptions C59_delete_lines.

(** Anything else is refused. *)
Theorem C59_refuse : forall {RE} (compile : str -> option RE) s t c u, trimmed s t -> ascii_char c -> t = c :: u -> (forall e r, ~ substitution t c e r) ->
  init_replacer compile s = Panic $"Bad replacer".
Proof. intros RE. exact init_bad. Qed.
Print Assumptions C59_refuse.
Theorem C59_refuse_blank : forall {RE} (compile : str -> option RE) s, trimmed s [] -> init_replacer compile s = Panic $"Bad replacer".
Proof. intros RE. exact init_blank. Qed.
Print Assumptions C59_refuse_blank.

(** The separator has to be ASCII: the same three parts around an accented letter, one character of two bytes, are refused. *)
Theorem C59_separator_refuted : exists s ch e r,
  chunks ch = [(233%N, ch)] /\ s = ch ++ e ++ ch ++ r /\ trimmed s s /\ e <> [] /\ contains ch e = false /\ contains ch r = false /\
  init_replacer Some s = Panic $"Bad replacer".
Proof.
  exists ([ascii_of_N 195; ascii_of_N 169] ++ $"a" ++ [ascii_of_N 195; ascii_of_N 169] ++ $"b"), [ascii_of_N 195; ascii_of_N 169], $"a", $"b".
  split; [vm_compute; reflexivity|]. split; [reflexivity|]. split; [apply C54_trim; vm_compute; reflexivity|]. vm_compute. repeat split. discriminate.
Qed.
Print Assumptions C59_separator_refuted.

(** With another first byte, the separator is the character whose code point is that byte, and what comes
    before the first one is ignored. *)
Theorem C59_latin : forall {RE} (compile : str -> option RE) s t c u a e r, trimmed s t -> ~ ascii_char c -> t = c :: u ->
  t = a ++ utf8 (N_of_ascii c) ++ e ++ utf8 (N_of_ascii c) ++ r ->
  contains (utf8 (N_of_ascii c)) a = false -> contains (utf8 (N_of_ascii c)) e = false -> contains (utf8 (N_of_ascii c)) r = false -> e <> [] -> r <> $"d" ->
  init_replacer compile s = match compile e with Some re => Ok (re, r) | None => Panic $"regexp: Compile" end.
Proof. intros RE. exact init_latin. Qed.
Print Assumptions C59_latin.
(** The first byte of e with an acute accent is 195, and the code point 195 is A with a tilde. *)
Example C59_latin_ex : init_replacer Some (utf8 233 ++ utf8 195 ++ $"a" ++ utf8 195 ++ $"b") = Ok ($"a", $"b") /\ init_replacer Some (utf8 195 ++ $"a" ++ utf8 195 ++ $"b") = Ok ($"a", $"b").
Proof. vm_compute. auto. Qed.

(** All the substitutions are accepted or none. *)
Theorem C59_all : forall {RE} (compile : str -> option RE) rs xs,
  init_replacers compile rs = Ok xs <-> Forall2 (fun r x => init_replacer compile r = Ok x) rs xs.
Proof. intros RE. exact init_all. Qed.
Print Assumptions C59_all.

(** They are applied in order, each on the result of the previous ones. *)
Theorem C59_order : forall {RE} (replace : RE -> str -> str -> str) a re r b content,
  substitute replace content (a ++ (re, r) :: b) = substitute replace (replace re (substitute replace content a) r) b /\
  substitute replace content [] = content.
Proof. intros RE replace a re r b content. rewrite substitute_app. split; reflexivity. Qed.
Print Assumptions C59_order.
Example C59_example :
  let rep := fun re content r => replace_all re r content in
  init_replacers Some [$"/foo/bar/"; $"/x/y"] = Panic $"Bad replacer" /\
  init_replacers Some [$"//y"] = Panic $"Bad replacer" /\
  init_replacers Some [$" /a b/b/ "; $"/x/y"] = Panic $"Bad replacer" /\
  init_replacers Some [$" |^a.*$|d "; $"/b/c"; $",b,d"; $"/(?m)x$/d"; $"/y/"] =
    Ok [($"(?m)^a.*$\n", []); ($"b", $"c"); ($"b", []); ($"(?m)x$\n", []); ($"y", [])] /\
  match init_replacers Some [$"/a/b"; $"/b/c"; $"/x/d"] with Ok rs => substitute rep $"axbx" rs = $"cc" | _ => False end.
Proof. vm_compute. repeat split. Qed.

(** ** C63 *)

(** Each argument is replaced by its matches, if it has wildcards and matches, and otherwise kept, or dropped if asked. *)
Theorem C63_one : forall glob trim a,
  (~ wild a -> glob_func glob trim [a] = [a]) /\
  (wild a -> forall l, glob a = Some l -> glob_func glob trim [a] = l) /\
  (wild a -> glob a = None -> glob_func glob trim [a] = if trim then [] else [a]).
Proof. exact glob_one. Qed.
Print Assumptions C63_one.
Theorem C63_order : forall glob trim a b, glob_func glob trim (a ++ b) = glob_func glob trim a ++ glob_func glob trim b /\ glob_func glob trim [] = [].
Proof. intros glob trim a b. split; [apply glob_app|reflexivity]. Qed.
Print Assumptions C63_order.
Example C63_example :
  let glob := fun p => if str_eqb p $"*.go" then Some [$"a.go"; $"b.go"] else None in
  glob_func glob false [$"x"; $"*.go"; $"?"; $"y"] = [$"x"; $"a.go"; $"b.go"; $"?"; $"y"] /\
  glob_func glob true [$"x"; $"*.go"; $"?"; $"y"] = [$"x"; $"a.go"; $"b.go"; $"y"].
Proof. vm_compute. repeat split. Qed.
