(** The functions that compute replacements of razor expressions, assignments and automatic wrapping:
    template/razor_repl_expr.go, razor_repl_assign.go, razor_repl_autowrap.go. *)
From Coq Require Import String Ascii List ZArith NArith Bool.
From Verif Require Import GoStr QuoteModel TemplateModel TextModel RazorExprModel RazorWordsModel ReModel ReSyntaxModel RazorTableModel.
Import ListNotations.

(** AssignationValidationType: template/razor_repl_assign.go:87-99 *)
Inductive validation := NoValidation | WarnValidation | StrictValidation.

(** literalAt: template/razor_repl_expr.go:16 *)
Definition literal_at : str := $"_=!AT!=_".
(** The characters of an assignment operator before the equal sign: template/razor_repl_assign.go:46 *)
Definition operator_of (assign : str) : str := removelast assign.
(** The part of a text before its last dot and the part after it: strings.Split, strings.Join in
    template/razor_repl_assign.go:63-65 *)
Definition object_of (id : str) : str := join $"." (removelast (split $"." id)).
Definition field_of (id : str) : str := last (split $"." id) [].

Section Parsers.
(** The class of letters beyond ASCII *)
Variable beyond : N -> bool.
(** The orders in which the maps are visited: template/razor_repl_expr.go:69, 73-81, 83 *)
Variables words signs opers : list (str * str).
(** parser.ParseExpr of go/parser; None is an error. *)
Variable parse : str -> option expr.
(** StrictAssignationMode: template/razor_repl_assign.go:99 *)
Variable mode : validation.
Context {P : PrintEnv}.

(** regexp.MustCompile in variables of the package *)
Definition must_compile (s : str) : compiled :=
  match compile beyond s with Some c => c | None => {| c_re := RNil; c_names := [] |} end.
(** dotPrefix: template/razor_repl_expr.go:39; negativeSlice: 171; the expression of exprRepl: 157-161 *)
Definition dot_prefix : compiled := must_compile $"(?P<prefix>^|[^\w\)\]])\.(?P<value>\w[\w\.]*)?".
Definition negative_slice : compiled := must_compile $"\[(?P<index>-\d+):]".
Definition expr_re : compiled := must_compile $"(?P<expr>.*)".

(** Regexp.ReplaceAllString *)
Definition replace_all_string (c : compiled) (repl s : str) : str :=
  replace_re (c_re c) (fun m g => expand (named_group (c_names c) m g) repl) s.
(** reutils.MultiMatch with one expression: the named groups of the first match *)
Definition multi_match (c : compiled) (s : str) (name : str) : str :=
  match search (List.length s) (c_re c) (None, s) with
  | Some (_, a, b, g) => named_group (c_names c) (taken a b) g name
  | None => []
  end.

(** indexExpression: template/razor_repl_expr.go:163-169 *)
Definition index_expression (s : str) : str :=
  let s := replace_all_string negative_slice $"[${index}:0]" s in
  let s := replace_all $"[]" $"[0:-1]" s in
  let s := replace_all $"[:" $"[0:" s in
  replace_all $":]" $":-1]" s.

(** The Go expression that is parsed: template/razor_repl_expr.go:62-91 *)
Definition go_text (expression : str) : res str :=
  let '(protected, strings) := protect expression in
  let strings := map (replace_all $"@" literal_at) strings in
  let protected := protect_words words protected in
  let protected := replace_all_string dot_prefix $"${prefix}__DoTPrefix__${value}" protected in
  let protected := replace_each signs protected in
  let protected := replace_each opers protected in
  restore (index_expression protected) strings.

(** The replacement of the expression: template/razor_repl_expr.go:120-146.  The boolean tells whether an error is
    returned; an error of nodeValue is not, its variable is another one than the one of line 144 (line 128). *)
Definition put_expr (c : compiled) (replace m result : str) : str :=
  replace_all $"$.slice " $"slice $." (replace_all_string c (replace_all $"${expr}" (restore_words result) replace) m).
Definition put_parsed (c : compiled) (replace m : str) (skip internal : bool) (expression expr : str) : res (str * bool) :=
  match expr with
  | [] => Ok (replace_all_string c replace m, false)
  | _ =>
      let failed err :=
        Ok (if skip then (m, err)
            else (replace_all_string c (replace_all $"${expr}" (replace_all $"$" $"$$" expression) replace) m, false)) in
      match parse expr with
      | None => failed true
      | Some tree =>
          match (if internal then node_value_internal tree else node_value tree) with
          | Ok result => Ok (put_expr c replace m result, false)
          | Err _ => failed false
          | Panic e => Panic e
          end
      end
  end.

(** expressionParserInternal with exprRepl, skipError: template/razor_repl_expr.go:51-153.  The expression has no other
    group than expr. *)
Definition translate (internal : bool) (s : str) : res (str * bool) :=
  let expression := multi_match expr_re s $"expr" in
  do expr <- match expression with [] => Ok [] | _ => go_text expression end;
  put_parsed expr_re $"${expr}" s true internal expression expr.

(** The parts of an index: template/razor_repl_expr.go:93-112; None where an error is returned. *)
Fixpoint translate_all (l : list str) : res (option (list str)) :=
  match l with
  | [] => Ok (Some [])
  | s :: l =>
      do x <- translate true s;
      let '(s, err) := x in
      if err then Ok None
      else do y <- translate_all l; Ok (option_map (cons s) y)
  end.
Definition inner (s : str) : str := removelast (tl s).
Definition put_index (replace index : str) : res (option str) :=
  let index := inner (index_expression index) in
  let '(sep, slicer) := if contains $":" index then ($":", $"slice") else ($",", $"extract") in
  do values <- translate_all (split sep index);
  Ok (option_map (fun values =>
        let index := replace_all $"$" $"$$" (join $" " values) in
        replace_all $"${slicer}" slicer (replace_all $"${index}" index replace)) values).

(** expressionParserInternal: template/razor_repl_expr.go:51-153, without the messages *)
Definition parse_expression (r : replacement) (m : str) (skip : bool) : res str :=
  let group := multi_match (r_re r) m in
  let expression := group $"expr" in
  do expr <- match expression with [] => Ok [] | _ => go_text expression end;
  do replace <- match group $"index" with [] => Ok (Some (r_replace r)) | index => put_index (r_replace r) index end;
  match replace with
  | None => Ok m
  | Some replace =>
      do replace <- match group $"selection" with
                    | [] => Ok (Some replace)
                    | selection =>
                        do x <- translate true selection;
                        let '(s, err) := x in
                        Ok (if err then None else Some (replace_all $"${selection}" s replace))
                    end;
      match replace with
      | None => Ok m
      | Some replace => do x <- put_parsed (r_re r) replace m skip false expression expr; Ok (fst x)
      end
  end.

(** What the operator of a compound assignment becomes: template/razor_repl_assign.go:42-55 *)
Definition is_simple (assign : str) : bool := str_eqb assign $":=" || str_eqb assign $"=".
Definition target_value (tp id : str) : str :=
  (if str_eqb tp $"@" then $"$." else if str_eqb tp $"@." then $"." else if str_eqb tp $"@$" then $"$" else []) ++ id.
Definition combined (tp id operator expr : str) : str :=
  (if str_eqb tp $"@{" then $"$" ++ id else target_value tp id) ++ $" " ++ operator ++ $" (" ++ expr ++ $")".

(** The text of an assignment: template/razor_repl_assign.go:29-84 from the values of the groups on; [m] is the match *)
Definition write_assign (d : delims) (m tp id assign expr : str) (accept : bool) : res str :=
  let open := left_delim d in
  let close := right_delim d in
  let global := str_eqb tp $"@$." || str_eqb tp $"@" || str_eqb tp $"@." in
  let internal := if str_eqb tp $"@{" || str_eqb tp $"@$" then contains $"." id else true in
  let tp := if str_eqb tp $"@$." then $"@" else tp in
  let expr := if is_simple assign then expr else combined tp id (operator_of assign) expr in
  let assign := if is_simple assign then assign else $"=" in
  do x <- translate internal expr;
  let '(expr, err) := x in
  if err && negb accept then Ok m
  else if negb global && negb internal then Ok (open ++ $"- $" ++ id ++ $" " ++ assign ++ $" " ++ expr ++ $" " ++ close)
  else
    let set object := open ++ $"- set " ++ object ++ $" """ ++ field_of id ++ $""" " ++ expr ++ $" " ++ close in
    if negb global then Ok (set ($"$" ++ object_of id))
    else
      let object :=
        if has_suffix $"." tp then $"." ++ object_of id
        else match object_of id with [] => $"$" | o => $"$." ++ o end in
      if str_eqb assign $":=" || match mode with NoValidation => true | _ => false end then Ok (set object)
      else
        let cell := (if has_suffix $"." object then object else object ++ $".") ++ field_of id in
        let check := match mode with WarnValidation => $"assertWarning" | _ => $"assert" end in
        Ok (open ++ $"- " ++ check ++ $" (not (isNil " ++ cell ++ $")) """ ++ cell ++
            $" does not exist, use := to declare new variable"" " ++ close ++ set object).
(** assignExpressionInternal: template/razor_repl_assign.go:18-85, without the message of line 25 *)
Definition assign_expression (d : delims) (r : replacement) (m : str) (accept : bool) : res str :=
  let group := multi_match (r_re r) m in
  let tp := group $"type" in
  let id := group $"id" in
  let expr := group $"expr" in
  let assign := group $"assign" in
  if str_eqb tp [] || str_eqb id [] || str_eqb expr [] || str_eqb assign [] then Ok m
  else write_assign d m tp id assign expr accept.

(** autoWrap: template/razor_repl_autowrap.go:9-28, without the message of line 16; Escape: collections/string.go:265-268 *)
Definition escaped (s : str) : str := inner (go_quote s).
Definition auto_wrap (r : replacement) (m : str) : res str :=
  let group := multi_match (r_re r) m in
  let '(context, strings) := protect (group $"context") in
  match context_at context 1 $"(" $")" with
  | None | Some ([], _) => Ok m
  | Some (args, _) =>
      do after <- restore (skipn (List.length args) context) strings;
      do args <- restore args strings;
      Ok ($"@" ++ group $"nl" ++ group $"reduce" ++ $"join(""" ++ (match group $"nl" with [] => [] | _ => $"\n" end) ++
          $""", formatList(""" ++ escaped (group $"before") ++ $"%v" ++ escaped after ++ $""", " ++ tl args ++ $")")
  end.

(** The functions of the table, except those of raw strings (LongStringModel) and e-mail addresses (RazorTableModel). *)
Definition razor_parser (d : delims) (r : replacement) (p : parser) (m : str) : res str :=
  match p with
  | PAssign => assign_expression d r m false
  | PAssignAccept => assign_expression d r m true
  | PExpr => parse_expression r m false
  | PExprSkip => parse_expression r m true
  | PWrap => auto_wrap r m
  | PLong | PEmail => Ok m
  end.
(** The function [other] of RazorTableModel does what the code does wherever the code does not panic. *)
Definition follows_code (d : delims) (other : replacement -> parser -> str -> str) : Prop :=
  forall r p m t, p <> PLong -> p <> PEmail -> razor_parser d r p m = Ok t -> other r p m = t.
End Parsers.
