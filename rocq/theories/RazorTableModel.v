(** The replacements of razor documents: template/razor.go:50-145, 158-205 and applyRazor, 13-46.  The tables are
    the texts of the source; they are turned into regular expressions as ensureInit does it. *)
From Coq Require Import String Ascii List ZArith NArith Bool.
From Verif Require Import GoStr Utf8 TemplateModel RazorWordsModel ReModel ReSyntaxModel.
Import ListNotations.

(** customMetaclass: template/razor.go:52-67 *)
Definition metaclasses : list (str * str) :=
  [($"function;", $"@reduce;(?P<expr>[id]\([sp][expr]*[sp]\))");
   ($"assign;", $"(?P<assign>(?:\$[id][ \t,]*){1,2}:=[sp])");
   ($"index;", $"(?P<index>\[[expr]+\])");
   ($"selector;", $"(?P<selection>\.[expr]+)");
   ($"reduce;", $"(?P<reduce>((?P<reduce1>-)|_)?(?P<reduce2>-?))");
   ($"endexpr;", $"(?:[sp];)?");
   ($"[sp]", $"[[:blank:]]*");
   ($"[id]", $"[\p{L}\d_]+");
   ($"[id_comp]", $"[\p{L}\d_\.]+");
   ($"[flexible_id]", $"[map_id;][map_id;\.\-]*");
   ($"[idSel]", $"[\p{L}_][\p{L}\d_\.]*");
   ($"map_id;", $"\p{L}\d_\+\*%#!~");
   ($"assign_op;", $":=|~=|=|\+=|-=|\*=|\/=|÷=|%=|&=|\|=|\^=|<<=|«=|>>=|»=|&\^=")].

(** expressionList: template/razor.go:70 *)
Definition expression_list : list str :=
  [$"[^\n]"; $"[^@\n]"; $"[^@;\n]"; $"[^@{\n]"; $"[^@;{\n]"; $"[^@;{\n'`]"; $"[\p{L}_\.]"].

(** The functions that compute replacements: template/razor_repl_*.go *)
Inductive parser := PLong | PEmail | PWrap | PAssign | PAssignAccept | PExpr | PExprSkip.

(** One row of the table of expressions: name, expression, replacement, parser, parser used at last *)
Record row := { e_name : str; e_expr : str; e_replace : str; e_parser : option parser; e_last : option parser }.
Definition plain_row n e r := {| e_name := n; e_expr := e; e_replace := r; e_parser := None; e_last := None |}.
Definition parser_row n e r p := {| e_name := n; e_expr := e; e_replace := r; e_parser := Some p; e_last := None |}.
Definition last_row n e r p q := {| e_name := n; e_expr := e; e_replace := r; e_parser := Some p; e_last := Some q |}.

(** expressions: template/razor.go:75-146 *)
Definition expressions : list row :=
  [plain_row $"" $"```" $"_=!TRIPLE_BT!=_";
   parser_row $"" $"(?s)`.*?`" $"" PLong;
   parser_row $"Protect email" $"(\W|^)[\w.!#$%&'*+/=?^_{|}~-]+@[\w-]{1,61}(?:\.[\w-]{1,61})+" $"" PEmail;
   plain_row $"" $"\${" $"_=!REPL!=_";
   plain_row $"" $"@@" $"_=!AT!=_";
   plain_row $"" $"@{{" $"{{ ""{{"" }}";
   plain_row $"" $"@<;" $"{{- $.NEWLINE }}";
   plain_row $"Auto indent" $"(?m)^(?P<before>.*)@reduce;(?:autoIndent|aindent|aIndent)\(" $"@<-spaceIndent(`${before}`, ";
   parser_row $"Auto wrap" $"(?m)^(?P<before>.*)@(?P<nl><)?reduce;(?P<func>autoWrap|awrap|aWrap)(?P<context>\(.*)$" $"" PWrap;
   plain_row $"Inline content ""@<...>""" $"""@reduce;<(?P<content>.*?)>""" $"""<<@${reduce}(${content})""";
   plain_row $"Newline expression" $"@<" $"{{- $.NEWLINE }}@";
   plain_row $"Pseudo line comments - #! @" $"(?m)(?:[sp](?:#|//)![sp])@" $"@";
   plain_row $"Pseudo block comments - /*@  @*/" $"(?s)/\*@(?P<content>.*?)@\*/" $"${content}";
   plain_row $"Real comments - ##|/// @ comment" $"(?m)[sp](?:##|///)[sp]@.*$" $"{{- """" }}";
   plain_row $"Line comment - @// or @#" $"(?m)@reduce;(#|//)[sp](?P<line_comment>.*)[sp]$" $"{{${reduce1} /* ${line_comment} */ ${reduce2}}}";
   plain_row $"Block comment - @/* */" $"(?s)@reduce;/\*(?P<block_comment>.*?)\*/" $"{{${reduce1} /*${block_comment}*/ ${reduce2}}}";
   plain_row $"" $"{{ /\*" $"{{/*";
   plain_row $"" $"\*/ }}" $"*/}}";
   plain_row $"Foreach" $"@reduce;for(?:[sp]each)?[sp]\(" $"@${reduce}range(";
   last_row $"Single line command - @command (expr) action;" $"@reduce;(?P<command>if|with|range)[sp]\([sp]assign;?[sp](?P<expr>[expr]+)[sp]\)[sp](?P<action>[^\n]+?)[sp];" $"{{${reduce1} ${command} ${assign}${expr} ${reduce2}}}${action}{{${reduce1} end ${reduce2}}}" PExprSkip PExpr;
   last_row $"Single line command - @command (expr) { action }" $"(?m)@reduce;(?P<command>if|with|range)[sp]\([sp]assign;?[sp](?P<expr>[expr]+)[sp]\)[sp]{[sp](?P<action>[^\n]+?)}[sp]$" $"{{${reduce1} ${command} ${assign}${expr} ${reduce2}}}${action}{{${reduce1} end ${reduce2}}}" PExprSkip PExpr;
   last_row $"Command(expr)" $"@reduce;(?P<command>if|else[sp]if|block|with|define|range)[sp]\([sp]assign;?[sp](?P<expr>[expr]+)[sp]\)[sp]" $"{{${reduce1} ${command} ${assign}${expr} ${reduce2}}}" PExprSkip PExpr;
   plain_row $"else" $"@reduce;else" $"{{${reduce1} else ${reduce2}}}";
   plain_row $"various ends" $"@reduce;(?P<command>end[sp](if|range|define|block|with|for[sp]each|for|))endexpr;" $"{{${reduce1} end ${reduce2}}}";
   parser_row $"Assign - @var := value" $"(?P<type>@(\$|\.|\$\.)?)(?P<id>[flexible_id])[sp](?P<assign>assign_op;)[sp](?P<expr>[expr]+)endexpr;" $"" PAssign;
   parser_row $"Assign - @{var} := value" $"(?P<type>@{)(?P<id>[id_comp])}[sp](?P<assign>assign_op;)[sp](?P<expr>[expr]+)endexpr;" $"" PAssign;
   parser_row $"Assign - @{var := expr}" $"(?P<type>@{)(?P<id>[id_comp])[sp](?P<assign>assign_op;)[sp](?P<expr>[expr]+?)}endexpr;" $"" PAssignAccept;
   parser_row $"Function call followed by expression - @func(args...).args" $"function;selector;endexpr;" $"@${reduce}((${expr})${selection});" PExprSkip;
   parser_row $"Function call with slice - @func(args...)[...]" $"function;index;endexpr;" $"{{${reduce1} ${slicer} (${expr}) ${index} ${reduce2}}}" PExprSkip;
   parser_row $"Function call - @func(args...)" $"function;endexpr;" $"{{${reduce1} ${expr} ${reduce2}}}" PExprSkip;
   plain_row $"Function unmanaged - @func(value | func)" $"@reduce;(?P<function>[id])\([sp](?P<args>[expr]+)[sp]\)endexpr;" $"{{${reduce1} ${function} ${args} ${reduce2}}}";
   plain_row $"Local variables - @{var}" $"@reduce;{[sp](?P<name>[\p{L}\d_\.]*)[sp]}(?P<end>endexpr;)" $"@${reduce}($$${name});";
   parser_row $"Global variables followed by expression" $"@reduce;(?P<expr>[idSel]selector;index;?)(?P<end>endexpr;)" $"@${reduce}(${expr});" PExprSkip;
   plain_row $"Context variables - @.var" $"@reduce;\.(?P<name>[idSel])endexpr;" $"@${reduce}(.${name})";
   parser_row $"Global variables with slice - @var[...]" $"@reduce;(?P<name>[idSel])index;endexpr;" $"{{${reduce1} ${slicer} $$.${name} ${index} ${reduce2}}}" PExprSkip;
   parser_row $"Context variables special with slice" $"@reduce;\.(?P<expr>(?P<name>[flexible_id])index;)endexpr;" $"{{${reduce1} ${slicer} (get . ""${name}"") ${index} ${reduce2}}}" PExprSkip;
   parser_row $"Global variables special with slice" $"@reduce;(?P<expr>(?P<name>[flexible_id])index;)endexpr;" $"{{${reduce1} ${slicer} (get $$ ""${name}"") ${index} ${reduce2}}}" PExprSkip;
   parser_row $"Local variables with slice" $"@reduce;(?P<expr>(?P<name>[\$\.][\p{L}\d_\.]*)index;)endexpr;" $"{{${reduce1} ${slicer} ${name} ${index} ${reduce2}}}" PExprSkip;
   plain_row $"Global variables - @var" $"@reduce;(?P<name>[idSel])endexpr;" $"{{${reduce1} $$.${name} ${reduce2}}}";
   plain_row $"Context variables special - @.var" $"@reduce;\.(?P<name>[flexible_id])endexpr;" $"{{${reduce1} get . ""${name}"" ${reduce2}}}";
   plain_row $"Global variables special - @var" $"@reduce;(?P<name>[flexible_id])endexpr;" $"{{${reduce1} get $$ ""${name}"" ${reduce2}}}";
   plain_row $"Local variables - @$var or @.var" $"@reduce;(?P<name>[\$\.][\p{L}\d_\.]*)endexpr;" $"{{${reduce1} ${name} ${reduce2}}}";
   parser_row $"Expression @(var)[...]" $"@reduce;(?P<expr>\([sp](?P<name>[idSel])[sp]\)index;)endexpr;" $"{{${reduce1} ${slicer} $$.${name} ${index} ${reduce2}}}" PExprSkip;
   parser_row $"Expression @(var)" $"@reduce;\([sp](?P<expr>[idSel])[sp]\)endexpr;" $"{{${reduce1} ${expr} ${reduce2}}}" PExprSkip;
   parser_row $"Expression @(expr)[...]" $"@reduce;\([sp](?P<expr>[expr]+)[sp]\)index;endexpr;" $"{{${reduce1} ${slicer} (${expr}) ${index} ${reduce2}}}" PExprSkip;
   last_row $"Expression @(expr)" $"@reduce;\([sp](?P<assign>.*?:= ?)?[sp](?P<expr>[expr]+)[sp]\)endexpr;" $"{{${reduce1} ${assign}${expr} ${reduce2}}}" PExprSkip PExpr;
   plain_row $"Space eater" $"@-endexpr;" $"{{- """" -}}";
   plain_row $"Raw content ""{{ raw ..." $"""(?P<content>{{-? (?:raw(?:List)?(?:__FuncCall__)?|ellipsis ""raw__FuncCall__"") .*?}})""" $"""<<${content}""";
   plain_row $"Inline content ""<<...""" $"""<<(?P<content>.*?{{[sp].*?[sp]}}.*?)""" $"${content}";
   plain_row $"" $"_=!AT!=_" $"@";
   plain_row $"" $"_=!TRIPLE_BT!=_" $"```";
   plain_row $"" $"_=!REPL!=_" $"${";
   parser_row $"" $"\x60_=LONG_STRING=(?P<num>\d+)\x60" $"" PLong].

(** regexp.QuoteMeta *)
Definition quote_meta (s : str) : str := flat_map (fun c => if contains_byte c $"\.+*?()|[]{}^$" then ["\"%char; c] else [c]) s.

(** type replacement: template/razor.go:151-158 *)
Record replacement := { r_name : str; r_expr : str; r_replace : str; r_re : compiled; r_parser : option parser }.

Section Table.
Variable beyond : N -> bool.

(** One row of ensureInit: template/razor.go:165-200; None where regexp.MustCompile panics. *)
Definition row_expr (d : delims) (e : row) : str :=
  let re := replace_all $"@" (quote_meta (razor_delim d)) (e_expr e) in
  let re := replace_all $"{{" (quote_meta (left_delim d)) re in
  let re := replace_all $"}}" (quote_meta (right_delim d)) re in
  replace_each metaclasses re.
Definition row_replace (d : delims) (e : row) : str :=
  replace_all $"@" (razor_delim d) (replace_all $"}}" (right_delim d) (replace_all $"{{" (left_delim d) (e_replace e))).
Definition row_exprs (re : str) : list str :=
  if contains $"[expr]" re then map (fun x => replace_all $"[expr]" x re) expression_list else [re].
Definition build (e : row) (replace : str) (p : option parser) (re : str) : option replacement :=
  match compile beyond re with
  | Some c => Some {| r_name := e_name e; r_expr := re; r_replace := replace; r_re := c; r_parser := p |}
  | None => None
  end.
Fixpoint all_some {A} (l : list (option A)) : option (list A) :=
  match l with
  | [] => Some []
  | Some a :: l => option_map (cons a) (all_some l)
  | None :: _ => None
  end.
Definition row_replacements (d : delims) (e : row) : option (list replacement) :=
  let replace := row_replace d e in
  let exprs := row_exprs (row_expr d e) in
  all_some (map (build e replace (e_parser e)) exprs ++
            match exprs, e_last e with
            | re :: _ :: _, Some p => [build e replace (Some p) re]
            | _, _ => []
            end).
(** ensureInit: template/razor.go:160-205 *)
Definition replacements (d : delims) : option (list replacement) := option_map (@concat _) (all_some (map (row_replacements d) expressions)).

(** The functions of the replacements that are not modelled here. *)
Variable other : replacement -> parser -> str -> str.

(** protectEmail: template/razor_repl_literal.go:28-34 *)
Definition protect_email (s : str) : str :=
  match s with
  | c :: _ => if Ascii.eqb c "@" || Ascii.eqb c "#" then s else replace_first $"@" $"@@" s
  | [] => []
  end.
Definition run_parser (r : replacement) (p : parser) (s : str) : str :=
  match p with
  | PEmail => protect_email s
  | _ => other r p s
  end.

(** One replacement: template/razor.go:34-41 *)
Definition replace_step (content : str) (r : replacement) : str :=
  replace_re (c_re (r_re r))
    (fun m g => match r_parser r with
                | None => expand (named_group (c_names (r_re r)) m g) (r_replace r)
                | Some p => run_parser r p m
                end) content.

(** applyRazor: template/razor.go:13-46 when the option Razor is set and no expression is ignored
    (ignoredRazorExpr is empty). *)
Definition apply_razor (d : delims) (content : str) : option str :=
  if is_razor d content then
    option_map (fun rs => replace_all $"__FuncCall__" [] (fold_left replace_step rs content)) (replacements d)
  else Some content.
End Table.
