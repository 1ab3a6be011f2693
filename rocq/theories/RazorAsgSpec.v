(** Specification of razor documents with assignments. *)
From Coq Require Import String Ascii List NArith Bool.
From Verif Require Import GoStr TemplateSpec RazorExprModel RazorAssignModel RazorRefSpec.
Import ListNotations.
Local Open Scope char_scope.

(** ** Targets: @x  @$.x  @.x  @$x  @{x}, with a path before the name *)
Inductive kind := Global | Root | Context | Local | Braced.
Record target := { t_kind : kind; t_path : list str; t_name : str }.
Definition names (t : target) : list str := t_path t ++ [t_name t].
Fixpoint dotted (l : list str) : str :=
  match l with
  | [] => []
  | [n] => n
  | n :: l => n ++ $"." ++ dotted l
  end.
Definition target_text (t : target) : str :=
  match t_kind t with
  | Global => $"@" ++ dotted (names t)
  | Root => $"@$." ++ dotted (names t)
  | Context => $"@." ++ dotted (names t)
  | Local => $"@$" ++ dotted (names t)
  | Braced => $"@{" ++ dotted (names t) ++ $"}"
  end.
(** How a template reads the value of the target *)
Definition fields (l : list str) : str := flat_map (fun n => "." :: n) l.
Definition cell (t : target) : str :=
  match t_kind t with
  | Global | Root => $"$" ++ fields (names t)
  | Context => fields (names t)
  | Local | Braced => $"$" ++ dotted (names t)
  end.
(** The object that holds it *)
Definition holder (t : target) : str :=
  match t_kind t with
  | Global | Root => $"$" ++ fields (t_path t)
  | Context => match t_path t with [] => $"." | p => fields p end
  | Local | Braced => $"$" ++ dotted (t_path t)
  end.
(** A variable of the template itself *)
Definition variable (t : target) : bool :=
  match t_kind t, t_path t with
  | Local, [] | Braced, [] => true
  | _, _ => false
  end.
Definition in_context (t : target) : bool := match t_kind t with Local | Braced => false | _ => true end.

(** ** Operators *)
Inductive assign_op := Declare | Assign | Update (op : str).
Definition op_text (o : assign_op) : str :=
  match o with
  | Declare => $":="
  | Assign => $"="
  | Update op => op ++ $"="
  end.
(** The functions that stand for operators *)
Definition op_names : list (str * str) :=
  [($"+", $"add"); ($"-", $"sub"); ($"*", $"mul"); ($"/", $"div"); ($"%", $"mod"); ($"&", $"band"); ($"|", $"bor"); ($"^", $"bxor");
   ($"<<", $"lshift"); ($">>", $"rshift"); ($"&^", $"bclear"); ($"==", $"eq"); ($"!=", $"ne"); ($"<", $"lt"); ($"<=", $"le"); ($">", $"gt");
   ($">=", $"ge"); ($"||", $"or"); ($"&&", $"and"); ($"!", $"not")].
Definition update_ops : list str := [$"+"; $"-"; $"*"; $"/"; $"%"; $"&"; $"|"; $"^"; $"<<"; $">>"; $"&^"].
Fixpoint function_of (l : list (str * str)) (op : str) : str :=
  match l with
  | [] => []
  | (o, f) :: l => if list_eq_dec ascii_dec o op then f else function_of l op
  end.

(** ** Expressions: as a command of the template, and as an argument *)
Definition spaced (s : str) : bool := if in_dec ascii_dec " " s then true else false.
Definition as_argument (s : str) : str := if spaced s then $"(" ++ s ++ $")" else s.
Definition starts_with_digit (s : str) : bool :=
  match s with c :: _ => N.leb 48 (N_of_ascii c) && N.leb (N_of_ascii c) 57 | [] => false end.
Fixpoint command (e : expr) : str :=
  match e with
  | Lit v => v
  | Ident n => $"$." ++ n
  | Sel x n => as_argument (command x) ++ $"." ++ n
  | Paren x => command x
  | Unary op x =>
      let x := as_argument (command x) in
      if list_eq_dec ascii_dec op $"-" then (if starts_with_digit x then $"-" ++ x else $"sub 0 " ++ x)
      else function_of op_names op ++ $" " ++ x
  | Binary op x y => function_of op_names op ++ $" " ++ as_argument (command x) ++ $" " ++ as_argument (command y)
  | Call (Ident f) args _ => f ++ flat_map (fun a => $" " ++ as_argument (command a)) args
  | _ => []
  end.

(** ** What an assignment becomes *)
Definition value (t : target) (o : assign_op) (e : expr) : str :=
  match o with
  | Update op => function_of op_names op ++ $" " ++ cell t ++ $" " ++ as_argument (command e)
  | _ => command e
  end.
Definition set_text (t : target) (o : assign_op) (e : expr) : str :=
  $"{{- set " ++ holder t ++ $" """ ++ t_name t ++ $""" " ++ as_argument (value t o e) ++ $" }}".
(** A value of the context that is changed, not declared, is checked first. *)
Definition check_text (mode : validation) (t : target) : str :=
  match mode with
  | NoValidation => []
  | _ => $"{{- " ++ (match mode with WarnValidation => $"assertWarning" | _ => $"assert" end) ++
         $" (not (isNil " ++ cell t ++ $")) """ ++ cell t ++ $" does not exist, use := to declare new variable"" }}"
  end.
Definition written (mode : validation) (t : target) (o : assign_op) (e : expr) : str :=
  if variable t then $"{{- $" ++ t_name t ++ (match o with Declare => $" := " | _ => $" = " end) ++ value t o e ++ $" }}"
  else (if in_context t then match o with Declare => [] | _ => check_text mode t end else []) ++ set_text t o e.

(** ** Documents: lines of text and assignments *)
Inductive line :=
| Words (s : str)
| Asg (indent : str) (t : target) (b1 : str) (o : assign_op) (b2 : str) (E : str) (e : expr).
Definition line_source (l : line) : str :=
  match l with
  | Words s => s
  | Asg indent t b1 o b2 E _ => indent ++ target_text t ++ b1 ++ op_text o ++ b2 ++ E
  end.
Definition line_output (mode : validation) (l : line) : str :=
  match l with
  | Words s => s
  | Asg indent t _ o _ _ e => indent ++ written mode t o e
  end.
Fixpoint lines (f : line -> str) (l : list line) : str :=
  match l with
  | [] => []
  | [x] => f x
  | x :: l => f x ++ "010" :: lines f l
  end.

(** ** Conditions *)
Definition name_ok (n : str) : Prop := exists c r, n = c :: r /\ alpha c /\ Forall word_char r /\ ~ holds n $"__".
(** The words that the translation keeps for itself *)
Definition kept_words : list str := [$"range"; $"default"; $"func"; $"type"; $"struct"; $"map"].
Definition free_of_words (s : str) : Prop := forall w, In w kept_words -> ~ holds s w.
Definition target_ok (t : target) : Prop :=
  Forall name_ok (names t) /\
  (t_kind t = Global -> forall n, hd_error (names t) = Some n -> ~ prefix_of $"else" n /\ ~ prefix_of $"end" n).
Definition spacing_ok (t : target) (b : str) (o : assign_op) : Prop :=
  Forall blank_char b /\ (b = [] -> t_kind t <> Braced -> forall op, o = Update op -> ~ In op [$"+"; $"-"; $"*"; $"%"]).
(** Updates read the target: its names are translated with the expression. *)
Definition update_ok (t : target) (o : assign_op) : Prop :=
  forall op, o = Update op -> In op update_ops /\ Forall free_of_words (names t) /\ ~ (in_context t = true /\ t_kind t <> Context /\ names t = [$"slice"]).

Definition value_char (c : ascii) : Prop :=
  word_char c \/ blank_char c \/ In c ["+"; "-"; "*"; "/"; "%"; "("; ")"; ","; "<"; ">"; "="; "!"; "&"; "|"; "^"; "."].
(** The text of the expression: one line, no words that the translation replaces, no dot at the start of a word *)
Definition text_ok (E : str) : Prop :=
  Forall value_char E /\ (exists c r, E = c :: r /\ ~ blank_char c) /\ free_of_words E /\
  ~ holds E $"<>" /\ (forall o f, In (o, f) op_names -> ~ holds E ($" " ++ f ++ $" ")) /\
  (forall a b, E = a ++ "." :: b -> exists a' c, a = a' ++ [c] /\ (word_char c \/ c = ")")) /\ ~ holds E $"..." /\ ~ holds E $"__".

Definition literal_ok (v : str) : Prop := v <> [] /\ Forall (fun c => word_char c \/ c = ".") v /\ ~ holds v $"__".
Fixpoint expr_ok (e : expr) : Prop :=
  match e with
  | Lit v => literal_ok v
  | Ident n => name_ok n /\ n <> $"slice"
  | Sel x n => expr_ok x /\ name_ok n
  | Paren x => expr_ok x
  | Unary op x => In op [$"-"; $"!"] /\ expr_ok x
  | Binary op x y => In op (map fst op_names) /\ expr_ok x /\ expr_ok y
  | Call (Ident f) args dots => name_ok f /\ dots = false /\ (fix all (l : list expr) : Prop := match l with [] => True | a :: l => expr_ok a /\ all l end) args
  | _ => False
  end.

(** The parser of Go reads  a.b.c op (E)  as the operation on the selector and the expression in parentheses. *)
Fixpoint selector (x : expr) (l : list str) : expr := match l with [] => x | n :: l => selector (Sel x n) l end.
Definition reads_updates (parse : str -> option expr) : Prop :=
  forall a l op E e, a <> [] -> Forall word_char a -> Forall name_ok l -> In op update_ops -> parse E = Some e ->
    parse (a ++ fields l ++ $" " ++ op ++ $" (" ++ E ++ $")") = Some (Binary op (selector (Ident a) l) (Paren e)).

Definition line_ok (parse : str -> option expr) (l : line) : Prop :=
  match l with
  | Words s => ~ In "@" s /\ ~ In "010" s
  | Asg indent t b1 o b2 E e =>
      Forall blank_char indent /\ target_ok t /\ spacing_ok t b1 o /\ update_ok t o /\ Forall blank_char b2 /\
      text_ok E /\ parse E = Some e /\ expr_ok e
  end.
