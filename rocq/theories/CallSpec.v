(** Specification of razor documents that show the result of expressions and of functions:  text @(E) text  and
    text @f(A) text, at most one on a line. *)
From Coq Require Import String Ascii List NArith Bool.
From Verif Require Import GoStr TemplateSpec RazorExprModel RazorRefSpec RazorAsgSpec BlockSpec.
Import ListNotations.
Local Open Scope char_scope.

Inductive call_line :=
| Prose (s : str)
| Shown (p : str) (m : mark) (b : str) (E : str) (e : expr) (close : option str) (z : str)    (* p @(b E); z *)
| Called (p : str) (m : mark) (f A : str) (e : expr) (close : option str) (z : str).          (* p @f(A); z *)
(** The semicolon that ends an expression, and the blanks in front of it *)
Definition close_text (c : option str) : str := match c with None => [] | Some b => b ++ $";" end.
Definition call_text (f A : str) : str := f ++ $"(" ++ A ++ $")".
Definition call_source (x : call_line) : str :=
  match x with
  | Prose s => s
  | Shown p m b E _ c z => p ++ $"@" ++ mark_text m ++ $"(" ++ b ++ E ++ $")" ++ close_text c ++ z
  | Called p m f A _ c z => p ++ $"@" ++ mark_text m ++ call_text f A ++ close_text c ++ z
  end.
(** The text remains, the expression becomes an action of the template. *)
Definition call_output (x : call_line) : str :=
  match x with
  | Prose s => s
  | Shown p m _ _ e _ z | Called p m _ _ e _ z => p ++ action m (command e) ++ z
  end.
Fixpoint call_lines (f : call_line -> str) (l : list call_line) : str :=
  match l with
  | [] => []
  | [x] => f x
  | x :: l => f x ++ "010" :: call_lines f l
  end.

(** ** Conditions *)
(** No parenthesis is closed before it was opened. *)
Definition count (c : ascii) (s : str) : nat := count_occ ascii_dec s c.
Definition balanced (s : str) : Prop := forall a r, s = a ++ r -> count ")" a <= count "(" a.
(** The text in front: it does not end with a quotation mark. *)
Definition text_before (p : str) : Prop := ~ In "@" p /\ ~ In "010" p /\ forall a, p <> a ++ [""""].
(** The text behind: what could continue the expression does not stand at its start. *)
Definition text_behind (c : option str) (bad : list ascii) (z : str) : Prop :=
  Forall (fun x => ascii_char x /\ ~ In x [")"; "@"; "010"]) z /\
  match c with
  | Some b => Forall blank_char b
  | None => (forall b r, Forall blank_char b -> z <> b ++ ";" :: r) /\ forall x r, z = x :: r -> ~ In x bad
  end.
(** Functions of the table itself *)
Definition indenters : list str := [$"autoIndent"; $"aindent"; $"aIndent"; $"autoWrap"; $"awrap"; $"aWrap"].
Definition function_ok (f : str) : Prop := plain_name f /\ ~ In f indenters.
Definition call_ok (parse : str -> option expr) (x : call_line) : Prop :=
  match x with
  | Prose s => ~ In "@" s /\ ~ In "010" s
  | Shown p m b E e c z =>
      text_before p /\ In m [Plain; Dash; DashDash] /\ Forall blank_char b /\ text_ok E /\ balanced E /\ (forall a x, E = a ++ [x] -> ~ blank_char x) /\
      parse E = Some e /\ expr_ok e /\ text_behind c ["["] z
  | Called p m f A e c z =>
      text_before p /\ function_ok f /\ text_ok (call_text f A) /\ ~ holds (call_text f A) $")." /\
      parse (call_text f A) = Some e /\ expr_ok e /\ text_behind c ["["; "."] z
  end.
