(** Specification of razor documents with blocks: conditions, loops, alternatives and ends, one on a line, beside the
    text and the assignments of RazorAsgSpec. *)
From Coq Require Import String Ascii List NArith Bool.
From Verif Require Import GoStr TemplateSpec RazorExprModel RazorAssignModel RazorRefSpec RazorAsgSpec.
Import ListNotations.
Local Open Scope char_scope.

(** ** Commands that open a block *)
Inductive opener := OIf | OElseIf (b : str) | OWith | ORange | OFor | OForEach (b : str).
Definition opener_text (w : opener) : str :=
  match w with
  | OIf => $"if"
  | OElseIf b => $"else" ++ b ++ $"if"
  | OWith => $"with"
  | ORange => $"range"
  | OFor => $"for"
  | OForEach b => $"for" ++ b ++ $"each"
  end.
(** The command of the template: the loops are all range. *)
Definition opener_command (w : opener) : str :=
  match w with OFor | OForEach _ => $"range" | _ => opener_text w end.
(** The words that may follow end *)
Inductive closer := CNothing | CIf | CWith | CRange | CFor | CForEach (b : str).
Definition closer_text (w : closer) : str :=
  match w with
  | CNothing => $""
  | CIf => $"if"
  | CWith => $"with"
  | CRange => $"range"
  | CFor => $"for"
  | CForEach b => $"for" ++ b ++ $"each"
  end.

(** ** Lines *)
Inductive block_line :=
| Simple (x : line)
| Open (indent : str) (m : mark) (w : opener) (b1 b2 : str) (E : str) (e : expr) (b3 z : str)   (* @if (E) z *)
| Alt (indent : str) (m : mark) (z : str)                                                        (* @else z *)
| Close (indent : str) (m : mark) (b : str) (w : closer) (semi : bool) (z : str).                (* @end if; z *)
Definition block_source (x : block_line) : str :=
  match x with
  | Simple x => line_source x
  | Open i m w b1 b2 E _ b3 z => i ++ $"@" ++ mark_text m ++ opener_text w ++ b1 ++ $"(" ++ b2 ++ E ++ $")" ++ b3 ++ z
  | Alt i m z => i ++ $"@" ++ mark_text m ++ $"else" ++ z
  | Close i m b w semi z => i ++ $"@" ++ mark_text m ++ $"end" ++ b ++ closer_text w ++ (if semi then $";" else []) ++ z
  end.
(** An action of the template *)
Definition action (m : mark) (s : str) : str :=
  (if trims_left m then $"{{- " else $"{{ ") ++ s ++ (if trims_right m then $" -}}" else $" }}").
Definition block_output (mode : validation) (x : block_line) : str :=
  match x with
  | Simple x => line_output mode x
  | Open i m w _ _ _ e _ z => i ++ action m (opener_command w ++ $" " ++ command e) ++ z
  | Alt i m z => i ++ action m $"else" ++ z
  | Close i m _ _ _ z => i ++ action m $"end" ++ z
  end.
Fixpoint block_lines (f : block_line -> str) (l : list block_line) : str :=
  match l with
  | [] => []
  | [x] => f x
  | x :: l => f x ++ "010" :: block_lines f l
  end.

(** ** Conditions *)
(** The text after a command: no blank in front, as the blanks are dropped, and nothing that could belong to the command *)
Definition text_after (z : str) : Prop :=
  (forall c r, z = c :: r -> ~ blank_char c) /\ Forall (fun c => ascii_char c /\ ~ In c [")"; "@"; ";"; "{"; "010"]) z.
Definition opener_ok (w : opener) : Prop := match w with OElseIf b | OForEach b => Forall blank_char b | _ => True end.
Definition closer_ok (w : closer) : Prop := match w with CForEach b => Forall blank_char b | _ => True end.
Definition block_ok (parse : str -> option expr) (x : block_line) : Prop :=
  match x with
  | Simple x => line_ok parse x
  | Open i m w b1 b2 E e b3 z =>
      Forall blank_char i /\ opener_ok w /\ Forall blank_char b1 /\ Forall blank_char b2 /\ text_ok E /\ parse E = Some e /\ expr_ok e /\
      Forall blank_char b3 /\ text_after z
  | Alt i m z => Forall blank_char i /\ Forall (fun c => ~ In c ["("; "@"; "010"]) z
  | Close i m b w semi z =>
      Forall blank_char i /\ Forall blank_char b /\ closer_ok w /\ ~ In "@" z /\ ~ In "010" z /\
      (semi = false -> forall c r, z = c :: r -> ascii_char c /\ ~ blank_char c /\ ~ alpha c /\ c <> ";")
  end.
