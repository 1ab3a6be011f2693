(** Specification of plain razor documents: text, references to global variables and escaped delimiters. *)
From Coq Require Import String Ascii List NArith Bool.
From Verif Require Import GoStr TemplateSpec.
Import ListNotations.
Local Open Scope char_scope.

(** The characters - and _ between the delimiter and the name *)
Inductive mark := Plain | Under | Dash | DashDash | UnderDash.
Definition mark_text (m : mark) : str :=
  match m with
  | Plain => $""
  | Under => $"_"
  | Dash => $"-"
  | DashDash => $"--"
  | UnderDash => $"_-"
  end.
Definition trims_left (m : mark) : bool := match m with Dash | DashDash => true | _ => false end.
Definition trims_right (m : mark) : bool := match m with DashDash | UnderDash => true | _ => false end.

Inductive item :=
| Text (s : str)
| At                                                  (* @@ *)
| Ref (m : mark) (name : str) (close : option str).   (* @name or @name followed by blanks and ; *)

Definition source1 (i : item) : str :=
  match i with
  | Text s => s
  | At => $"@@"
  | Ref m n None => $"@" ++ mark_text m ++ n
  | Ref m n (Some b) => $"@" ++ mark_text m ++ n ++ b ++ $";"
  end.
Definition source (l : list item) : str := flat_map source1 l.

(** The Go template: an action that writes the field of the global context. *)
Definition output1 (i : item) : str :=
  match i with
  | Text s => s
  | At => $"@"
  | Ref m n _ => (if trims_left m then $"{{- " else $"{{ ") ++ $"$." ++ n ++ (if trims_right m then $" -}}" else $" }}")
  end.
Definition output (l : list item) : str := flat_map output1 l.

(** ** Characters *)
Definition code_in (lo hi : N) (c : ascii) : Prop := (lo <= N_of_ascii c <= hi)%N.
Definition alpha (c : ascii) : Prop := code_in 65 90 c \/ code_in 97 122 c.
Definition word_char (c : ascii) : Prop := alpha c \/ code_in 48 57 c \/ c = "_".
Definition blank_char (c : ascii) : Prop := c = " " \/ c = "009".
(** Characters that are allowed in the names of map entries *)
Definition glue (c : ascii) : Prop := In c ["+"; "*"; "%"; "#"; "!"; "~"; "-"].
(** First characters of assignment operators *)
Definition op_char (c : ascii) : Prop := In c ["/"; "&"; "|"; "^"; "<"; ">"; ":"].
Definition ascii_char (c : ascii) : Prop := (N_of_ascii c < 128)%N.

(** ** Names *)
Definition reserved : list str := [$"if"; $"with"; $"range"; $"block"; $"define"; $"for"; $"foreach"].
Definition prefix_of (p s : str) : Prop := exists r, s = p ++ r.
Definition plain_name (n : str) : Prop :=
  (exists c r, n = c :: r /\ alpha c /\ Forall word_char r) /\
  ~ prefix_of $"else" n /\ ~ prefix_of $"end" n /\ ~ In n reserved.

(** ** What may follow a reference that is not closed by ; *)
(** What follows the name and the blanks; [sp] tells whether there are blanks. *)
Inductive calm_tail (sp : bool) : str -> Prop :=
| ct_end : calm_tail sp []
| ct_char c t : ascii_char c -> ~ blank_char c -> ~ op_char c -> ~ In c ["@"; ";"; "="] ->
    (sp = false -> ~ word_char c /\ ~ glue c /\ ~ In c ["("; "["; "."]) ->
    (sp = true -> ~ In c ["+"; "-"; "*"; "%"; "~"]) -> calm_tail sp (c :: t)
| ct_op c t : op_char c \/ (sp = true /\ In c ["+"; "-"; "*"; "%"; "~"]) ->
    (forall d r, t = d :: r -> ~ In d ["="; "<"; ">"; "^"]) -> calm_tail sp (c :: t)
| ct_wide c t : sp = true -> ~ ascii_char c -> (forall d r, t = d :: r -> ~ In d ["171"; "183"; "187"]) -> calm_tail sp (c :: t)
| ct_ref t : (sp = false -> forall r, t <> "@" :: r) -> calm_tail sp ("@" :: t).
Definition calm (s : str) : Prop :=
  exists g b t, s = g ++ b ++ t /\
    (g = [] \/ exists c r, g = c :: r /\ glue c /\ Forall (fun x => word_char x \/ glue x) r) /\
    Forall blank_char b /\ calm_tail (match b with [] => false | _ => true end) t.

(** ** Documents *)
Fixpoint plain (l : list item) : Prop :=
  match l with
  | [] => True
  | Text s :: l => ~ In "@" s /\ plain l
  | At :: l => plain l
  | Ref _ n (Some b) :: l => plain_name n /\ Forall blank_char b /\ plain l
  | Ref _ n None :: l => plain_name n /\ calm (source l) /\ plain l
  end.

(** The texts that other replacements look for *)
Definition special : list str :=
  [$"`"; $"${"; $"""<<"; $"""{{ raw"; $"""{{- raw"; $"""{{ ellipsis"; $"""{{- ellipsis"; $"{{ /*"; $"*/ }}";
   $"#!"; $"//!"; $"##"; $"///"; $"=!AT!="; $"=!TRIPLE_BT!="; $"=!REPL!="; $"__FuncCall__"; $"no-razor!"; $"no-gotemplate!"].
Definition quiet (s : str) : Prop := forall w, In w special -> ~ holds s w.
