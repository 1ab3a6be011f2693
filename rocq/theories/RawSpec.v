(** Texts with quoted strings, some of them raw. *)
From Coq Require Import String Ascii List ZArith NArith Bool.
From Verif Require Import GoStr.
Import ListNotations.
Local Open Scope char_scope.

Definition QUOTE : ascii := """".
(** The pieces of a document: quoted texts, raw ones among them, and what is between them *)
Inductive piece := Other (s : str) | Quoted (y : str) | Raw (x : str).
Definition piece_text (p : piece) : str :=
  match p with
  | Other s => s
  | Quoted y => [QUOTE] ++ y ++ [QUOTE]
  | Raw x => [QUOTE] ++ $"!Q!" ++ x ++ $"!Q!" ++ [QUOTE]
  end.
Definition document (l : list piece) : str := flat_map piece_text l.
(** White space *)
Definition white_char (c : ascii) : bool := existsb (Ascii.eqb c) [" "; "009"; "010"; "012"; "013"].
(** A raw text loses its marks, and its quotes unless there is white space in it. *)
Definition piece_shown (p : piece) : str :=
  match p with
  | Other s => s
  | Quoted y => [QUOTE] ++ y ++ [QUOTE]
  | Raw x => if existsb white_char x then [QUOTE] ++ x ++ [QUOTE] else x
  end.
Definition shown (l : list piece) : str := flat_map piece_shown l.

Definition marked (s : str) : Prop := exists r, s = $"!Q!" ++ r.
Definition piece_ok (p : piece) : Prop :=
  match p with
  | Other s => ~ In QUOTE s
  | Quoted y => ~ In QUOTE y /\ ~ marked y
  | Raw x => x <> [] /\ ~ In QUOTE x /\ ~ In "010" x
  end.
(** After a quoted text there is something else, that does not look like a mark. *)
Definition separated_by (l : list piece) : Prop :=
  match l with
  | [] => True
  | Other (c :: _) :: _ => c <> "!"
  | _ => False
  end.
Fixpoint document_ok (l : list piece) : Prop :=
  match l with
  | [] => True
  | p :: l => piece_ok p /\ match p with Other _ => True | _ => separated_by l end /\ document_ok l
  end.
(** No pseudo comment *)
Definition uncommented (s : str) : Prop := forall u v, s <> u ++ $"#!" ++ v.

(** A list of texts as JSON prints it *)
Definition comma_before (x : piece) : list piece := [Other $","; x].
Definition list_document (l : list str) : list piece :=
  Other $"[" :: match map Raw l with [] => [] | x :: l => x :: flat_map comma_before l end ++ [Other $"]"].
