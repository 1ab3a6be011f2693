(** Vocabulary for reserved words and words of operators. *)
From Coq Require Import String Ascii List ZArith NArith Bool.
From Verif Require Import GoStr.
Import ListNotations.

(** The text holds t somewhere. *)
Definition occurs (t s : str) : Prop := exists a b, s = a ++ t ++ b.
(** Every dollar sign doubled. *)
Fixpoint doubled (s : str) : str :=
  match s with [] => [] | c :: r => if Ascii.eqb c "$"%char then c :: c :: doubled r else c :: doubled r end.
(** The words of the operators. *)
Definition operator_names : list (str * str) :=
  [($"eq", $"=="); ($"ne", $"!="); ($"lt", $"<"); ($"le", $"<="); ($"gt", $">"); ($"ge", $">=");
   ($"add", $"+"); ($"sub", $"-"); ($"mul", $"*"); ($"div", $"/"); ($"mod", $"%");
   ($"and", $"&&"); ($"or", $"||"); ($"not", $"!");
   ($"band", $"&"); ($"bor", $"|"); ($"bxor", $"^"); ($"bclear", $"&^"); ($"lshift", $"<<"); ($"rshift", $">>")].
(** Two words of operators with one blank around and between them. *)
Definition adjacent (s : str) : Prop :=
  exists a b x y, In (a, x) operator_names /\ In (b, y) operator_names /\ occurs ($" " ++ a ++ $" " ++ b ++ $" ") s.
(** The words between blanks replaced by their operators, all at once from left to right. *)
Definition word_at (s : str) : option (str * str) :=
  find (fun kv => has_prefix ($" " ++ fst kv ++ $" ") s) operator_names.
Fixpoint spelled (skip : nat) (s : str) : str :=
  match s with
  | [] => []
  | c :: r =>
      match skip with
      | S k => spelled k r
      | O => match word_at s with
             | Some (w, op) => op ++ spelled (List.length w + 1) r
             | None => c :: spelled 0 r
             end
      end
  end.
