(** Multi-line raw strings put aside during razor processing: template/razor_repl_literal.go. *)
From Coq Require Import String Ascii List ZArith NArith Bool.
From Verif Require Import GoStr TextModel FloatModel MathModel.
Import ListNotations.

(** template/razor_repl_expr.go:15-17 *)
Definition protect_string : str := $"_=LONG_STRING=".
Definition triple_literal : str := $"_=!TRIPLE_BT!=_".
Definition BTK : ascii := "`"%char.
Definition LFD : ascii := "010"%char.

(** The list [longStrings] is a variable of the package: it is an argument and a result here. *)
(** protectMultiLineStrings for a match of the first regular expression, which has no group:
    template/razor_repl_literal.go:10-23 *)
Definition protect_match (L : list str) (m : str) : res (list str * str) :=
  if has_prefix protect_string (tl m) then Panic $"runtime error: index out of range [1] with length 1"
  else if negb (contains_byte LFD m) then Ok (L, m)
  else let L := L ++ [m] in
       Ok (L, BTK :: protect_string ++ itoa (Z.of_nat (List.length L) - 1) ++ [BTK]).
(** ... for a match of the second one: template/razor_repl_literal.go:10-16 *)
Fixpoint set_nth (n : nat) (x : str) (L : list str) : list str :=
  match L, n with [], _ => [] | _ :: L, O => x :: L | y :: L, S n => y :: set_nth n x L end.
Definition restore_match (L : list str) (num : str) : res (list str * str) :=
  do z <- must (parse_int 10 num);
  match nth_error L (Z.to_nat z) with
  | Some s => Ok (set_nth (Z.to_nat z) [] L, s)
  | None => Panic $"runtime error: index out of range"
  end.

(** ReplaceAllFunc with the regular expression of raw strings (any text between two backticks, as short as
    possible): template/razor.go:35-42, 79.  [open] is the reversed text since the last opening backtick. *)
Fixpoint protect_go (open : option str) (L : list str) (s : str) : res (list str * str) :=
  match s with
  | [] => Ok (L, match open with None => [] | Some r => BTK :: rev r end)
  | c :: s =>
      match open with
      | None =>
          if Ascii.eqb c BTK then protect_go (Some []) L s
          else do x <- protect_go None L s; let '(L, t) := x in Ok (L, c :: t)
      | Some r =>
          if Ascii.eqb c BTK then
            do x <- protect_match L (BTK :: rev r ++ [BTK]);
            let '(L, m) := x in
            do y <- protect_go None L s; let '(L, t) := y in Ok (L, m ++ t)
          else protect_go (Some (c :: r)) L s
      end
  end.
Definition protect_long (L : list str) (s : str) : res (list str * str) := protect_go None L s.

(** The placeholder at the start of a text: its digits and what follows it. *)
Definition placeholder (s : str) : option (str * str) :=
  if has_prefix (BTK :: protect_string) s then
    let r := skipn (List.length (BTK :: protect_string)) s in
    match take_while is_digit r, drop_while is_digit r with
    | (_ :: _) as num, c :: rest => if Ascii.eqb c BTK then Some (num, rest) else None
    | _, _ => None
    end
  else None.
(** ReplaceAllFunc with the regular expression of placeholders: template/razor.go:35-42, 145 *)
Fixpoint restore_go (fuel : nat) (L : list str) (s : str) : res (list str * str) :=
  match fuel, s with
  | O, _ | _, [] => Ok (L, s)
  | S fuel, c :: r =>
      match placeholder s with
      | Some (num, rest) =>
          do x <- restore_match L num; let '(L, m) := x in
          do y <- restore_go fuel L rest; let '(L, t) := y in Ok (L, m ++ t)
      | None => do y <- restore_go fuel L r; let '(L, t) := y in Ok (L, c :: t)
      end
  end.
Definition restore_long (L : list str) (s : str) : res (list str * str) := restore_go (List.length s) L s.

(** The first two and the last two replacements of the table, with those in between left out:
    template/razor.go:78-79, 143-145 *)
Definition open_document (L : list str) (s : str) : res (list str * str) := protect_long L (replace_all $"```" triple_literal s).
Definition close_document (L : list str) (s : str) : res (list str * str) := restore_long L (replace_all triple_literal $"```" s).

(** Several documents processed at the same time.  A document is a list of pieces; each long string is put
    aside in two steps, the append (template/razor_repl_literal.go:22) and the reading of the length (23). *)
Inductive piece : Type := Text (t : str) | Long (l : str).
Inductive part : Type := Kept (t : str) | Hole (n : nat).
Inductive job : Type :=
| Protecting (todo : list piece) (added : bool) (made : list part)
| Restoring (todo : list part) (out : str)
| Finished (out : str)
| Crashed.
Definition job_step (L : list str) (j : job) : list str * job :=
  match j with
  | Protecting [] _ made => (L, Restoring made [])
  | Protecting (Text t :: r) _ made => (L, Protecting r false (made ++ [Kept t]))
  | Protecting (Long l :: r) false made => (L ++ [l], Protecting (Long l :: r) true made)
  | Protecting (Long l :: r) true made => (L, Protecting r false (made ++ [Hole (List.length L - 1)]))
  | Restoring [] out => (L, Finished out)
  | Restoring (Kept t :: r) out => (L, Restoring r (out ++ t))
  | Restoring (Hole n :: r) out =>
      match nth_error L n with
      | Some s => (set_nth n [] L, Restoring r (out ++ s))
      | None => (L, Crashed)
      end
  | Finished _ | Crashed => (L, j)
  end.
(** One call of protectMultiLineStrings as a whole. *)
Definition job_call (L : list str) (j : job) : list str * job :=
  let '(L1, j1) := job_step L j in
  match j1 with Protecting _ true _ => job_step L1 j1 | _ => (L1, j1) end.
(** The jobs move in the order of the schedule. *)
Fixpoint set_job (n : nat) (j : job) (l : list job) : list job :=
  match l, n with [], _ => [] | _ :: l, O => j :: l | x :: l, S n => x :: set_job n j l end.
Fixpoint run_jobs (move : list str -> job -> list str * job) (schedule : list nat) (L : list str) (jobs : list job) : list str * list job :=
  match schedule with
  | [] => (L, jobs)
  | n :: r =>
      match nth_error jobs n with
      | Some j => let '(L', j') := move L j in run_jobs move r L' (set_job n j' jobs)
      | None => run_jobs move r L jobs
      end
  end.
Definition new_job (d : list piece) : job := Protecting d false [].
