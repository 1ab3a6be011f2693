(** A reader for a small part of the bash language: assignments of words, arrays and associative
    arrays.  Anything else (expansions, globbing, other metacharacters) is not described: the reader
    gives None. *)
From Coq Require Import String Ascii List ZArith NArith Bool Permutation Sorted.
From Verif Require Import GoStr ValueModel.
Import ListNotations.
Local Open Scope N_scope.

Definition is_in (c : ascii) (s : str) : bool := existsb (Ascii.eqb c) s.
Definition alnum (c : ascii) : bool :=
  let n := N_of_ascii c in ((48 <=? n) && (n <=? 57)) || ((65 <=? n) && (n <=? 90)) || ((97 <=? n) && (n <=? 122)).
Definition name_char (c : ascii) : bool := alnum c || Ascii.eqb c "_".
(** Characters without any special meaning in a word. *)
Definition ordinary (c : ascii) : bool := name_char c || is_in c $"-./:@%+=,^" || (128 <=? N_of_ascii c).

Definition add_front (a : str) (r : option (str * str)) : option (str * str) :=
  match r with Some (t, rest) => Some (a ++ t, rest) | None => None end.

(** A word, up to the first blank, newline or closing parenthesis that is not quoted. *)
Fixpoint shell_word (quoted : bool) (s : str) : option (str * str) :=
  match s with
  | [] => if quoted then None else Some ([], [])
  | c :: r =>
      if Ascii.eqb c DQ then shell_word (negb quoted) r
      else if Ascii.eqb c BSL then
        match r with
        | [] => None
        | d :: r' =>
            if Ascii.eqb d NL then shell_word quoted r'
            else if negb quoted || is_in d [DQ; BSL; BQ; "$"%char] then add_front [d] (shell_word quoted r')
            else add_front [c] (shell_word quoted r)
        end
      else if quoted then if is_in c [BQ; "$"%char] then None else add_front [c] (shell_word true r)
      else if is_in c [SP; TAB; NL; ")"%char] then Some ([], s)
      else if ordinary c then add_front [c] (shell_word false r) else None
  end.

(** Words up to the closing parenthesis. *)
Fixpoint shell_words (fuel : nat) (s : str) : option (list str * str) :=
  match fuel, s with
  | S fuel, c :: r =>
      if Ascii.eqb c ")" then Some ([], r)
      else if is_in c [SP; TAB; NL] then shell_words fuel r
      else match shell_word false s with
           | Some (w, rest) => match shell_words fuel rest with Some (ws, r) => Some (w :: ws, r) | None => None end
           | None => None
           end
  | _, _ => None
  end.

Fixpoint span (p : ascii -> bool) (s : str) : str * str :=
  match s with
  | c :: r => if p c then let (a, b) := span p r in (c :: a, b) else ([], s)
  | [] => ([], [])
  end.

(** Entries [key]=word up to the closing parenthesis. *)
Fixpoint shell_entries (fuel : nat) (s : str) : option (list (str * str) * str) :=
  match fuel, s with
  | S fuel, c :: r =>
      if Ascii.eqb c ")" then Some ([], r)
      else if is_in c [SP; TAB; NL] then shell_entries fuel r
      else if Ascii.eqb c "[" then
        match span ordinary r with
        | (k, "]"%char :: "="%char :: r) =>
            match k, shell_word false r with
            | _ :: _, Some (w, rest) => match shell_entries fuel rest with Some (es, r) => Some ((k, w) :: es, r) | None => None end
            | _, _ => None
            end
        | _ => None
        end
      else None
  | _, _ => None
  end.

(** What a variable holds. *)
Inductive bound := Text (s : str) | Array (l : list str) | Table (l : list (str * str)).
Fixpoint lookup (vars : list (str * bound)) (n : str) : option bound :=
  match vars with [] => None | (k, b) :: r => if str_eqb k n then Some b else lookup r n end.
Fixpoint store (vars : list (str * bound)) (n : str) (b : bound) : list (str * bound) :=
  match vars with [] => [(n, b)] | (k, a) :: r => if str_eqb k n then (k, b) :: r else (k, a) :: store r n b end.

Definition is_name (n : str) : bool :=
  match n with [] => false | c :: _ => forallb name_char n && negb ((48 <=? N_of_ascii c) && (N_of_ascii c <=? 57)) end.
Definition line_end (s : str) : bool := match s with [] => true | c :: _ => Ascii.eqb c NL end.

(** One statement: the variables afterwards and the rest of the line. *)
Definition declaration (vars : list (str * bound)) (s : str) (b : bound) : option (list (str * bound) * str) :=
  let (n, r) := span name_char s in if is_name n && line_end r then Some (store vars n b, r) else None.
Definition assignment (fuel : nat) (vars : list (str * bound)) (s : str) : option (list (str * bound) * str) :=
  let (n, r) := span name_char s in
  if negb (is_name n) then None else
  match r with
  | "="%char :: r =>
      match r with
      | "("%char :: r =>
          match lookup vars n with
          | Some (Table _) => match shell_entries fuel r with Some (es, r) => Some (store vars n (Table es), r) | None => None end
          | _ => match shell_words fuel r with Some (ws, r) => Some (store vars n (Array ws), r) | None => None end
          end
      | _ => match shell_word false r with Some (w, r) => Some (store vars n (Text w), r) | None => None end
      end
  | _ => None
  end.
Definition statement (fuel : nat) (vars : list (str * bound)) (s : str) : option (list (str * bound) * str) :=
  if has_prefix $"declare -a " s then declaration vars (skipn 11 s) (Array [])
  else if has_prefix $"declare -A " s then declaration vars (skipn 11 s) (Table [])
  else assignment fuel vars s.

(** A script: the variables it leaves, in order of first assignment. *)
Fixpoint shell_run (fuel : nat) (vars : list (str * bound)) (s : str) : option (list (str * bound)) :=
  match fuel, s with
  | _, [] => Some vars
  | S fuel, c :: r =>
      if Ascii.eqb c NL then shell_run fuel vars r
      else match statement fuel vars s with
           | Some (vars, r) => if line_end r then shell_run fuel vars r else None
           | None => None
           end
  | O, _ => None
  end.
Definition shell (s : str) : option (list (str * bound)) := shell_run (S (List.length s)) [] s.

(** ** Data that can be rendered *)

(** Printable ASCII without backquote. *)
Definition printable (c : ascii) : bool := let n := N_of_ascii c in (32 <=? n) && (n <=? 126) && negb (n =? 96).
Definition is_dollar (c : ascii) : bool := Ascii.eqb c "$".

(** Texts quoted because of one of the given characters consist of printable characters, others of
    ordinary ones; [dollar] tells whether dollar signs are possible. *)
Definition readable (triggers : str) (dollar : bool) (s : str) : Prop :=
  if existsb (fun c => is_in c triggers) s
  then Forall (fun c => printable c = true /\ (is_dollar c = true -> dollar = true)) s
  else Forall (fun c => ordinary c = true \/ (dollar = true /\ is_dollar c = true)) s.
Definition value_triggers : str := [SP; TAB; NL] ++ $"[]()".
Definition item_triggers : str := [SP; TAB] ++ $",[]()".

(** The text of a scalar of native data. *)
Inductive shown : value -> str -> Prop :=
| shown_str s : shown (VScal (SStr false s)) s
| shown_int k z : shown (VScal (SInt k z)) (itoa z)
| shown_true : shown (VScal (SBool true)) $"true"
| shown_false : shown (VScal (SBool false)) $"false".

(** The entries of a map in key order. *)
Definition in_order {A} (m es : list (str * A)) : Prop :=
  Permutation m es /\ Sorted (fun a b => str_leb (fst a) (fst b) = true) es.

(** The text of a value in an associative array: lists and maps of plain texts become lists with commas. *)
Definition plain_text (s : str) : Prop := Forall (fun c => ~ In c ([SP; TAB; NL] ++ $",[]()")) s.
Fixpoint comma (ts : list str) : str := match ts with [] => [] | [t] => t | t :: ts => t ++ ","%char :: comma ts end.
Inductive inside : value -> str -> Prop :=
| inside_text v t : shown v t -> inside v t
| inside_nil : inside VNil []
| inside_list l ts : Forall2 (fun v t => shown v t /\ plain_text t) l ts -> inside (VSlice 0 l) (comma ts)
| inside_map (m es : list (str * value)) ts : NoDup (map fst m) -> in_order m es ->
    Forall2 (fun (e : str * value) t => exists x, shown (snd e) x /\ plain_text x /\ plain_text (fst e) /\ t = fst e ++ "="%char :: x) es ts ->
    inside (VMap 0 m) (comma ts).

(** What the variable for a value holds. *)
Inductive holds : value -> bound -> Prop :=
| holds_text v t : shown v t -> readable value_triggers false t -> holds v (Text t)
| holds_nil : holds VNil (Array [])
| holds_list l ts : Forall2 (fun v t => shown v t /\ t <> [] /\ readable item_triggers false t) l ts -> holds (VSlice 0 l) (Array ts)
| holds_map (m es : list (str * value)) (ts : list (str * str)) : NoDup (map fst m) -> in_order m es ->
    Forall2 (fun (e : str * value) (kt : str * str) => fst kt = fst e /\ fst e <> [] /\ forallb ordinary (fst e) = true /\
                         inside (snd e) (snd kt) /\ readable value_triggers true (snd kt)) es ts ->
    holds (VMap 0 m) (Table ts).
