(** Regular expressions of package regexp (RE2 syntax, leftmost-first matching), as far as the modelled code
    needs them.  The match found is the one a backtracking search finds first; this is the rule of package
    regexp (documentation of regexp: "it chooses the one that a backtracking search would have found first").
    A class is given by its test on runes, or on bytes where this makes no difference (classes of ASCII
    characters and their complements, literal texts). *)
From Coq Require Import String Ascii List ZArith NArith Bool.
From Verif Require Import GoStr Utf8.
Import ListNotations.

(** Classes of characters *)
Inductive rclass :=
| CRange (lo hi : N)            (* the characters from lo to hi *)
| CTest (f : N -> bool)         (* a named class *)
| COr (a b : rclass)
| CNot (a : rclass).
Fixpoint in_class (c : rclass) (n : N) : bool :=
  match c with
  | CRange lo hi => N.leb lo n && N.leb n hi
  | CTest f => f n
  | COr a b => in_class a n || in_class b n
  | CNot a => negb (in_class a n)
  end.
(** No character *)
Definition CNone : rclass := CRange 1 0.

Inductive re :=
| RNil                          (* the empty expression *)
| RByte (f : ascii -> bool)     (* one byte of a class *)
| RRune (c : rclass)            (* one character of a class *)
| RSeq (a b : re)
| RAlt (a b : re)               (* a|b *)
| RStar (greedy : bool) (a : re)   (* a* and a*? *)
| RGroup (n : nat) (a : re)     (* group number n *)
| RBol                          (* ^ with flag m *)
| REol                          (* $ with flag m *)
| RBot                          (* ^ without it *)
| REot                          (* $ without it *)
| RBound.                       (* \b: the boundary of a word *)

(** a?: the option is tried first. *)
Definition ROpt (a : re) : re := RAlt a RNil.
(** a literal text *)
Fixpoint RText (s : str) : re :=
  match s with
  | [] => RNil
  | c :: r => RSeq (RByte (Ascii.eqb c)) (RText r)
  end.

(** A place in the text: the byte before it, if any, and the text after it. *)
Definition place := (option ascii * str)%type.
(** The groups set so far, the latest first. *)
Definition groups := list (nat * str).

Definition NLc : ascii := "010"%char.
(** The text between two places. *)
Definition taken (a b : place) : str := firstn (length (snd a) - length (snd b)) (snd a).

Definition last_byte (s : str) : option ascii := nth_error (rev s) 0.

(** The loop of a star on the expression matched by [m]: another round must consume something.  The number n
    bounds the rounds; the length of the text is enough. *)
Fixpoint star_loop {R} (greedy : bool) (m : place -> groups -> (place -> groups -> option R) -> option R)
    (k : place -> groups -> option R) (n : nat) (p : place) (g : groups) : option R :=
  match n with
  | O => k p g
  | S n =>
      let more := m p g (fun p' g' => if Nat.ltb (length (snd p')) (length (snd p)) then star_loop greedy m k n p' g' else None) in
      if greedy then match more with Some x => Some x | None => k p g end
      else match k p g with Some x => Some x | None => more end
  end.

(** The letters, digits and underscore of \b, only ASCII, and a place between one and something else *)
Definition word_byte (c : ascii) : bool :=
  let n := N_of_ascii c in
  (N.leb 48 n && N.leb n 57) || (N.leb 65 n && N.leb n 90) || (N.leb 97 n && N.leb n 122) || N.eqb n 95.
Definition at_boundary (p : place) : bool :=
  xorb (match fst p with None => false | Some c => word_byte c end)
       (match snd p with [] => false | c :: _ => word_byte c end).

(** Does the expression match at the place, in such a way that the rest k succeeds? *)
Fixpoint rmatch {R} (r : re) (p : place) (g : groups) (k : place -> groups -> option R) : option R :=
  match r with
  | RNil => k p g
  | RByte f =>
      match snd p with
      | c :: s => if f c then k (Some c, s) g else None
      | [] => None
      end
  | RRune f =>
      match snd p with
      | [] => None
      | s => let '(r, w) := decode s in if in_class f r then k (last_byte (firstn w s), skipn w s) g else None
      end
  | RSeq a b => rmatch a p g (fun p g => rmatch b p g k)
  | RAlt a b => match rmatch a p g k with Some x => Some x | None => rmatch b p g k end
  | RStar greedy a => star_loop greedy (fun p g k => rmatch a p g k) k (length (snd p)) p g
  | RGroup n a => rmatch a p g (fun p' g' => k p' ((n, taken p p') :: g'))
  | RBol => match fst p with
            | None => k p g
            | Some c => if Ascii.eqb c NLc then k p g else None
            end
  | REol => match snd p with
            | [] => k p g
            | c :: _ => if Ascii.eqb c NLc then k p g else None
            end
  | RBot => match fst p with None => k p g | Some _ => None end
  | REot => match snd p with [] => k p g | _ => None end
  | RBound => if at_boundary p then k p g else None
  end.

(** The text of a group; a group that took no part in the match is empty in FindStringSubmatch. *)
Fixpoint group (n : nat) (g : groups) : str :=
  match g with
  | [] => []
  | (m, s) :: g => if Nat.eqb n m then s else group n g
  end.

(** FindStringSubmatch: the first place of the text where the expression matches. *)
Fixpoint find_submatch (r : re) (prev : option ascii) (s : str) : option groups :=
  match rmatch r (prev, s) [] (fun _ g => Some g) with
  | Some g => Some g
  | None => match s with
            | [] => None
            | c :: s => find_submatch r (Some c) s
            end
  end.

(** \s and [^\s] of RE2: blank, tab, newline, form feed, carriage return *)
Definition re_space (c : ascii) : bool := existsb (Ascii.eqb c) [" "; "009"; "010"; "012"; "013"]%char.
(** [ \t] *)
Definition re_blank (c : ascii) : bool := Ascii.eqb c " " || Ascii.eqb c "009".
