(** The syntax of regular expressions (regexp/syntax) as far as it is used by template/razor.go: groups, named
    groups, classes, repetitions, the flags m and s.  [beyond] is the Unicode class L beyond ASCII. *)
From Coq Require Import String Ascii List ZArith NArith Bool.
From Verif Require Import GoStr Utf8 ReModel.
Import ListNotations.
Local Open Scope char_scope.

Section Syntax.
Variable beyond : N -> bool.

Definition between (lo hi n : N) : bool := N.leb lo n && N.leb n hi.
(** \p{L} *)
Definition letter (n : N) : bool := if N.ltb n 128 then between 65 90 n || between 97 122 n else beyond n.
Definition is_digit_rune (n : N) : bool := between 48 57 n.
Definition is_word_rune (n : N) : bool := is_digit_rune n || between 65 90 n || between 97 122 n || N.eqb n 95.
Definition c_char (n : N) : rclass := CRange n n.
Definition c_digit : rclass := CRange 48 57.
Definition c_word : rclass := COr c_digit (COr (CRange 65 90) (COr (CRange 97 122) (c_char 95))).
Definition c_space : rclass := COr (c_char 32) (COr (CRange 9 10) (CRange 12 13)).
Definition c_blank : rclass := COr (c_char 32) (c_char 9).
Definition hex_val (c : ascii) : N :=
  let n := N_of_ascii c in
  (if between 48 57 n then n - 48 else if between 97 102 n then n - 87 else n - 55)%N.

(** The class of an escape, or the character it stands for, and the text after it. *)
Inductive escape := EClass (f : rclass) | EChar (n : N).
Definition parse_escape (s : str) : option (escape * str) :=
  match s with
  | "d" :: r => Some (EClass c_digit, r)
  | "w" :: r => Some (EClass c_word, r)
  | "W" :: r => Some (EClass (CNot c_word), r)
  | "s" :: r => Some (EClass c_space, r)
  | "S" :: r => Some (EClass (CNot c_space), r)
  | "p" :: "{" :: "L" :: "}" :: r => Some (EClass (CTest letter), r)
  | "n" :: r => Some (EChar 10%N, r)
  | "t" :: r => Some (EChar 9%N, r)
  | "x" :: a :: b :: r => Some (EChar (hex_val a * 16 + hex_val b)%N, r)
  | c :: r => if is_word_rune (N_of_ascii c) then None else Some (EChar (N_of_ascii c), r)
  | [] => None
  end.

(** One character of a class: an escape or a rune. *)
Definition class_char (s : str) : option (escape * str) :=
  match s with
  | "\" :: r => parse_escape r
  | [] => None
  | _ => let '(n, w) := decode s in Some (EChar n, skipn w s)
  end.

(** The rest of a class, after the opening bracket and the caret. *)
Fixpoint parse_class (fuel : nat) (f : rclass) (s : str) : option (rclass * str) :=
  match fuel with
  | O => None
  | S fuel =>
      match s with
      | "]" :: r => Some (f, r)
      | "[" :: ":" :: "b" :: "l" :: "a" :: "n" :: "k" :: ":" :: "]" :: r => parse_class fuel (COr f c_blank) r
      | _ =>
          match class_char s with
          | Some (EClass g, r) => parse_class fuel (COr f g) r
          | Some (EChar a, r) =>
              match r with
              | "-" :: c :: _ =>
                  if Ascii.eqb c "]" then parse_class fuel (COr f (c_char a)) r
                  else match class_char (tl r) with
                       | Some (EChar b, r) => parse_class fuel (COr f (CRange a b)) r
                       | _ => None
                       end
              | _ => parse_class fuel (COr f (c_char a)) r
              end
          | None => None
          end
      end
  end.

(** The state of the parser: the flags m and s, the number of groups so far and their names. *)
Record pstate := { p_m : bool; p_s : bool; p_groups : nat; p_names : list (str * nat) }.
Definition with_flags (m s : bool) (st : pstate) : pstate := {| p_m := m; p_s := s; p_groups := p_groups st; p_names := p_names st |}.
Definition new_group (name : option str) (st : pstate) : nat * pstate :=
  let n := S (p_groups st) in
  (n, {| p_m := p_m st; p_s := p_s st; p_groups := n; p_names := match name with Some a => (a, n) :: p_names st | None => p_names st end |}).

Fixpoint until (c : ascii) (s : str) : option (str * str) :=
  match s with
  | [] => None
  | d :: r => if Ascii.eqb c d then Some ([], r) else option_map (fun x => (d :: fst x, snd x)) (until c r)
  end.

(** {n,m} *)
Definition digits (s : str) : str * str :=
  (fix go (s : str) : str * str := match s with
                                   | c :: r => if is_digit_rune (N_of_ascii c) then let '(a, b) := go r in (c :: a, b) else ([], s)
                                   | [] => ([], [])
                                   end) s.
Definition number (s : str) : nat := fold_left (fun n c => 10 * n + N.to_nat (N_of_ascii c - 48)) s 0.
Definition parse_repeat (s : str) : option (nat * nat * str) :=
  match s with
  | "{" :: r =>
      let '(a, r) := digits r in
      match r with
      | "," :: r =>
          let '(b, r) := digits r in
          match r with
          | "}" :: r => if str_eqb a [] || str_eqb b [] then None else Some (number a, number b, r)
          | _ => None
          end
      | _ => None
      end
  | _ => None
  end.
(** a{n,m} *)
Fixpoint ropts (m : nat) (a : re) : re := match m with O => RNil | S m => ROpt (RSeq a (ropts m a)) end.
Fixpoint rtimes (n : nat) (a b : re) : re := match n with O => b | S n => RSeq a (rtimes n a b) end.
Definition rrepeat (n m : nat) (a : re) : re := rtimes n a (ropts (m - n) a).

(** The repetition signs after an expression. *)
Definition lazy (s : str) : bool * str := match s with "?" :: r => (true, r) | _ => (false, s) end.
Definition quantify (a : re) (s : str) : re * str :=
  match s with
  | "*" :: r => let '(l, r) := lazy r in (RStar (negb l) a, r)
  | "+" :: r => let '(l, r) := lazy r in (RSeq a (RStar (negb l) a), r)
  | "?" :: r => (ROpt a, r)
  | _ => match parse_repeat s with
         | Some (n, m, r) => (rrepeat n m a, r)
         | None => (a, s)
         end
  end.

(** The flags of (?m), (?s), (?sm) *)
Fixpoint parse_flags (m d : bool) (s : str) : option (bool * bool * str) :=
  match s with
  | ")" :: r => Some (m, d, r)
  | "m" :: r => parse_flags true d r
  | "s" :: r => parse_flags m true r
  | _ => None
  end.

(** An alternation up to the closing parenthesis or the end: the expression and the rest.  [done] is the
    expression of the alternatives read so far (if any) and [cur] the one being read. *)
Fixpoint parse_re (fuel : nat) (st : pstate) (done : option re) (cur : list re) (s : str) : option (re * pstate * str) :=
  match fuel with
  | O => None
  | S fuel =>
      let sequence := fold_left (fun acc a => match acc with RNil => a | _ => RSeq a acc end) cur RNil in
      let whole := match done with None => sequence | Some d => RAlt d sequence end in
      let atom a st r := let '(a, r) := quantify a r in parse_re fuel st done (a :: cur) r in
      let sub name r :=
        let '(n, st1) := new_group name st in
        match parse_re fuel st1 None [] r with
        | Some (a, st2, ")" :: r) => let st2 := with_flags (p_m st) (p_s st) st2 in
            let '(a, r) := quantify (RGroup n a) r in parse_re fuel st2 done (a :: cur) r
        | _ => None
        end in
      match s with
      | [] => Some (whole, st, [])
      | ")" :: _ => Some (whole, st, s)
      | "|" :: r => parse_re fuel st (Some whole) [] r
      | "(" :: "?" :: "P" :: "<" :: r =>
          match until ">" r with
          | Some (name, r) => sub (Some name) r
          | None => None
          end
      | "(" :: "?" :: ":" :: r =>
          match parse_re fuel st None [] r with
          | Some (a, st2, ")" :: r) => atom a (with_flags (p_m st) (p_s st) st2) r
          | _ => None
          end
      | "(" :: "?" :: r =>
          match parse_flags (p_m st) (p_s st) r with
          | Some (m, d, r) => parse_re fuel (with_flags m d st) done cur r
          | None => None
          end
      | "(" :: r => sub None r
      | "[" :: "^" :: r =>
          match parse_class (List.length r) CNone r with
          | Some (f, r) => atom (RRune (CNot f)) st r
          | None => None
          end
      | "[" :: r =>
          match parse_class (List.length r) CNone r with
          | Some (f, r) => atom (RRune f) st r
          | None => None
          end
      | "." :: r => atom (RRune (CNot (if p_s st then CNone else c_char 10))) st r
      | "^" :: r => atom (if p_m st then RBol else RBot) st r
      | "$" :: r => atom (if p_m st then REol else REot) st r
      | "\" :: r =>
          match parse_escape r with
          | Some (EClass f, r) => atom (RRune f) st r
          | Some (EChar n, r) => atom (RByte (Ascii.eqb (ascii_of_N n))) st r
          | None => match r with "b" :: r => atom RBound st r | _ => None end
          end
      | c :: r => if existsb (Ascii.eqb c) ["*"; "+"; "?"] then None else atom (RByte (Ascii.eqb c)) st r
      end
  end.

(** A compiled expression: regexp.MustCompile; None where it panics. *)
Record compiled := { c_re : re; c_names : list (str * nat) }.
Definition compile (s : str) : option compiled :=
  match parse_re (S (List.length s)) {| p_m := false; p_s := false; p_groups := 0; p_names := [] |} None [] s with
  | Some (r, st, []) => Some {| c_re := r; c_names := p_names st |}
  | _ => None
  end.
End Syntax.

(** A group by its number or its name; group 0 is the whole match.  A number has no leading zero: Regexp.Expand takes
    other names for names, and numbers first (the limit of nine digits is left out, there are no such groups). *)
Definition is_number (name : str) : bool :=
  match name with
  | [] => false
  | c :: r => forallb (fun c => is_digit_rune (N_of_ascii c)) name && negb (Ascii.eqb c "0" && match r with [] => false | _ => true end)
  end.
Definition named_group (names : list (str * nat)) (whole : str) (g : groups) (name : str) : str :=
  if is_number name then (if str_eqb name $"0" then whole else group (number name) g)
  else match find (fun x => str_eqb (fst x) name) names with
       | Some (_, n) => group n g
       | None => []
       end.

(** A match at the place: the text taken, the place after it and the groups. *)
Definition match_at (r : re) (p : place) : option (place * groups) := rmatch r p [] (fun q g => Some (q, g)).

(** The first match at or after the place: the text before it, its start, its end. *)
Fixpoint search (fuel : nat) (r : re) (p : place) : option (str * place * place * groups) :=
  match match_at r p with
  | Some (q, g) => Some ([], p, q, g)
  | None =>
      match fuel, snd p with
      | S fuel, c :: s =>
          let w := snd (decode (snd p)) in
          match search fuel r (last_byte (firstn w (snd p)), skipn w (snd p)) with
          | Some (u, a, b, g) => Some (firstn w (snd p) ++ u, a, b, g)
          | None => None
          end
      | _, _ => None
      end
  end.

(** Regexp.ReplaceAllFunc and ReplaceAll (regexp/regexp.go, replaceAll): the matches from left to right; an empty match
    right after the previous match is not replaced.  [after] tells whether the place is the end of the last match. *)
Fixpoint replace_matches (fuel : nat) (r : re) (repl : str -> groups -> str) (after : bool) (p : place) : str :=
  match fuel with
  | O => snd p
  | S fuel =>
      match search (List.length (snd p)) r p with
      | None => snd p
      | Some (u, a, b, g) =>
          let m := taken a b in
          if str_eqb m [] then
            (* an empty match: the next character is copied *)
            let w := snd (decode (snd a)) in
            u ++ (if after && str_eqb u [] then [] else repl m g) ++
            match snd a with
            | [] => []
            | _ => firstn w (snd a) ++ replace_matches fuel r repl false (last_byte (firstn w (snd a)), skipn w (snd a))
            end
          else u ++ repl m g ++ replace_matches fuel r repl true b
      end
  end.
Definition replace_re (r : re) (repl : str -> groups -> str) (s : str) : str := replace_matches (S (List.length s)) r repl false (None, s).
