(** What regular expressions mean, independently of the matcher, and how they are written. *)
From Coq Require Import String Ascii List ZArith NArith Bool.
From Verif Require Import GoStr Utf8 ReModel ReSyntaxModel.
Import ListNotations.
Local Open Scope char_scope.

(** ** Matching *)
(** The place after the first character *)
Definition next_place (p : place) : place := (last_byte (firstn (snd (decode (snd p))) (snd p)), skipn (snd (decode (snd p))) (snd p)).
Definition at_line_start (p : place) : Prop := fst p = None \/ fst p = Some NLc.
Definition at_line_end (p : place) : Prop := snd p = [] \/ exists s, snd p = NLc :: s.

(** Is the character before (after) the place a letter, a digit or an underscore? *)
Definition word_char (c : ascii) : bool := existsb (Ascii.eqb c) $"0123456789ABCDEFGHIJKLMNOPQRSTUVWXYZ_abcdefghijklmnopqrstuvwxyz".
Definition word_before (p : place) : bool := match fst p with Some c => word_char c | None => false end.
Definition word_after (p : place) : bool := match snd p with c :: _ => word_char c | [] => false end.

(** The expression matches the text from p to q. *)
Inductive matches : re -> place -> place -> Prop :=
| m_nil p : matches RNil p p
| m_byte f b c s : f c = true -> matches (RByte f) (b, c :: s) (Some c, s)
| m_rune c p : snd p <> [] -> in_class c (fst (decode (snd p))) = true -> matches (RRune c) p (next_place p)
| m_seq a b p x q : matches a p x -> matches b x q -> matches (RSeq a b) p q
| m_left a b p q : matches a p q -> matches (RAlt a b) p q
| m_right a b p q : matches b p q -> matches (RAlt a b) p q
| m_stop g a p : matches (RStar g a) p p
| m_more g a p x q : matches a p x -> matches (RStar g a) x q -> matches (RStar g a) p q
| m_group n a p q : matches a p q -> matches (RGroup n a) p q
| m_bol p : at_line_start p -> matches RBol p p
| m_eol p : at_line_end p -> matches REol p p
| m_bot p : fst p = None -> matches RBot p p
| m_eot p : snd p = [] -> matches REot p p
| m_word p : word_before p <> word_after p -> matches RBound p p.

(** n is a group of the expression, around a. *)
Inductive has_group (n : nat) (a : re) : re -> Prop :=
| h_here : has_group n a (RGroup n a)
| h_group m b : has_group n a b -> has_group n a (RGroup m b)
| h_seq1 b c : has_group n a b -> has_group n a (RSeq b c)
| h_seq2 b c : has_group n a c -> has_group n a (RSeq b c)
| h_alt1 b c : has_group n a b -> has_group n a (RAlt b c)
| h_alt2 b c : has_group n a c -> has_group n a (RAlt b c)
| h_star g b : has_group n a b -> has_group n a (RStar g b).

(** All matches of an expression, the preferred ones first: what a backtracking search would find.  A round of a
    star that takes nothing is not a round. *)
Definition shorter (p q : place) : bool := Nat.ltb (List.length (snd p)) (List.length (snd q)).
Fixpoint rounds (greedy : bool) (one : place -> groups -> list (place * groups)) (n : nat) (p : place) (g : groups) : list (place * groups) :=
  let more := match n with
              | O => []
              | S n => flat_map (fun x => rounds greedy one n (fst x) (snd x)) (filter (fun x => shorter (fst x) p) (one p g))
              end in
  if greedy then more ++ [(p, g)] else (p, g) :: more.
Definition when (b : bool) (x : place * groups) : list (place * groups) := if b then [x] else [].
Fixpoint preferred (r : re) (p : place) (g : groups) : list (place * groups) :=
  match r with
  | RNil => [(p, g)]
  | RByte f => match snd p with c :: s => when (f c) ((Some c, s), g) | [] => [] end
  | RRune c => match snd p with [] => [] | _ => when (in_class c (fst (decode (snd p)))) (next_place p, g) end
  | RSeq a b => flat_map (fun x => preferred b (fst x) (snd x)) (preferred a p g)
  | RAlt a b => preferred a p g ++ preferred b p g
  | RStar greedy a => rounds greedy (preferred a) (List.length (snd p)) p g
  | RGroup n a => map (fun x => (fst x, (n, taken p (fst x)) :: snd x)) (preferred a p g)
  | RBol => when (match fst p with None => true | Some c => Ascii.eqb c NLc end) (p, g)
  | REol => when (match snd p with [] => true | c :: _ => Ascii.eqb c NLc end) (p, g)
  | RBot => when (match fst p with None => true | Some _ => false end) (p, g)
  | REot => when (match snd p with [] => true | _ => false end) (p, g)
  | RBound => when (xorb (word_before p) (word_after p)) (p, g)
  end.

(** The text taken character by character: p, ..., q. *)
Inductive steps : place -> str -> place -> Prop :=
| s_here p : steps p [] p
| s_next p u q : snd p <> [] -> steps (next_place p) u q -> steps p (firstn (snd (decode (snd p))) (snd p) ++ u) q.

(** ** Replacing: the text from left to right, character by character.  [last] tells that a match ended here: an
    empty match is then not one. *)
Inductive part := Copied (s : str) | Matched (s : str) (g : groups).
Definition counts (last : bool) (r : re) (p : place) (q : place) (g : groups) : Prop :=
  match_at r p = Some (q, g) /\ (last = true -> taken p q <> []).
Inductive scan (r : re) : bool -> place -> list part -> Prop :=
| sc_end last p : snd p = [] -> (forall q g, ~ counts last r p q g) -> scan r last p []
| sc_copy last p l : snd p <> [] -> (forall q g, ~ counts last r p q g) -> scan r false (next_place p) l ->
    scan r last p (Copied (firstn (snd (decode (snd p))) (snd p)) :: l)
| sc_match last p q g l : counts last r p q g -> taken p q <> [] -> scan r true q l -> scan r last p (Matched (taken p q) g :: l)
| sc_empty p q g l : counts false r p q g -> taken p q = [] -> scan r true p l -> scan r false p (Matched [] g :: l).
Definition part_text (x : part) : str := match x with Copied s => s | Matched s _ => s end.
Definition part_output (repl : str -> groups -> str) (x : part) : str := match x with Copied s => s | Matched s g => repl s g end.

(** ** Syntax *)
Inductive hexcase := Lower | Upper.
Definition hex_digit (h : hexcase) (n : nat) : ascii :=
  nth n (match h with Lower => $"0123456789abcdef" | Upper => $"0123456789ABCDEF" end) "0".
(** A character: itself, after a backslash, by its code, or a line end or tab *)
Inductive xchar := XPlain (c : ascii) | XQuoted (c : ascii) | XHex (h : hexcase) (n : nat) | XNewline | XTab.
(** Named classes: \d \w \W \s \p{L} *)
Inductive xset := XDigit | XWord | XNonWord | XSpace | XNonSpace | XLetter.
Inductive xitem := IChar (c : xchar) | ISet (s : xset) | IRange (a b : xchar) | IBlank.
Inductive xquant := QOne | QStar (lazy : bool) | QPlus (lazy : bool) | QOpt | QRepeat (n m : nat).
Inductive atom :=
| AChar (c : xchar) | ASet (s : xset) | AAny | ABegin | AEnd | ABoundary | AClass (negated : bool) (l : list xitem)
| AGroup (name : option str) (x : syn)
| APlain (x : syn)
with syn :=
| SEnd
| SBar (x : syn)
| SFlags (m s : bool) (x : syn)
| SAtom (a : atom) (q : xquant) (x : syn).

Definition char_text (c : xchar) : str :=
  match c with
  | XPlain c => [c]
  | XQuoted c => ["\"; c]
  | XHex h n => ["\"; "x"; hex_digit h (Nat.div n 16); hex_digit h (Nat.modulo n 16)]
  | XNewline => $"\n"
  | XTab => $"\t"
  end.
Definition set_text (s : xset) : str := match s with XDigit => $"\d" | XWord => $"\w" | XNonWord => $"\W" | XSpace => $"\s" | XNonSpace => $"\S" | XLetter => $"\p{L}" end.
Definition item_text (i : xitem) : str :=
  match i with
  | IChar c => char_text c
  | ISet s => set_text s
  | IRange a b => char_text a ++ $"-" ++ char_text b
  | IBlank => $"[:blank:]"
  end.
Definition quant_text (q : xquant) : str :=
  match q with
  | QOne => []
  | QStar l => "*" :: if l then $"?" else []
  | QPlus l => "+" :: if l then $"?" else []
  | QOpt => $"?"
  | QRepeat n m => $"{" ++ itoa (Z.of_nat n) ++ $"," ++ itoa (Z.of_nat m) ++ $"}"
  end.
Definition flag_text (m s : bool) : str := (if m then $"m" else []) ++ (if s then $"s" else []).
Fixpoint atom_text (a : atom) : str :=
  match a with
  | AChar c => char_text c
  | ASet s => set_text s
  | AAny => $"."
  | ABegin => $"^"
  | AEnd => $"$"
  | ABoundary => $"\b"
  | AClass n l => $"[" ++ (if n then $"^" else []) ++ flat_map item_text l ++ $"]"
  | AGroup None x => $"(" ++ syn_text x ++ $")"
  | AGroup (Some n) x => $"(?P<" ++ n ++ $">" ++ syn_text x ++ $")"
  | APlain x => $"(?:" ++ syn_text x ++ $")"
  end
with syn_text (x : syn) : str :=
  match x with
  | SEnd => []
  | SBar x => $"|" ++ syn_text x
  | SFlags m s x => $"(?" ++ flag_text m s ++ $")" ++ syn_text x
  | SAtom a q x => atom_text a ++ quant_text q ++ syn_text x
  end.

(** Characters that stand for themselves outside of classes, and inside *)
Definition special : str := $"\.+*?()|[]{}^$".
Definition class_special : str := $"\[]^-".
Definition low_char (c : ascii) : Prop := (N_of_ascii c < 128)%N.
Definition char_ok (sp : str) (c : xchar) : Prop :=
  match c with
  | XPlain c => low_char c /\ ~ In c sp
  | XQuoted c => low_char c /\ is_word_rune (N_of_ascii c) = false
  | XHex _ n => n < 128
  | _ => True
  end.
Definition item_ok (i : xitem) : Prop :=
  match i with
  | IChar c => char_ok class_special c
  | IRange a b => char_ok class_special a /\ char_ok class_special b
  | _ => True
  end.
Definition quant_ok (q : xquant) : Prop := match q with QRepeat n m => n <= m | _ => True end.
Fixpoint atom_ok (a : atom) : Prop :=
  match a with
  | AChar c => char_ok special c
  | AClass _ l => l <> [] /\ Forall item_ok l
  | AGroup None x => syn_ok x
  | AGroup (Some n) x => ~ In ">" n /\ syn_ok x
  | APlain x => syn_ok x
  | _ => True
  end
with syn_ok (x : syn) : Prop :=
  match x with
  | SEnd => True
  | SBar x => syn_ok x
  | SFlags m s x => (m = true \/ s = true) /\ syn_ok x
  | SAtom a q x => atom_ok a /\ quant_ok q /\ syn_ok x
  end.

(** *** Meaning *)
Definition char_code (c : xchar) : N :=
  match c with
  | XPlain c | XQuoted c => N_of_ascii c
  | XHex _ n => N.of_nat n
  | XNewline => 10%N
  | XTab => 9%N
  end.
Section Meaning.
Variable beyond : N -> bool.
Definition is_in (lo hi n : N) : bool := N.leb lo n && N.leb n hi.
Definition ascii_letter (n : N) : bool := is_in 65 90 n || is_in 97 122 n.
Definition set_has (s : xset) (n : N) : bool :=
  match s with
  | XDigit => is_in 48 57 n
  | XWord => ascii_letter n || is_in 48 57 n || N.eqb n 95
  | XNonWord => negb (ascii_letter n || is_in 48 57 n || N.eqb n 95)
  | XSpace => existsb (N.eqb n) [9; 10; 12; 13; 32]%N
  | XNonSpace => negb (existsb (N.eqb n) [9; 10; 12; 13; 32]%N)
  | XLetter => ascii_letter n || (N.leb 128 n && beyond n)
  end.
Definition item_has (i : xitem) (n : N) : bool :=
  match i with
  | IChar c => N.eqb n (char_code c)
  | ISet s => set_has s n
  | IRange a b => is_in (char_code a) (char_code b) n
  | IBlank => existsb (N.eqb n) [9; 32]%N
  end.
(** The number of groups *)
Fixpoint atom_groups (a : atom) : nat := match a with AGroup _ x => S (syn_groups x) | APlain x => syn_groups x | _ => 0 end
with syn_groups (x : syn) : nat := match x with SEnd => 0 | SBar x | SFlags _ _ x => syn_groups x | SAtom a _ x => atom_groups a + syn_groups x end.
(** The groups with a name, numbered by their opening parentheses; n groups are before *)
Fixpoint atom_names (n : nat) (a : atom) : list (str * nat) :=
  match a with
  | AGroup name x => match name with Some s => [(s, S n)] | None => [] end ++ syn_names (S n) x
  | APlain x => syn_names n x
  | _ => []
  end
with syn_names (n : nat) (x : syn) : list (str * nat) :=
  match x with
  | SEnd => []
  | SBar x | SFlags _ _ x => syn_names n x
  | SAtom a _ x => atom_names n a ++ syn_names (n + atom_groups a) x
  end.
(** a{n,m}: n times a, then up to m - n times *)
Fixpoint up_to (m : nat) (a : re) : re := match m with O => RNil | S m => RAlt (RSeq a (up_to m a)) RNil end.
Fixpoint times (n : nat) (a b : re) : re := match n with O => b | S n => RSeq a (times n a b) end.
Definition quant_re (q : xquant) (a : re) : re :=
  match q with
  | QOne => a
  | QStar l => RStar (negb l) a
  | QPlus l => RSeq a (RStar (negb l) a)
  | QOpt => RAlt a RNil
  | QRepeat n m => times n a (up_to (m - n) a)
  end.
Definition one_of (l : list re) : re := match l with [] => RNil | x :: l => fold_left RAlt l x end.
(** The flags m and s; n groups are before.  The alternatives of a text: flags hold up to the end of the group. *)
Fixpoint atom_re (m s : bool) (n : nat) (a : atom) : re :=
  match a with
  | AChar c => RByte (Ascii.eqb (ascii_of_N (char_code c)))
  | ASet x => RRune (CTest (set_has x))
  | AAny => RRune (CTest (fun n => s || negb (N.eqb n 10)))
  | ABegin => if m then RBol else RBot
  | AEnd => if m then REol else REot
  | ABoundary => RBound
  | AClass negated l => RRune (CTest (fun n => xorb negated (existsb (fun i => item_has i n) l)))
  | AGroup _ x => RGroup (S n) (one_of (alternatives m s (S n) x))
  | APlain x => one_of (alternatives m s n x)
  end
with alternatives (m s : bool) (n : nat) (x : syn) : list re :=
  match x with
  | SEnd => [RNil]
  | SBar x => RNil :: alternatives m s n x
  | SFlags m' s' x => alternatives (m || m') (s || s') n x
  | SAtom a q x =>
      match alternatives m s (n + atom_groups a) x with
      | first :: others => RSeq (quant_re q (atom_re m s n a)) first :: others
      | [] => []
      end
  end.
End Meaning.
(** The two expressions find the same matches, with the same preference. *)
Definition same (a b : re) : Prop := forall R p g (k : place -> groups -> option R), rmatch a p g k = rmatch b p g k.

(** *** Templates of replacements *)
Inductive tpart := TText (s : str) | TDollar | TName (name : str) | TBraces (name : str).
Definition name_char (c : ascii) : Prop := let n := N_of_ascii c in is_in 48 57 n = true \/ ascii_letter n = true \/ c = "_".
Definition name_ok (n : str) : Prop := n <> [] /\ Forall name_char n.
Definition tpart_text (t : tpart) : str := match t with TText s => s | TDollar => $"$$" | TName n => $"$" ++ n | TBraces n => $"${" ++ n ++ $"}" end.
Definition tpart_output (value : str -> str) (t : tpart) : str := match t with TText s => s | TDollar => $"$" | TName n | TBraces n => value n end.
Definition starts_apart (s : str) : Prop := match s with [] => True | c :: _ => (N_of_ascii c < 128)%N /\ ~ name_char c end.
Fixpoint tparts_ok (l : list tpart) : Prop :=
  match l with
  | [] => True
  | t :: l => match t with
              | TText s => ~ In "$" s
              | TDollar => True
              | TName n => name_ok n /\ starts_apart (flat_map tpart_text l)
              | TBraces n => name_ok n
              end /\ tparts_ok l
  end.

(** A name that is not a decimal number without leading zeros *)
Definition not_number (name : str) : Prop := (exists c, In c name /\ ~ (48 <= N_of_ascii c <= 57)%N) \/ (exists c r, name = "0" :: c :: r).
