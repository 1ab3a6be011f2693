(** Text functions: collections/string_util.go and the String methods of collections/string.go. *)
From Coq Require Import String Ascii List ZArith NArith Bool.
From Verif Require Import GoStr Utf8 ValueModel.
Import ListNotations.
Local Open Scope Z_scope.

Definition slen (s : str) : Z := Z.of_nat (List.length s).

(** Padding by fmt with a width taken from the arguments (%*s on the empty string): fmt refuses widths
    above one million.  The width is not negative here. *)
Definition pad (n : Z) : str :=
  if 1000000 <? n then $"%!(BADWIDTH)" else spaces (Z.to_nat n).

(** CenterString: string_util.go:17-25 *)
Definition center_string (s : str) (width : Z) : str :=
  let l := Z.of_nat (rune_count s) in
  if width <? l then s
  else
    let left := Z.quot (width - l) 2 in
    let right := width - left - l in
    pad left ++ s ++ pad right.

(** The loop over the words of a line: string_util.go:43-53.  [cur] is words[start:j], [len] the
    variable length; the result is the list of the groups words[start:j] in order. *)
Fixpoint wrap_words (width : Z) (words cur : list str) (len : Z) : list (list str) :=
  match words with
  | [] => [cur]
  | w :: ws =>
      if (0 <? len) && (width <? len + slen w)
      then cur :: wrap_words width ws [w] (slen w)
      else wrap_words width ws (cur ++ [w]) (len + slen w + match cur with [] => 0 | _ => 1 end)
  end.

(** One line: string_util.go:32-55; the indentation is put before the last group (54). *)
Definition wrap_line (width : Z) (line : str) : list str :=
  if is_blank line then [[]]
  else
    let indent := leading_space line in
    let groups := wrap_words width (fields (trim_right_space line)) [] (slen indent) in
    map (join [SP]) (removelast groups) ++ [indent ++ join [SP] (last groups [])].

(** WrapString: string_util.go:28-58 *)
Definition wrap_string (s : str) (width : Z) : str :=
  join [NL] (flat_map (wrap_line width) (split [NL] s)).

(** UnIndent: string_util.go:123-147.  The loop returns None for "return s" (141). *)
Fixpoint unindent_lines (sp : option str) (lines : list str) : option (list str) :=
  match lines with
  | [] => Some []
  | line :: r =>
      match sp with
      | None =>
          if is_blank line then option_map (cons line) (unindent_lines None r)
          else let p := leading_space line in
               option_map (cons (trim_prefix p line)) (unindent_lines (Some p) r)
      | Some p =>
          if negb (has_prefix p line) && negb (is_blank line) then None
          else option_map (cons (trim_prefix p line)) (unindent_lines (Some p) r)
      end
  end.
Definition unindent (s : str) : str :=
  let lines := split [NL] s in
  if (List.length lines <=? 1)%nat then s
  else match unindent_lines None lines with
       | Some ls => join [NL] ls
       | None => s
       end.

(** Indent, IndentN: string_util.go:150-159.  A negative count makes strings.Repeat panic. *)
Definition indent (s ind : str) : str := join [NL] (map (fun l => ind ++ l) (split [NL] s)).
Definition indent_n (s : str) (n : Z) : res str :=
  if n <? 0 then Panic ($"strings: negative Repeat count") else Ok (indent s (spaces (Z.to_nat n))).

(** Split2: string_util.go:112-119, sep not empty. *)
Definition split2 (source sep : str) : str * str :=
  match split_n2 sep source with
  | [l; r] => (l, r)
  | l :: _ => (l, [])
  | [] => ([], [])
  end.

Section WithEnv.
Context {E : Env}.

(** SplitLines: string_util.go:92-100; Interface2string is the printed form (61-68). *)
Definition split_lines (content : value) : list value :=
  map vstr (split [NL] (trim_suffix [NL] (sprint content))).

(** JoinLines: string_util.go:103-109 *)
Definition join_lines (objects : list value) : str := join [NL] (map sprint objects).

(** Concat: string_util.go:71-77 *)
Definition concat_objects (objects : list value) : str := fold_left (fun acc o => acc ++ sprint o) objects [].

End WithEnv.

(** ** String methods: string.go *)

(** IndexAll: string.go:343-353.  The loop carries [start] and s[start:]. *)
Fixpoint index_all_go (fuel : nat) (sub s : str) (start : nat) : list nat :=
  match fuel with
  | O => []
  | S f =>
      match index sub s with
      | None => []
      | Some pos => (start + pos)%nat
                      :: index_all_go f sub (skipn (pos + List.length sub) s) (start + (pos + List.length sub))%nat
      end
  end.
Definition index_all (s sub : str) : list nat :=
  match sub, s with
  | [], _ | _, [] => []
  | _, _ => index_all_go (List.length s) sub s 0
  end.

(** unicode.IsSpace and unicode.IsPunct on a byte taken as a rune (Latin-1). *)
Definition is_space_latin1 (c : ascii) : bool := is_space_rune (N_of_ascii c).
Definition is_punct_latin1 (c : ascii) : bool :=
  let n := N_of_ascii c in
  existsb (N.eqb n) [33; 34; 35; 37; 38; 39; 40; 41; 42; 44; 45; 46; 47; 58; 59; 63; 64; 91; 92; 93; 95; 123; 125;
                     161; 167; 171; 182; 183; 187; 191]%N.
(** The UTF-8 encoding of such a rune. *)
Definition encode_latin1 (c : ascii) : str :=
  let n := N_of_ascii c in
  if (n <? 128)%N then [c]
  else if (n <? 192)%N then [ascii_of_N 194; c] else [ascii_of_N 195; ascii_of_N (n - 64)].

(** isBreak: string.go:320-322 *)
Definition is_break (accept : str) (c : ascii) : bool :=
  is_space_latin1 c || (is_punct_latin1 c && negb (contains (encode_latin1 c) accept)).

(** The two loops 324-329: number of bytes taken backwards from s[:pos+1] and forwards from s[pos:]. *)
Fixpoint run_length (p : ascii -> bool) (s : str) : nat :=
  match s with [] => O | c :: r => if p c then S (run_length p r) else O end.

(** GetWordAtPosition: string.go:314-334; position -1 with the empty word is (_, -1). *)
Definition word_at (s : str) (pos : Z) (accept : list str) : str * Z :=
  if (pos <? 0) || (slen s <=? pos) then ([], -1)
  else
    let p := Z.to_nat pos in
    let ok := fun c => negb (is_break (concat accept) c) in
    let begin := pos - Z.of_nat (run_length ok (rev (firstn (S p) s))) in
    let end_ := pos + Z.of_nat (run_length ok (skipn p s)) in
    let begin := if begin =? end_ then begin else begin + 1 in
    (firstn (Z.to_nat (end_ - begin)) (skipn (Z.to_nat begin) s), begin).

(** findLeft: string.go:362-367, None for -1. *)
Definition find_left (left s : str) (pos : nat) : option nat :=
  match left with [] => Some pos | _ => last_index left (firstn pos s) end.

(** The loop 379-386 on enclosed delimiters: index in [rights] of the end, or None. *)
Inductive nest := NestAt (r : nat) | NestNone | NestEnd.
Fixpoint nested (lefts rights : list nat) : nest :=
  match lefts, rights with
  | [], [] => NestEnd
  | [], r :: _ => NestAt r
  | _ :: _, [] => NestNone
  | l :: ls, r :: rs => if (r <? l)%nat then NestAt r else nested ls rs
  end.

(** s[b:e] *)
Definition sub_str (s : str) (b e : nat) : str := firstn (e - b) (skipn b s).

(** GetContextAtPosition: string.go:356-398; None is ("", -1). *)
Definition context_at (s : str) (pos : Z) (left right : str) : option (str * nat) :=
  if (pos <? 0) || (slen s <=? pos) then None
  else
    let p := Z.to_nat pos in
    match find_left left s p with
    | None => None
    | Some begin =>
        match right with
        | [] => Some (sub_str s begin (p + 1), begin)
        | _ =>
            match index right (skipn p s) with
            | None => None
            | Some i =>
                let end_ := (i + (p + List.length right))%nat in
                let back := find_left left (firstn end_ s) (end_ - List.length right) in
                if negb (str_eqb left []) && negb (match back with Some b => (b =? begin)%nat | None => false end) then
                  let q := (begin + List.length left)%nat in
                  match nested (index_all (skipn q s) left) (index_all (skipn q s) right) with
                  | NestAt r => Some (sub_str s begin (r + q + List.length right), begin)
                  | _ => None
                  end
                else Some (sub_str s begin end_, begin)
            end
        end
    end.

(** ** Protect *)

(** s.IndexAny with the two quote characters (string.go:420): position of the first quote or backtick. *)
Fixpoint index_quote (s : str) : option nat :=
  match s with
  | [] => None
  | c :: r => if Ascii.eqb c DQ || Ascii.eqb c BQ then Some O else option_map S (index_quote r)
  end.

(** escaped: string.go:411-417; [before] is the text from the opening quote up to the byte before the
    candidate, reversed. *)
Definition escaped (before : str) : bool := Nat.odd (run_length (Ascii.eqb BSL) before).

(** The inner loop 425-440: the text inside the string, given the opening quote [q], what was passed
    (reversed, opening quote included) and what follows; None if there is no closing quote. *)
Fixpoint find_close (q : ascii) (before rest : str) : option (str * str) :=
  match rest with
  | [] => None
  | c :: r =>
      if Ascii.eqb c q then
        if Ascii.eqb c DQ && escaped before then find_close q (c :: before) r
        else Some (rev (c :: before), r)
      else find_close q (c :: before) r
  end.

(** replacementFormat: string.go:453; the spade is U+2660. *)
Definition spade : str := [ascii_of_N 226; ascii_of_N 153; ascii_of_N 160].
Definition token (n : nat) : str := DQ :: spade ++ itoa (Z.of_nat n) ++ [DQ].

(** Protect: string.go:408-443.  [n] is the number of strings already protected. *)
Fixpoint protect_go (fuel : nat) (s : str) (n : nat) : str * list str :=
  match fuel with
  | O => (s, [])
  | S f =>
      match index_quote s with
      | None => (s, [])
      | Some pos =>
          match skipn pos s with
          | [] => (s, [])
          | q :: after =>
              match find_close q [q] after with
              | None => (s, [])
              | Some (quoted, rest) =>
                  let (r, a) := protect_go f rest (S n) in
                  (firstn pos s ++ token n ++ r, quoted :: a)
              end
          end
      end
  end.
Definition protect (s : str) : str * list str := protect_go (S (List.length s)) s 0.

Definition is_digit (c : ascii) : bool := within 48 57 c.
(** strconv.Atoi on decimal digits (overflow is an index error as well, see [restore]). *)
Definition digits_value (ds : str) : N := fold_left (fun n c => (n * 10 + (N_of_ascii c - 48))%N) ds 0%N.

(** One match of replacementRegex ["♠(\d+)"] at the head of s: the digits and the length of the match. *)
Definition match_token (s : str) : option (str * nat) :=
  if has_prefix (DQ :: spade) s then
    let r := skipn 4 s in
    let ds := take_while is_digit r in
    match ds, skipn (List.length ds) r with
    | _ :: _, c :: _ => if Ascii.eqb c DQ then Some (ds, (List.length ds + 5)%nat) else None
    | _, _ => None
    end
  else None.

(** RestoreProtected: string.go:446-451; [skip] counts the bytes of a match still to pass over. *)
Fixpoint restore_go (array : list str) (s : str) (skip : nat) : res str :=
  match s with
  | [] => Ok []
  | c :: r =>
      match skip with
      | S k => restore_go array r k
      | O =>
          match match_token s with
          | Some (ds, n) =>
              match nth_error array (N.to_nat (digits_value ds)) with
              | Some x => bind (restore_go array r (n - 1)) (fun t => Ok (x ++ t))
              | None => Panic ($"index out of range")
              end
          | None => bind (restore_go array r O) (fun t => Ok (c :: t))
          end
      end
  end.
Definition restore (s : str) (array : list str) : res str := restore_go array s 0.

(** AddLineNumber: string.go:458-470.  [auto] is the width computed with math.Log10 when space <= 0 (460-462). *)
Definition pad_number (width : Z) (n : Z) : str :=
  if 1000000 <? width then $"%!(BADWIDTH)" ++ itoa n
  else spaces (Z.to_nat width - List.length (itoa n)) ++ itoa n.
Fixpoint number_lines (width : Z) (n : Z) (lines : list str) : list str :=
  match lines with
  | [] => []
  | l :: r => (pad_number width n ++ [SP] ++ l) :: number_lines width (n + 1) r
  end.
Definition add_line_number (auto : nat -> Z) (s : str) (space : Z) : str :=
  let lines := split [NL] s in
  let width := if space <=? 0 then auto (List.length lines) else space in
  join [NL] (number_lines width 1 lines).
