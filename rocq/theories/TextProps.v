(** Properties of the text functions: C20 to C28. *)
From Coq Require Import String Ascii List ZArith NArith Bool Lia Sorted.
From Verif Require Import GoStr Utf8 Utf8Facts ValueModel ExampleEnv TextModel TextSpec TextProofs TextProofs2 TextProofs3.
Import ListNotations.

(** ** C20 Protect and RestoreProtected *)

(** The protected text is the text with its closed string literals replaced, in order, by tokens
    numbered from zero; the array holds these literals; what follows the last one has no closed string. *)
Theorem C20_protect : forall s r a, protect s = (r, a) ->
  exists heads tail, List.length heads = List.length a /\ Forall no_quote heads /\ Forall literal a /\ open_tail tail /\
    s = interleave heads a ++ tail /\ r = interleave heads (map token (seq 0 (List.length a))) ++ tail.
Proof. exact protect_spec. Qed.
Print Assumptions C20_protect.

(** Restoring gives the text back if nothing in it that looks like a token comes after a backtick. *)
Theorem C20_round_trip : forall s r a, protect s = (r, a) ->
  (forall u t v, s = u ++ t ++ v -> looks_like_token t -> ~ In BQ u) -> restore r a = Ok s.
Proof. exact protect_restore. Qed.
Print Assumptions C20_round_trip.

(** Otherwise the restoration may crash or give another text. *)
Definition round_trip (s : str) : res str := restore (fst (protect s)) (snd (protect s)).
Theorem C20_round_trip_crash_refuted : exists s m, round_trip s = Panic m.
Proof.
  exists (BQ :: $" it's " ++ token 5). eexists. vm_compute. reflexivity.
Qed.
Print Assumptions C20_round_trip_crash_refuted.
Theorem C20_round_trip_text_refuted : exists s s', round_trip s = Ok s' /\ s' <> s.
Proof.
  exists (DQ :: $"x" ++ DQ :: BQ :: token 0). eexists. split; [vm_compute; reflexivity|vm_compute; discriminate].
Qed.
Print Assumptions C20_round_trip_text_refuted.

Definition q_ (s : string) : str := DQ :: $s ++ [DQ].
Example C20_ex_protect :
  protect ($"a=" ++ q_ "x y" ++ $", b=" ++ BQ :: $"raw" ++ BQ :: $" " ++ q_ "e\q" ++ $"!") =
  ($"a=" ++ token 0 ++ $", b=" ++ token 1 ++ $" " ++ token 2 ++ $"!", [q_ "x y"; BQ :: $"raw" ++ [BQ]; q_ "e\q"]).
Proof. vm_compute. reflexivity. Qed.
(** An escaped quote does not close, an escaped backslash before the quote does. *)
Example C20_ex_escape :
  protect (DQ :: $"a\" ++ DQ :: $"b\\" ++ DQ :: $"c") =
  (token 0 ++ $"c", [DQ :: $"a\" ++ DQ :: $"b\\" ++ [DQ]]).
Proof. vm_compute. reflexivity. Qed.
Example C20_ex_round : round_trip ($"a " ++ token 7 ++ $" " ++ q_ "z" ++ $" " ++ DQ :: $"open") =
  Ok ($"a " ++ token 7 ++ $" " ++ q_ "z" ++ $" " ++ DQ :: $"open").
Proof. vm_compute. reflexivity. Qed.

(** ** C21 IndexAll *)

(** The positions are occurrences, in order and without overlap, and every occurrence overlaps one of
    them that does not start later. *)
Theorem C21_index_all : forall s sub, sub <> [] ->
  (forall k, In k (index_all s sub) -> occurs_at sub s k) /\
  StronglySorted (fun a b => a + List.length sub <= b) (index_all s sub) /\
  (forall k, occurs_at sub s k -> exists p, In p (index_all s sub) /\ p <= k < p + List.length sub).
Proof. exact index_all_spec. Qed.
Print Assumptions C21_index_all.

(** No other list has these properties. *)
Theorem C21_unique : forall s sub L, sub <> [] ->
  (forall k, In k L -> occurs_at sub s k) -> StronglySorted (fun a b => a + List.length sub <= b) L ->
  (forall k, occurs_at sub s k -> exists p, In p L /\ p <= k < p + List.length sub) -> index_all s sub = L.
Proof. exact index_all_unique. Qed.
Print Assumptions C21_unique.

Theorem C21_empty : forall s, index_all s [] = [] /\ forall sub, index_all [] sub = [].
Proof. exact index_all_empty. Qed.
Print Assumptions C21_empty.

Example C21_ex : index_all ($"aaaa-aaa") ($"aa") = [0; 2; 5] /\ index_all ($"abcab") ($"ab") = [0; 3] /\
  index_all ($"abc") ($"abcd") = [].
Proof. vm_compute. auto. Qed.

(** ** C22 GetContextAtPosition *)

(** A section is in the text at the returned position, starts with the left delimiter and ends with the
    right one, and the left delimiter is entirely before the position asked for. *)
Theorem C22_section : forall s pos left right sec b, left <> [] -> right <> [] ->
  context_at s pos left right = Some (sec, b) ->
  exists before mid after, s = before ++ (left ++ mid ++ right) ++ after /\ sec = left ++ mid ++ right /\
    List.length before = b /\ (Z.of_nat (b + List.length left) <= pos)%Z.
Proof. exact context_shape. Qed.
Print Assumptions C22_section.

(** With the closest left delimiter before the position and the closest right one after it, and no left
    delimiter between them, this section is returned. *)
Theorem C22_closest : forall a left m right c pos, left <> [] -> right <> [] ->
  let s := a ++ (left ++ m ++ right) ++ c in
  (Z.of_nat (List.length a + List.length left) <= pos <= Z.of_nat (List.length a + List.length left + List.length m))%Z ->
  (forall k, occurs_at right s k -> (pos <= Z.of_nat k)%Z -> List.length a + List.length left + List.length m <= k) ->
  (forall k, occurs_at left (a ++ left ++ m) k -> k <= List.length a) ->
  context_at s pos left right = Some (left ++ m ++ right, List.length a).
Proof. exact context_simple. Qed.
Print Assumptions C22_closest.

(** With one byte delimiters, the section contains the position and has no inner left delimiter, or its
    inside is balanced: every inner right delimiter closes an inner left one and none stays open. *)
Theorem C22_balanced : forall s pos l r sec b, l <> r -> context_at s pos [l] [r] = Some (sec, b) ->
  exists mid, sec = l :: mid ++ [r] /\
   ((~ In l mid /\ (Z.of_nat b < pos < Z.of_nat (b + List.length sec))%Z) \/
    (count_occ ascii_dec mid l = count_occ ascii_dec mid r /\
     forall j, nth_error mid j = Some r -> count_before r mid j < count_before l mid j)).
Proof. exact context_byte. Qed.
Print Assumptions C22_balanced.

Theorem C22_no_left : forall s pos right sec b, right <> [] ->
  context_at s pos [] right = Some (sec, b) ->
  Z.of_nat b = pos /\ exists before mid after, s = before ++ (mid ++ right) ++ after /\ sec = mid ++ right /\
    List.length before = b /\ forall k, occurs_at right s k -> b <= k -> b + List.length mid <= k.
Proof. exact context_no_left. Qed.
Print Assumptions C22_no_left.

Theorem C22_no_right : forall s pos left sec b, left <> [] ->
  context_at s pos left [] = Some (sec, b) ->
  Z.of_nat (b + List.length sec) = (pos + 1)%Z /\
  exists before mid after, s = before ++ (left ++ mid) ++ after /\ sec = left ++ mid /\ List.length before = b /\
    forall k, occurs_at left (firstn (Z.to_nat pos) s) k -> k <= b.
Proof. exact context_no_right. Qed.
Print Assumptions C22_no_right.

Theorem C22_out_of_range : forall s pos left right, (pos < 0 \/ Z.of_nat (List.length s) <= pos)%Z ->
  context_at s pos left right = None.
Proof. exact context_out. Qed.
Print Assumptions C22_out_of_range.

(** The section does not always contain the position. *)
Theorem C22_contains_position_refuted : exists s pos l r sec b,
  context_at s pos [l] [r] = Some (sec, b) /\ (Z.of_nat (b + List.length sec) <= pos)%Z.
Proof.
  exists ($"a(b)c(d)e"), 4%Z, "("%char, ")"%char. eexists. eexists.
  split; [vm_compute; reflexivity|vm_compute; discriminate].
Qed.
Print Assumptions C22_contains_position_refuted.

Example C22_ex_nested : context_at ($"f(a, g(b), h(c)) + (d)") 3 ($"(") ($")") = Some ($"(a, g(b), h(c))", 1).
Proof. vm_compute. reflexivity. Qed.
Example C22_ex_closest : context_at ($"x {{ a }} y") 6 ($"{{") ($"}}") = Some ($"{{ a }}", 2).
Proof. vm_compute. reflexivity. Qed.
Example C22_ex_none : context_at ($"f(a, g(b)") 3 ($"(") ($")") = None.
Proof. vm_compute. reflexivity. Qed.

(** ** C23 GetWordAtPosition *)

(** On a break the empty word, otherwise the section around the position without break and between
    breaks or ends of the text. *)
Theorem C23_word : forall s x c y accept, s = x ++ c :: y ->
  (is_break (concat accept) c = true /\ word_at s (Z.of_nat (List.length x)) accept = ([], Z.of_nat (List.length x))) \/
  (is_break (concat accept) c = false /\ exists a w b,
     s = a ++ w ++ b /\ word_at s (Z.of_nat (List.length x)) accept = (w, Z.of_nat (List.length a)) /\
     List.length a <= List.length x < List.length a + List.length w /\
     Forall (fun d => is_break (concat accept) d = false) w /\
     (a = [] \/ exists a' d, a = a' ++ [d] /\ is_break (concat accept) d = true) /\
     match b with [] => True | d :: _ => is_break (concat accept) d = true end).
Proof. exact word_at_in. Qed.
Print Assumptions C23_word.

(** Only one section satisfies this. *)
Theorem C23_unique : forall (brk : ascii -> bool) a w b a2 w2 b2 p,
  a ++ w ++ b = a2 ++ w2 ++ b2 ->
  List.length a <= p < List.length a + List.length w -> List.length a2 <= p < List.length a2 + List.length w2 ->
  Forall (fun d => brk d = false) w -> Forall (fun d => brk d = false) w2 ->
  (a = [] \/ exists a' d, a = a' ++ [d] /\ brk d = true) -> (a2 = [] \/ exists a' d, a2 = a' ++ [d] /\ brk d = true) ->
  match b with [] => True | d :: _ => brk d = true end -> match b2 with [] => True | d :: _ => brk d = true end ->
  a = a2 /\ w = w2 /\ b = b2.
Proof. exact word_unique. Qed.
Print Assumptions C23_unique.

(** Among the ASCII characters the breaks are white space and the punctuation that is not accepted. *)
Theorem C23_breaks : forall accept c, (N_of_ascii c < 128)%N -> Forall (fun d => N_of_ascii d < 128)%N accept ->
  is_break accept c = true <->
  In c ($" " ++ [TAB; NL; ascii_of_N 11; ascii_of_N 12; CR]) \/
  (In c (DQ :: BSL :: $"!#%&'()*,-./:;?@[]_{}") /\ ~ In c accept).
Proof. exact is_break_ascii. Qed.
Print Assumptions C23_breaks.

Theorem C23_out_of_range : forall s pos accept, (pos < 0 \/ Z.of_nat (List.length s) <= pos)%Z ->
  word_at s pos accept = ([], (-1)%Z).
Proof. exact word_at_out. Qed.
Print Assumptions C23_out_of_range.

Example C23_ex : word_at ($"set a.b-c d") 6 [] = ($"b", 6%Z) /\ word_at ($"set a.b-c d") 6 [$"."; $"-"] = ($"a.b-c", 4%Z) /\
  word_at ($"set a.b-c d") 3 [] = ([], 3%Z) /\ word_at ($"set") 0 [] = ($"set", 0%Z) /\ word_at ($"set") 3 [] = ([], (-1)%Z).
Proof. vm_compute. auto. Qed.

(** ** C24 WrapString *)

(** Wrapping keeps the sequence of words. *)
Theorem C24_words : forall s width, fields (wrap_string s width) = fields s.
Proof. exact wrap_string_fields. Qed.
Print Assumptions C24_words.

(** Line by line: a blank line becomes an empty line; the words of another line are cut in groups (see
    wrap_groups), each group becomes a line and the indentation of the line is put before the last one. *)
Theorem C24_lines : forall s width, exists parts,
  wrap_string s width = join [NL] (concat parts) /\
  Forall2 (fun line out =>
    (white line /\ out = [[]]) \/
    (~ white line /\ exists ind groups,
       white ind /\ (exists rest, line = ind ++ rest /\ starts_solid rest) /\
       concat groups = fields line /\ wrap_groups width (Z.of_nat (List.length ind)) groups /\
       out = map (join [SP]) (removelast groups) ++ [ind ++ join [SP] (last groups [])]))
    (split [NL] s) parts.
Proof. exact wrap_string_lines. Qed.
Print Assumptions C24_lines.

(** A line of several words can be more than one column too wide, because of the indentation. *)
Theorem C24_width_refuted : exists s width, ~ In NL s /\ exists l, In l (split [NL] (wrap_string s width)) /\
  2 <= List.length (fields l) /\ (width + 1 < Z.of_nat (List.length l))%Z.
Proof.
  exists ($"      aa bb ccc"), 8%Z. split; [vm_compute; intuition discriminate|].
  exists ($"      bb ccc"). vm_compute. split; [right; left; reflexivity|split; [auto|reflexivity]].
Qed.
Print Assumptions C24_width_refuted.

Example C24_ex : wrap_string ($"the quick brown fox") 10 = $"the quick" ++ NL :: $"brown fox".
Proof. vm_compute. reflexivity. Qed.
Example C24_ex_indent : wrap_string ($"  aaa bb c" ++ NL :: $"  " ++ NL :: $"x") 6 =
  $"aaa" ++ NL :: $"  bb c" ++ NL :: NL :: $"x".
Proof. vm_compute. reflexivity. Qed.

(** ** C25 CenterString *)

Theorem C25_short : forall s width, (width < Z.of_nat (rune_count s))%Z -> center_string s width = s.
Proof. exact center_short. Qed.
Print Assumptions C25_short.

(** Centered: spaces on both sides, the right side equal or one larger, exactly the width. *)
Theorem C25_center : forall s width, (Z.of_nat (rune_count s) <= width)%Z ->
  (width - Z.of_nat (rune_count s) <= 2000000)%Z ->
  exists a b, center_string s width = spaces a ++ s ++ spaces b /\ (b = a \/ b = S a) /\
              Z.of_nat (rune_count (center_string s width)) = width.
Proof. exact center_spec. Qed.
Print Assumptions C25_center.

(** fmt refuses larger paddings. *)
Theorem C25_center_huge_refuted : exists s width, (Z.of_nat (rune_count s) <= width)%Z /\
  Z.of_nat (rune_count (center_string s width)) <> width.
Proof. exists ($"x"), 3000000%Z. split; [vm_compute; discriminate|vm_compute; discriminate]. Qed.
Print Assumptions C25_center_huge_refuted.

Example C25_ex : center_string ($"abc") 8 = $"  abc   " /\ center_string ($"abc") 2 = $"abc" /\
  center_string ($"é♠") 4 = $" é♠ ".
Proof. vm_compute. auto. Qed.

(** ** C26 Indent and UnIndent *)

Theorem C26_indent_lines : forall s p, ~ In NL p -> split [NL] (indent s p) = map (fun l => p ++ l) (split [NL] s).
Proof. exact indent_lines. Qed.
Print Assumptions C26_indent_lines.

Theorem C26_indent_compose : forall s p q, ~ In NL p -> indent (indent s p) q = indent s (q ++ p).
Proof. exact indent_indent. Qed.
Print Assumptions C26_indent_compose.

Theorem C26_indent_nothing : forall s, indent s [] = s.
Proof. exact indent_nil. Qed.
Print Assumptions C26_indent_nothing.

(** UnIndent changes nothing, or it keeps the leading blank lines and removes the leading white space of
    the first other line from all following lines, except from blank lines without it. *)
Theorem C26_unindent : forall s,
  unindent s = s \/
  exists blanks l rest p x ls, split [NL] s = blanks ++ l :: rest /\ Forall white blanks /\
    white p /\ l = p ++ x /\ starts_solid x /\
    split [NL] (unindent s) = blanks ++ x :: ls /\
    Forall2 (fun a b => a = p ++ b \/ (white a /\ b = a)) rest ls.
Proof. exact unindent_spec. Qed.
Print Assumptions C26_unindent.

(** It removes only white space at the start of lines. *)
Theorem C26_unindent_keeps : forall s, unindent s = s \/
  Forall2 (fun a b => exists p, white p /\ a = p ++ b) (split [NL] s) (split [NL] (unindent s)).
Proof. exact unindent_keeps. Qed.
Print Assumptions C26_unindent_keeps.

(** It undoes Indent on several lines if the first line starts with a visible character. *)
Theorem C26_unindent_indent : forall s p l ls, white p -> ~ In NL p ->
  split [NL] s = l :: ls -> starts_solid l -> ls <> [] -> unindent (indent s p) = s.
Proof. exact unindent_indent. Qed.
Print Assumptions C26_unindent_indent.

(** But not if the first line is blank, even if the first non blank line is not indented. *)
Theorem C26_unindent_indent_blank_refuted : exists s p l1 l2, white p /\ ~ In NL p /\
  split [NL] s = [l1; l2] /\ white l1 /\ starts_solid l2 /\ unindent (indent s p) <> s.
Proof.
  exists (NL :: $"a"), ($"  "), [], ($"a").
  split; [apply white_all_space; vm_compute; reflexivity|].
  split; [vm_compute; intuition discriminate|]. split; [vm_compute; reflexivity|].
  split; [intros r b []|]. split; [eexists; eexists; eexists; vm_compute; split; reflexivity|].
  vm_compute. discriminate.
Qed.
Print Assumptions C26_unindent_indent_blank_refuted.

Example C26_ex_unindent :
  unindent (NL :: $"    a" ++ NL :: $"      b" ++ NL :: $"  " ++ NL :: $"    c") =
  NL :: $"a" ++ NL :: $"  b" ++ NL :: $"  " ++ NL :: $"c" /\
  unindent ($"  a" ++ NL :: $" b") = $"  a" ++ NL :: $" b" /\ unindent ($"  a") = $"  a".
Proof. vm_compute. auto. Qed.
Example C26_ex_indent : indent ($"a" ++ NL :: $"b" ++ [NL]) ($"> ") = $"> a" ++ NL :: $"> b" ++ NL :: $"> ".
Proof. vm_compute. reflexivity. Qed.

(** ** C27 Lines and splits *)

Theorem C27_join_split : forall (E : Env) s, join_lines (split_lines (vstr s)) = trim_suffix [NL] s.
Proof. exact split_lines_join. Qed.
Print Assumptions C27_join_split.

Theorem C27_split_join : forall (E : Env) ls, ls <> [] -> Forall (fun l => ~ In NL l) ls ->
  (last ls [] <> [] \/ List.length ls = 1) ->
  split_lines (vstr (join_lines (map vstr ls))) = map vstr ls.
Proof. exact join_lines_split. Qed.
Print Assumptions C27_split_join.

(** Split2 cuts at the first separator, or returns the text and nothing. *)
Theorem C27_split2 : forall source sep, sep <> [] ->
  (exists a b, split2 source sep = (a, b) /\ source = a ++ sep ++ b /\
     forall k, occurs_at sep source k -> List.length a <= k) \/
  ((forall k, ~ occurs_at sep source k) /\ split2 source sep = (source, [])).
Proof. exact split2_spec. Qed.
Print Assumptions C27_split2.

Theorem C27_split_sep : forall sep s, sep <> [] -> join sep (split sep s) = s.
Proof. exact GoStrFacts.join_split. Qed.
Print Assumptions C27_split_sep.

Theorem C27_concat : forall (E : Env) os, concat_objects os = concat (map sprint os).
Proof. exact concat_objects_spec. Qed.
Print Assumptions C27_concat.

Example C27_ex : let E := env0 in split2 ($"a=b=c") ($"=") = ($"a", $"b=c") /\ split2 ($"abc") ($"=") = ($"abc", []) /\
  split_lines (s_ "a" ) = [s_ "a"] /\
  split_lines (vstr ($"a" ++ NL :: NL :: $"b" ++ [NL])) = [s_ "a"; vstr []; s_ "b"] /\
  concat_objects [s_ "a"; n_ 1; s_ "b"] = $"a1b" /\ join_lines [s_ "a"; n_ 1] = $"a" ++ NL :: $"1".
Proof. vm_compute. repeat split; reflexivity. Qed.

(** ** C28 AddLineNumber *)

(** Each line gets its number, right aligned on the width, and a space. *)
Theorem C28_numbers : forall auto s space, (0 < space <= 1000000)%Z ->
  List.length (split [NL] (add_line_number auto s space)) = List.length (split [NL] s) /\
  forall i l, nth_error (split [NL] s) i = Some l ->
    exists k, nth_error (split [NL] (add_line_number auto s space)) i =
                Some (spaces k ++ itoa (Z.of_nat i + 1) ++ [SP] ++ l) /\
              Z.of_nat (List.length (spaces k ++ itoa (Z.of_nat i + 1))) =
                Z.max space (Z.of_nat (List.length (itoa (Z.of_nat i + 1)))).
Proof. exact add_line_number_spec. Qed.
Print Assumptions C28_numbers.

Theorem C28_huge_width_refuted : exists auto s space i l, (0 < space)%Z /\ nth_error (split [NL] s) i = Some l /\
  forall k, nth_error (split [NL] (add_line_number auto s space)) i <> Some (spaces k ++ itoa (Z.of_nat i + 1) ++ [SP] ++ l).
Proof.
  exists (fun _ => 0%Z), ($"a"), 1000001%Z, 0, ($"a"). split; [lia|]. split; [reflexivity|].
  intros k. destruct k; vm_compute; discriminate.
Qed.
Print Assumptions C28_huge_width_refuted.

Example C28_ex : add_line_number (fun _ => 0%Z) ($"a" ++ NL :: $"b") 3 = $"  1 a" ++ NL :: $"  2 b".
Proof. vm_compute. reflexivity. Qed.
