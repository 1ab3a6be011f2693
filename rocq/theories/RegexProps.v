(** C76: the regular expressions of razor, scripts and error messages are read and matched as the package regexp documents. *)
From Coq Require Import String Ascii List ZArith NArith Bool Lia.
From Verif Require Import GoStr Utf8 RazorWordsModel ReModel ReSyntaxModel RegexSpec RegexProofs RegexProofs2 RegexProofs3 RegexProofs4 RegexProofs5.
Import ListNotations.
Local Open Scope char_scope.

(** ** Matching: a match is found when there is one, and it is the one a backtracking search finds first. *)
Theorem C76_found : forall r p q g, match_at r p = Some (q, g) -> matches r p q.
Proof. exact found_matches. Qed.
Print Assumptions C76_found.
Theorem C76_none : forall r p, match_at r p = None <-> forall q, ~ matches r p q.
Proof. exact none_matches. Qed.
Print Assumptions C76_none.
Theorem C76_first : forall r p, match_at r p = hd_error (preferred r p []) /\ forall q, matches r p q <-> exists g, In (q, g) (preferred r p []).
Proof. intros r p. split; [apply match_at_preferred|]. intros q. split; [intros M; exact (preferred_complete r p q M []) | intros (g & I); exact (preferred_sound r p [] q g I)]. Qed.
Print Assumptions C76_first.
(** The groups hold texts that their expressions match. *)
Theorem C76_groups : forall r p q g n t, match_at r p = Some (q, g) -> In (n, t) g -> exists a u v, has_group n a r /\ matches a u v /\ t = taken u v.
Proof. exact found_groups. Qed.
Print Assumptions C76_groups.
(** The match found in a text is the leftmost one; places are between characters. *)
Theorem C76_leftmost : forall n r p u a b g, search n r p = Some (u, a, b, g) ->
  steps p u a /\ match_at r a = Some (b, g) /\ forall u' p', steps p u' p' -> List.length u' < List.length u -> match_at r p' = None.
Proof. exact search_found. Qed.
Print Assumptions C76_leftmost.
Theorem C76_nowhere : forall r p, search (List.length (snd p)) r p = None -> forall u p', steps p u p' -> forall q, ~ matches r p' q.
Proof. intros r p H u p' ST. apply none_matches. exact (search_nothing _ r p (le_n _) H u p' ST). Qed.
Print Assumptions C76_nowhere.

(** ** Replacing: the text is cut in parts, one after the other; the matches are replaced and the rest is copied. *)
Theorem C76_replace : forall r repl s, exists l, scan r false (None, s) l /\ flat_map part_text l = s /\ replace_re r repl s = flat_map (part_output repl) l.
Proof. exact replaced_scan. Qed.
Print Assumptions C76_replace.
Theorem C76_replace_only : forall r repl s l, scan r false (None, s) l -> replace_re r repl s = flat_map (part_output repl) l.
Proof. intros r repl s l SC. apply scan_search; [cbn [snd]; lia | exact SC]. Qed.
Print Assumptions C76_replace_only.
(** Templates of replacements *)
Theorem C76_template : forall value l, tparts_ok l -> expand value (flat_map tpart_text l) = flat_map (tpart_output value) l.
Proof. exact expanded. Qed.
Print Assumptions C76_template.
Theorem C76_named : forall names whole g name n, not_number name -> NoDup (map fst names) -> In (name, n) names -> named_group names whole g name = group n g.
Proof. exact named_found. Qed.
Print Assumptions C76_named.
Theorem C76_unknown : forall names whole g name, not_number name -> ~ In name (map fst names) -> named_group names whole g name = [].
Proof. exact named_missing. Qed.
Print Assumptions C76_unknown.
Theorem C76_numbered : forall names whole g n, named_group names whole g (itoa (Z.of_nat n)) = match n with O => whole | _ => group n g end.
Proof. exact numbered_found. Qed.
Print Assumptions C76_numbered.

(** ** Syntax: an expression that is written is read as what it means. *)
Theorem C76_syntax : forall beyond x, syn_ok x ->
  exists c, compile beyond (syn_text x) = Some c /\ same (c_re c) (one_of (alternatives beyond false false 0 x)) /\ c_names c = rev (syn_names 0 x).
Proof. exact compiled_syn. Qed.
Print Assumptions C76_syntax.

(** ** Examples; the first ones are of the tests of package regexp (all_test.go). *)
Definition replaced (expr template s : str) : option str :=
  option_map (fun c => replace_re (c_re c) (fun m g => expand (named_group (c_names c) m g) template) s) (compile (fun _ => false) expr).
Example C76_replace_1 : replaced $"[a-c]*" $"x" $"abcbcdcdedef" = Some $"xdxdxexdxexfx".
Proof. vm_compute. reflexivity. Qed.
Example C76_replace_2 : replaced $"a*" $"x" $"baaac" = Some $"xbxcx".
Proof. vm_compute. reflexivity. Qed.
Example C76_replace_3 : replaced $"a+" $"($0)" $"banana" = Some $"b(a)n(a)n(a)".
Proof. vm_compute. reflexivity. Qed.
Example C76_replace_4 : replaced $"(?P<first>\w+)-(\d{2,3})" $"${2}$$$first/$2a" $"ab-12 c-3 d-4567" = Some $"12$ab/ c-3 456$d/7".
Proof. vm_compute. reflexivity. Qed.
Example C76_replace_5 : replaced $"(?m)^(a|ab)(c|bcd)?$" $"<$1,$2>" ($"abcd" ++ [NLc] ++ $"abc") = Some ($"<a,bcd>" ++ [NLc] ++ $"<ab,c>").
Proof. vm_compute. reflexivity. Qed.
Example C76_replace_6 : replaced $"^a|b$" $"x" ($"ab" ++ [NLc] ++ $"ab") = Some ($"xb" ++ [NLc] ++ $"ax").
Proof. vm_compute. reflexivity. Qed.
Definition C76_sample : syn :=
  SFlags true false (SAtom ABegin QOne (SAtom (AGroup (Some $"key") (SAtom (AClass false [ISet XLetter; IRange (XPlain "0") (XHex Lower 57); IChar (XQuoted "-")]) (QPlus true) SEnd)) QOne
    (SAtom (AChar (XQuoted ".")) (QRepeat 0 12) (SAtom (AGroup None (SAtom AAny (QStar false) (SBar (SAtom (AChar XTab) QOpt SEnd)))) QOne (SAtom (AChar (XHex Upper 127)) QOne (SAtom AEnd QOne SEnd)))))).
Example C76_sample_text : syn_text C76_sample = $"(?m)^(?P<key>[\p{L}0-\x39\-]+?)\.{0,12}(.*|\t?)\x7F$".
Proof. vm_compute. reflexivity. Qed.
Example C76_sample_ok : syn_ok C76_sample.
Proof. cbn. repeat split; try (left; reflexivity); try discriminate; try lia; repeat constructor; cbn; try lia; try reflexivity; intros X; repeat (destruct X as [X|X]; [discriminate|]); exact X. Qed.
Example C76_sample_names : syn_names 0 C76_sample = [($"key", 1)] /\ syn_groups C76_sample = 2.
Proof. split; reflexivity. Qed.
Example C76_first_example : map (fun x => snd (fst x)) (preferred (RSeq (RStar false (RByte (Ascii.eqb "a"))) (ROpt (RByte (Ascii.eqb "b")))) (None, $"aab") []) = [$"aab"; $"ab"; []; $"b"].
Proof. vm_compute. reflexivity. Qed.
