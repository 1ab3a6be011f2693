(** Proofs about raw texts, continued: whole documents. *)
From Coq Require Import String Ascii List ZArith NArith Bool Lia.
From Verif Require Import GoStr GoStrFacts Utf8 Utf8Facts CliModel ReModel ReSyntaxModel RazorWordsModel ReSound RegexSpec RegexProofs RegexProofs5 IgnoreSpec IgnoreProofs RawModel RawSpec RawProofs RawProofs2.
Import ListNotations.
Local Open Scope char_scope.

(** ** Neighbours that are nothing else are put together. *)
Definition put (p : piece) (l : list piece) : list piece :=
  match p, l with
  | Other s, Other t :: l => Other (s ++ t) :: l
  | _, _ => p :: l
  end.
Definition together (l : list piece) : list piece := fold_right put [] l.
Fixpoint alternate (l : list piece) : Prop :=
  match l with
  | Other _ :: ((Other _ :: _) as r) => False
  | _ :: r => alternate r
  | [] => True
  end.
Lemma together_map : forall f, (forall s, f (Other s) = s) -> forall l, flat_map f (together l) = flat_map f l.
Proof.
  intros f F. induction l as [|p l IH]; [reflexivity|]. cbn [together fold_right flat_map]. fold (together l). rewrite <- IH. destruct p as [s|y|x]; try reflexivity.
  destruct (together l) as [|[t|y|x] r]; try reflexivity. cbn [put flat_map]. rewrite !F, app_assoc. reflexivity.
Qed.
Lemma together_separated : forall l, separated_by l -> separated_by (together l).
Proof. intros [|[[|c s]|y|x] l] H; try contradiction; [exact I|]. cbn [together fold_right]. fold (together l). destruct (together l) as [|[t|y|x] r]; exact H. Qed.
Lemma together_ok : forall l, document_ok l -> document_ok (together l) /\ alternate (together l).
Proof.
  induction l as [|p l IH]; intros H; [split; exact I|]. destruct H as (P & S1 & H). destruct (IH H) as (O & A). cbn [together fold_right]. fold (together l). destruct p as [s|y|x].
  - destruct (together l) as [|[t|y|x] r]; cbn [put]; try (split; [split; [exact P|]; split; [exact I | exact O] | exact A]).
    split; [|exact A]. destruct O as (P' & _ & O). split; [|split; [exact I | exact O]]. cbn [piece_ok] in *. intros J. apply in_app_or in J. tauto.
  - apply together_separated in S1. split; [split; [exact P|]; split; [exact S1 | exact O] | exact A].
  - apply together_separated in S1. split; [split; [exact P|]; split; [exact S1 | exact O] | exact A].
Qed.

(** ** One pass *)
Section Pass.
Variable r : re.
Variable repl : str -> groups -> str.
Variable out : str -> str.
Hypothesis closed : forall b s, begins opening s = false -> match_at r (b, s) = None.
Hypothesis raws : forall x, piece_ok (Raw x) ->
  (forall t b, match_at r (b, piece_text (Raw x) ++ t) = Some ((Some QUOTE, t), [(1, x)])) /\ repl (piece_text (Raw x)) [(1, x)] = out x \/
  (forall t b, match_at r (b, piece_text (Raw x) ++ t) = None) /\ out x = piece_text (Raw x).
Definition result (p : piece) : str := match p with Raw x => out x | _ => piece_text p end.

Lemma begins_other : forall s t, (forall c u, s = c :: u -> c <> QUOTE) -> s <> [] -> begins opening (s ++ t) = false.
Proof. intros [|c u] t H N; [congruence|]. cbn [app begins opening]. destruct (Ascii.eqb_spec QUOTE c) as [<-|_]; [|reflexivity]. exfalso. exact (H QUOTE u eq_refl eq_refl). Qed.
Lemma document_low : forall l p, alternate (p :: l) -> match p with Other _ => True | _ => False end -> head_low (document l).
Proof. intros [|[s|y|x] l] p A P; [exact I | destruct p; contradiction | reflexivity | reflexivity]. Qed.
Lemma separated_begins : forall l, separated_by l -> begins $"!Q!" (document l) = false.
Proof. intros [|[[|c s]|y|x] l] H; try contradiction; [reflexivity|]. cbn [document flat_map piece_text app]. change ($"!Q!") with ["!"; "Q"; "!"]. cbn [begins]. destruct (Ascii.eqb_spec "!" c) as [<-|_]; [|reflexivity]. exfalso. apply H. reflexivity. Qed.
Lemma marked_begins : forall s, begins $"!Q!" s = true -> marked s.
Proof. intros s H. exists (skipn 3 s). exact (begins_app $"!Q!" s H). Qed.
Lemma begins_quote : forall y t, ~ In QUOTE y -> begins $"!Q!" (y ++ QUOTE :: t) = begins $"!Q!" y.
Proof.
  change ($"!Q!") with ["!"; "Q"; "!"]. intros [|a [|b [|c y]]] t N; cbn [app begins]; try reflexivity.
Qed.
(** Inside a quoted text and after it nothing begins. *)
Lemma scan_low : forall c t b last o, low c = true -> match_at r (b, c :: t) = None -> (forall b last, exists k, scan r last (b, t) k /\ output repl k = o) ->
  exists k, scan r last (b, c :: t) k /\ output repl k = c :: o.
Proof.
  intros c t b last o L N H. destruct (H (fst (next_place (b, c :: t))) false) as (k & SC & O). exists (Copied [c] :: k). split.
  - pose proof (sc_copy r last (b, c :: t) k ltac:(discriminate)) as X. cbn [snd] in X. unfold next_place in *. cbn [snd fst] in *. unfold str in *. rewrite (decode_low c t L) in *. cbn [snd firstn skipn] in *.
    apply X; [|exact SC]. intros q g (M & _). pose proof (eq_trans (eq_sym M) N) as Z. discriminate Z.
  - unfold output in *. cbn [flat_map part_output app]. rewrite O. reflexivity.
Qed.
Lemma quoted_scan : forall y l b last o, ~ In QUOTE y -> (forall b, match_at r (b, QUOTE :: y ++ QUOTE :: document l) = None) -> separated_by l ->
  (forall b last, exists k, scan r last (b, document l) k /\ output repl k = o) -> exists k, scan r last (b, QUOTE :: y ++ QUOTE :: document l) k /\ output repl k = QUOTE :: y ++ QUOTE :: o.
Proof.
  intros y l b last o N M S1 H. apply (scan_copy r repl (QUOTE :: document l) (QUOTE :: o) (QUOTE :: y)); [reflexivity| |].
  - intros v w E W b0. destruct v as [|a v]; [cbn [app] in E; subst w; apply M|]. injection E as <- E. apply closed. apply begins_other; [|exact W]. intros c u -> ->. apply N. rewrite E. apply in_or_app. right. left. reflexivity.
  - intros b0 last0. apply scan_low; [reflexivity | | exact H]. apply closed. change opening with (QUOTE :: $"!Q!"). cbn [begins]. rewrite Ascii.eqb_refl. cbn [andb]. apply separated_begins. exact S1.
Qed.
Lemma pass_scan : forall l, document_ok l -> alternate l -> (forall b, match_at r (b, []) = None) -> forall b last, exists k, scan r last (b, document l) k /\ output repl k = flat_map result l.
Proof.
  intros l O A E. induction l as [|p l IH]; intros b last.
  - exists []. split; [|reflexivity]. apply sc_end; [reflexivity|]. intros q g (M & _). pose proof (eq_trans (eq_sym M) (E b)) as Z. discriminate Z.
  - destruct O as (P & S1 & O). assert (A' : alternate l) by (destruct p as [s|y|x]; [destruct l as [|[] ]; [exact I | contradiction | exact A | exact A] | exact A | exact A]). specialize (IH O A').
    change (document (p :: l)) with (piece_text p ++ document l). change (flat_map result (p :: l)) with (result p ++ flat_map result l). destruct p as [s|y|x].
    + change (result (Other s)) with s. change (piece_text (Other s)) with s. apply scan_copy; [exact (document_low l _ A I) | | exact IH]. intros v w EE W b0. apply closed. apply begins_other; [|exact W]. intros c u -> ->. apply P. cbn [piece_text] in EE. rewrite EE. apply in_or_app. right. left. reflexivity.
    + destruct P as (N & M). cbn [result piece_text]. rewrite <- !app_assoc. cbn [app]. apply quoted_scan; [exact N | | exact S1 | exact IH].
      intros b0. apply closed. change opening with (QUOTE :: $"!Q!"). cbn [begins]. rewrite Ascii.eqb_refl. cbn [andb]. rewrite (begins_quote y _ N). destruct (begins $"!Q!" y) eqn:B; [|reflexivity]. exfalso. exact (M (marked_begins y B)).
    + destruct (raws x P) as [(M & R1)|(M & R1)].
      * destruct (IH (Some QUOTE) true) as (k & SC & OK). exists (Matched (piece_text (Raw x)) [(1, x)] :: k). split.
        { pose proof (sc_match r last (b, piece_text (Raw x) ++ document l) (Some QUOTE, document l) [(1, x)] k) as X. rewrite taken_app in X. apply X; [split; [apply M | intros _; rewrite taken_app; discriminate] | discriminate | exact SC]. }
        unfold output in *. cbn [flat_map part_output result]. rewrite OK, R1. reflexivity.
      * cbn [result]. rewrite R1. destruct P as (_ & N & _).
        assert (RT : forall t, piece_text (Raw x) ++ t = QUOTE :: ($"!Q!" ++ x ++ $"!Q!") ++ QUOTE :: t) by (intros t; cbn [piece_text]; rewrite <- !app_assoc; reflexivity).
        rewrite !RT. apply quoted_scan; [| | exact S1 | exact IH].
        { intros J. apply in_app_or in J. destruct J as [J|J]; [repeat (destruct J as [J|J]; [discriminate J|]); exact J|]. apply in_app_or in J. destruct J as [J|J]; [exact (N J) | repeat (destruct J as [J|J]; [discriminate J|]); exact J]. }
        intros b0. rewrite <- RT. apply M.
Qed.
Lemma pass_result : forall l, document_ok l -> replace_re r repl (document l) = flat_map result l.
Proof.
  intros l O. destruct (together_ok l O) as (O' & A). unfold document. rewrite <- (together_map piece_text (fun _ => eq_refl)), <- (together_map result (fun _ => eq_refl)).
  destruct (pass_scan (together l) O' A (fun b => closed b [] eq_refl) None false) as (k & SC & OUT). refine (eq_trans _ OUT). unfold replace_re. apply scan_search; [cbn [snd]; lia | exact SC].
Qed.
End Pass.

(** ** The three expressions *)
Definition kept (p : piece) : piece := match p with Raw x => if existsb white_char x then Raw x else Other x | _ => p end.
Lemma kept_separated : forall l, separated_by l -> separated_by (map kept l).
Proof. intros [|[[|c s]|y|x] l] H; try contradiction; exact H. Qed.
Lemma kept_ok : forall l, document_ok l -> document_ok (map kept l).
Proof.
  induction l as [|p l IH]; intros H; [exact I|]. destruct H as (P & S1 & H). specialize (IH H). cbn [map document_ok]. destruct p as [s|y|x]; cbn [kept].
  - split; [exact P|]. split; [exact I | exact IH].
  - split; [exact P|]. split; [apply kept_separated; exact S1 | exact IH].
  - destruct (existsb white_char x); (split; [|split; [|exact IH]]); [exact P | apply kept_separated; exact S1 | apply P | exact I].
Qed.
Definition quoted_template : list tpart := [TText [QUOTE]; TBraces $"content"; TText [QUOTE]].
Lemma expand_content : forall whole x, expand (named_group [($"content", 1)] whole [(1, x)]) $"${content}" = x.
Proof. intros whole x. refine (eq_trans (expanded _ [TBraces $"content"] _) _); [|cbn [flat_map tpart_output]; rewrite app_nil_r; reflexivity]. cbn [tparts_ok]. split; [|exact I]. split; [discriminate|]. repeat constructor; right; left; reflexivity. Qed.
Lemma expand_quoted : forall whole x, expand (named_group [($"content", 1)] whole [(1, x)]) $"""${content}""" = [QUOTE] ++ x ++ [QUOTE].
Proof.
  intros whole x. refine (eq_trans (expanded _ [TText [QUOTE]; TBraces $"content"; TText [QUOTE]] _) _); [|reflexivity]. cbn [tparts_ok].
  repeat split; try discriminate; try (intros [J|[]]; discriminate J); repeat constructor; right; left; reflexivity.
Qed.
Lemma no_comment : forall s b, uncommented s -> match_at re_comment (b, s) = None.
Proof.
  intros s b U. apply none_matches. intros q M. unfold re_comment in M.
  inversion M as [| | |? ? ? p1 ? M1 M2| | | | | | | | | |]; subst. inversion M1; subst. inversion M2 as [| | |? ? ? p2 ? M3 M4| | | | | | | | | |]; subst.
  inversion M4 as [| | |? ? ? p3 ? M5 M6| | | | | | | | | |]; subst. inversion M6 as [| | |? ? ? p4 ? M7 M8| | | | | | | | | |]; subst.
  apply matches_prefix in M3. cbn [snd] in M3. inversion M5 as [|? ? c1 s1 F1| | | | | | | | | | | |]; subst. inversion M7 as [|? ? c2 s2 F2| | | | | | | | | | | |]; subst.
  apply Ascii.eqb_eq in F1, F2. subst. cbn [snd] in M3. exact (U _ _ M3).
Qed.
Lemma uncommented_suffix : forall v w, uncommented (v ++ w) -> uncommented w.
Proof. intros v w U u z E. apply (U (v ++ u) z). rewrite E, app_assoc. reflexivity. Qed.
Lemma comment_pass : forall repl s, uncommented s -> replace_re re_comment repl s = s.
Proof.
  intros repl s U. apply replace_silent.
  - intros v w E W b. rewrite app_nil_r. apply no_comment. apply (uncommented_suffix v). rewrite <- E. exact U.
  - reflexivity.
  - intros b. apply no_comment. intros [|? ?] z E; discriminate E.
Qed.
Lemma tight_pass : forall l, document_ok l -> replace_all_string {| c_re := re_tight; c_names := [($"content", 1)] |} (document l) $"${content}" = document (map kept l).
Proof.
  intros l O. unfold replace_all_string. cbn [c_re c_names]. rewrite (pass_result re_tight _ (fun x => if existsb white_char x then piece_text (Raw x) else x)).
  - unfold document. rewrite flat_map_concat_map, flat_map_concat_map, map_map. f_equal. apply map_ext. intros [s|y|x]; try reflexivity. cbn [result kept]. destruct (existsb white_char x); reflexivity.
  - intros b s B. unfold re_tight. rewrite opened, B. reflexivity.
  - intros x (N & Q & L). destruct (existsb white_char x) eqn:W; [right | left]; (split; [|try reflexivity]).
    + intros t b. apply tight_stuck; assumption.
    + intros t b. apply tight_match; assumption.
    + apply expand_content.
  - exact O.
Qed.
Lemma loose_pass : forall l, document_ok l -> replace_all_string {| c_re := re_loose; c_names := [($"content", 1)] |} (document l) $"""${content}""" = flat_map (result (fun x => [QUOTE] ++ x ++ [QUOTE])) l.
Proof.
  intros l O. unfold replace_all_string. cbn [c_re c_names]. apply pass_result; [| |exact O].
  - intros b s B. unfold re_loose. rewrite opened, B. reflexivity.
  - intros x (N & Q & L). left. split; [|apply expand_quoted]. intros t b. apply loose_match; assumption.
Qed.

Section Beyond.
Variable beyond : N -> bool.
Definition base_compiled : list (compiled * str) :=
  [({| c_re := re_comment; c_names := [] |}, []); ({| c_re := re_tight; c_names := [($"content", 1)] |}, $"${content}"); ({| c_re := re_loose; c_names := [($"content", 1)] |}, $"""${content}""")].
Lemma base_init : init_replacers (compile beyond) base_substitutes = Ok base_compiled.
Proof.
  unfold base_substitutes. cbn [init_replacers].
  assert (A : init_replacer (compile beyond) $"/(?m)^\s*#!\s*$/" = Ok ({| c_re := re_comment; c_names := [] |}, [])) by (vm_compute; reflexivity).
  assert (B : init_replacer (compile beyond) $"/""!Q!(?P<content>[\S]+?)!Q!""/${content}" = Ok ({| c_re := re_tight; c_names := [($"content", 1)] |}, $"${content}")) by (vm_compute; reflexivity).
  assert (C : init_replacer (compile beyond) $"/""!Q!(?P<content>.*?)!Q!""/""${content}""" = Ok ({| c_re := re_loose; c_names := [($"content", 1)] |}, $"""${content}""")) by (vm_compute; reflexivity).
  rewrite A, B, C. reflexivity.
Qed.
Lemma init_app : forall (RE : Type) (comp : str -> option RE) a b, init_replacers comp (a ++ b) = do x <- init_replacers comp a; do y <- init_replacers comp b; Ok (x ++ y).
Proof.
  intros RE comp a b. induction a as [|r a IH]; cbn [app init_replacers].
  - cbn [bind]. destruct (init_replacers comp b); reflexivity.
  - destruct (init_replacer comp r); cbn [bind]; [|reflexivity..]. rewrite IH. destruct (init_replacers comp a); cbn [bind]; [|reflexivity..]. destruct (init_replacers comp b); reflexivity.
Qed.
Lemma substitute_app : forall (RE : Type) (rep : RE -> str -> str -> str) a b s, substitute rep s (a ++ b) = substitute rep (substitute rep s a) b.
Proof. intros RE rep. induction a as [|[re r] a IH]; intros b s; [reflexivity | cbn [app substitute]; apply IH]. Qed.
Lemma raw_document : forall l, document_ok l -> uncommented (document l) -> substitute replace_all_string (document l) base_compiled = shown l.
Proof.
  intros l O U. unfold base_compiled. cbn [substitute]. unfold replace_all_string at 3. cbn [c_re]. rewrite comment_pass by exact U. rewrite tight_pass by exact O. rewrite loose_pass by (apply kept_ok; exact O).
  unfold shown. rewrite !flat_map_concat_map, map_map. f_equal. apply map_ext. intros [s|y|x]; try reflexivity. cbn [kept piece_shown]. destruct (existsb white_char x); reflexivity.
Qed.
Lemma substituted_document : forall l, document_ok l -> uncommented (document l) -> substituted beyond [] [] (document l) = Ok (shown l).
Proof. intros l O U. unfold substituted, template_substitutes. rewrite !app_nil_r, base_init. cbn [bind]. rewrite raw_document by assumption. reflexivity. Qed.
Lemma substituted_then : forall env subs s,
  substituted beyond env subs s =
  do a <- init_replacers (compile beyond) (match env with [] => [] | _ => split ["010"] env end);
  do b <- init_replacers (compile beyond) subs;
  Ok (substitute replace_all_string (substitute replace_all_string (substitute replace_all_string s base_compiled) a) b).
Proof.
  intros env subs s. unfold substituted, template_substitutes. rewrite !init_app, base_init. cbn [bind]. destruct (init_replacers (compile beyond) match env with [] => [] | _ :: _ => split ["010"] env end) as [a| |]; cbn [bind]; [|reflexivity..].
  destruct (init_replacers (compile beyond) subs) as [b| |]; cbn [bind]; [|reflexivity..]. rewrite !substitute_app. reflexivity.
Qed.
End Beyond.
