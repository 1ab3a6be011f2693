(** The translation of assigned expressions: the values. *)
From Coq Require Import String Ascii List ZArith NArith Bool Lia ZifyBool ZifyN Permutation.
From Verif Require Import GoStr GoStrFacts Utf8 QuoteModel TemplateModel TemplateSpec TemplateProofs TextModel TextProofs3 RazorExprModel RazorExprProofs RazorWordsModel RazorWordsSpec RazorWordsProofs
  ReModel ReSyntaxModel RazorTableModel RazorAssignModel ReSound RazorRefSpec RazorRefAuto RazorRefProofs RazorRefMain RazorAsgSpec RazorAsgText RazorAsgExpr RazorAsgExpr2 RazorAsgGo RazorAsgGo2.
Import ListNotations.
Local Open Scope char_scope.

(** ** The expression of a whole line *)
Definition line_class : rclass := CNot (CRange 10 10).
Definition line_re : re := RGroup 1 (RStar true (RRune line_class)).
Lemma expr_re_eq : forall beyond, expr_re beyond = {| c_re := line_re; c_names := [($"expr", 1)] |}.
Proof. intro beyond. vm_compute. reflexivity. Qed.
Lemma line_in : forall c, in_class line_class (N_of_ascii c) = negb (Ascii.eqb c "010").
Proof. destruct c as [[] [] [] [] [] [] [] []]; reflexivity. Qed.
Lemma line_match : forall pv (s : str), lows s -> ~ In "010" s -> match_at line_re (pv, s) = Some ((after_text pv s, []), [(1, s)]).
Proof.
  intros pv s L N. unfold match_at, line_re.
  change (star_loop true (fun p g k => rmatch (RRune line_class) p g k) (fun p' g' => Some (p', (1, taken (pv, s) p') :: g')) (length s) (pv, s) [] = Some ((after_text pv s, []), [(1, s)])).
  assert (F : Forall (fun c => low c = true /\ in_class line_class (N_of_ascii c) = true) s).
  { apply Forall_forall. intros c J. unfold lows in L. rewrite Forall_forall in L. split; [exact (L c J)|]. rewrite line_in. destruct (Ascii.eqb_spec c "010") as [->|_]; [contradiction | reflexivity]. }
  assert (K : (fun (p' : place) (g' : groups) => Some (p', (1, taken (pv, s) p') :: g')) (after_text pv s, []) [] = Some ((after_text pv s, []), [(1, s)])).
  { cbn beta. pose proof (taken_app pv (after_text pv s) s []) as T. rewrite app_nil_r in T. apply (f_equal (fun z => Some (after_text pv s, @nil ascii, [(1, z)]))). exact T. }
  pose proof (star_class _ line_class _ [] _ [] I s (length s) pv F (Nat.le_refl _) K) as H. rewrite app_nil_r in H. exact H.
Qed.
Lemma line_group : forall beyond s, lows s -> ~ In "010" s -> multi_match (expr_re beyond) s $"expr" = s.
Proof.
  intros beyond s L N. unfold multi_match. rewrite expr_re_eq. cbn [c_re c_names]. rewrite (search_here _ _ _ _ _ (line_match None s L N)). reflexivity.
Qed.
Lemma line_replace : forall beyond repl s, lows s -> ~ In "010" s -> s <> [] -> exists f, replace_all_string (expr_re beyond) repl s = expand f repl.
Proof.
  intros beyond repl s L N NE. unfold replace_all_string. rewrite expr_re_eq. cbn [c_re c_names]. exists (named_group [($"expr", 1)] s [(1, s)]). unfold replace_re.
  pose proof (line_match None s L N) as M. generalize (length s). intro n.
  assert (E : replace_matches (S n) line_re (fun m g => expand (named_group [($"expr", 1)] m g) repl) false (None, [] ++ s ++ []) =
    [] ++ expand (named_group [($"expr", 1)] s [(1, s)]) repl ++ replace_matches n line_re (fun m g => expand (named_group [($"expr", 1)] m g) repl) true (after_text None s, [])).
  { apply (replace_skip n line_re (fun m g => expand (named_group [($"expr", 1)] m g) repl) false [] s [] None (after_text None s) [(1, s)]); [exact NE | destruct s; [contradiction | inversion L; assumption] | | rewrite app_nil_r; exact M].
    intros v x V X. symmetry in V. apply app_eq_nil in V. destruct V as [_ V]. contradiction. }
  cbn [app] in E. rewrite app_nil_r in E. eapply eq_trans; [exact E|].
  assert (Z : replace_matches n line_re (fun m g => expand (named_group [($"expr", 1)] m g) repl) true (after_text None s, []) = []) by (destruct n; reflexivity).
  rewrite Z. apply app_nil_r.
Qed.

Lemma replace_all_key : forall k x, k <> [] -> replace_all k x k = x.
Proof. intros k x N. rewrite <- (app_nil_r k) at 2. rewrite replace_all_sep by exact N. rewrite replace_all_nil. apply app_nil_r. Qed.
Section Translate.
Variable beyond : N -> bool.
Variables words signs opers : list (str * str).
Variable parse : str -> option expr.
Context {P : PrintEnv}.
Notation go := (RazorAssignModel.go_text beyond words signs opers).
Notation tr := (translate beyond words signs opers parse).
Lemma translated : forall (inner : bool) s x tree y z, s <> [] -> lows s -> ~ In "010" s -> go s = Ok x -> x <> [] -> parse x = Some tree ->
  (if inner then node_value_internal tree else node_value tree) = Ok y -> agrees y z -> unsliced z -> tr inner s = Ok (z, false).
Proof.
  intros inner s x tree y z NE L N G NX PA NV A U. unfold translate. rewrite (line_group beyond s L N).
  destruct s as [|c s]; [contradiction|]. rewrite G. cbn [bind]. unfold put_parsed. destruct x as [|d x]; [contradiction|]. rewrite PA. rewrite NV.
  f_equal. f_equal. unfold put_expr. rewrite replace_all_key by discriminate. 
  destruct (line_replace beyond (restore_words y) (c :: s) L N ltac:(discriminate)) as (f & E). rewrite E. unfold agrees in A. rewrite A, expanded. apply unsliced_replace. exact U.
Qed.
End Translate.
