(** The translation of assigned expressions: expressions and updates. *)
From Coq Require Import String Ascii List ZArith NArith Bool Lia ZifyBool ZifyN Permutation.
From Verif Require Import GoStr GoStrFacts Utf8 QuoteModel TemplateModel TemplateSpec TemplateProofs TextModel TextProofs3 RazorExprModel RazorExprProofs RazorWordsModel RazorWordsSpec RazorWordsProofs
  ReModel ReSyntaxModel RazorTableModel RazorAssignModel ReSound RazorRefSpec RazorRefAuto RazorRefProofs RazorRefMain RazorAsgSpec RazorAsgText RazorAsgExpr RazorAsgExpr2 RazorAsgGo.
Import ListNotations.
Local Open Scope char_scope.

(** ** Texts without words to replace *)
Definition go_char (c : ascii) : bool :=
  is_word c || existsb (Ascii.eqb c) [" "; "009"; "+"; "-"; "*"; "/"; "%"; "("; ")"; ","; "<"; ">"; "="; "!"; "&"; "|"; "^"; "."].
Lemma go_char_iff : forall c, go_char c = true <-> value_char c.
Proof.
  intro c. unfold go_char, value_char, blank_char. rewrite orb_true_iff, is_word_iff, existsb_exists. split.
  - intros [H|(x & I & E)]; [left; exact H|]. apply Ascii.eqb_eq in E. subst x. destruct I as [<-|[<-|I]]; auto.
  - intros [H|[[->| ->]|H]]; [left; exact H | right; exists " "; split; [left|]; reflexivity | right; exists "009"; split; [right; left|]; reflexivity |].
    right. exists c. split; [right; right; exact H | apply Ascii.eqb_refl].
Qed.
Definition dotted_words : list str := $"..." :: kept_words.
Record clean (s : str) : Prop := {
  cl_chars : forallb go_char s = true;
  cl_words : forall w, In w dotted_words -> contains w s = false;
  cl_unders : contains US2 s = false;
  cl_ne : contains $"<>" s = false;
  cl_ops : forall o f, In (o, f) op_names -> contains ($" " ++ f ++ $" ") s = false }.
Lemma text_clean : forall E, text_ok E -> clean E.
Proof.
  intros E (V & _ & F & NE & OP & _ & D & U). constructor.
  - apply forallb_forall. intros c I. rewrite Forall_forall in V. apply go_char_iff. exact (V c I).
  - intros w [<-|I]; apply holds_not; [exact D | exact (F w I)].
  - apply holds_not. exact U.
  - apply holds_not. exact NE.
  - intros o f I. apply holds_not. exact (OP o f I).
Qed.

Lemma go_low : forall s, forallb go_char s = true -> lows s.
Proof.
  intros s H. apply Forall_forall. intros c I. rewrite forallb_forall in H. specialize (H c I). revert H. destruct c as [[] [] [] [] [] [] [] []]; intro H; (reflexivity || discriminate H).
Qed.
Lemma contains_missing : forall w s c, In c w -> ~ In c s -> contains w s = false.
Proof.
  intros w s c I N. destruct (contains w s) eqn:E; [|reflexivity]. exfalso. apply contains_iff in E. destruct E as (a & b & ->). apply N. apply in_or_app. right. apply in_or_app. left. exact I.
Qed.
Lemma go_missing : forall s c, go_char c = false -> forallb go_char s = true -> ~ In c s.
Proof. intros s c N H I. rewrite forallb_forall in H. apply H in I. congruence. Qed.

Definition marks0 : list str := [[]; $"__REPL_0__"; dot_rep].
(** A word without underscores does not start in a mark. *)
Lemma mark_free : forall w M t, In M marks0 -> ~ In "_" w -> forallb (fun M => negb (contains w M)) [$"__REPL_0_"; $"__DoTPrefix_"] = true -> contains w t = false -> contains w (M ++ t) = false.
Proof.
  intros w M t I N C T. apply andb_true_iff in C. destruct C as [C1 C2]. apply andb_true_iff in C2. destruct C2 as [C2 _]. apply negb_true_iff in C1, C2.
  destruct I as [<-|[<-|[<-|[]]]]; [exact T | exact (cut_word_false w $"__REPL_0_" "_" t N C1 T) | exact (cut_word_false w $"__DoTPrefix_" "_" t N C2 T)].
Qed.
Lemma sign_free : forall k x M t, In (k, x) symbols -> In M marks0 -> clean t -> contains k (M ++ t) = false.
Proof.
  intros k x M t I J C. vm_compute in I.
  destruct I as [E|I]; [injection E as <- <-; apply mark_free; [exact J | vm_compute; intuition discriminate | reflexivity | exact (cl_ne t C)]|].
  assert (NB : forall k' c, In c k' -> go_char c = false -> forallb (fun M => negb (existsb (Ascii.eqb c) M)) marks0 = true -> contains k' (M ++ t) = false).
  { intros k' c I' G Q. apply contains_missing with (c := c); [exact I'|]. intro A. apply in_app_or in A. destruct A as [A|A]; [|exact (go_missing t c G (cl_chars t C) A)].
    rewrite forallb_forall in Q. specialize (Q M J). apply negb_true_iff in Q. assert (X : existsb (Ascii.eqb c) M = true) by (apply existsb_exists; exists c; split; [exact A | apply Ascii.eqb_refl]). congruence. }
  do 6 (destruct I as [E|I]; [injection E as <- <-; match goal with |- contains (?c :: _) _ = _ => apply (NB _ c); [left; reflexivity | reflexivity | reflexivity] end|]).
  destruct I as [E|[]]. injection E as <- <-. apply marker_before; [|reflexivity | exact (cl_unders t C)]. destruct J as [<-|[<-|[<-|[]]]]; reflexivity.
Qed.
Lemma oper_free : forall k x M t, In (k, x) operator_words -> In M marks0 -> clean t -> contains k (M ++ t) = false.
Proof.
  intros k x M t I J C. apply in_map_iff in I. destruct I as ((o, f) & E & I). injection E as <- <-.
  assert (I' : In (o, f) op_names) by (vm_compute in I; vm_compute; tauto).
  apply mark_free; [exact J | | | exact (cl_ops t C o f I')].
  - cbn [fst snd]. vm_compute in I'. repeat (destruct I' as [I'|I']; [inversion I'; subst; vm_compute; intuition discriminate|]). destruct I'.
  - vm_compute in I'. repeat (destruct I' as [I'|I']; [inversion I'; subst; vm_compute; reflexivity|]). destruct I'.
Qed.

Section Text.
Variable beyond : N -> bool.
Variables words signs opers : list (str * str).
Hypothesis HW : Permutation words RazorWordsModel.reserved.
Hypothesis HS : Permutation signs symbols.
Hypothesis HO : Permutation opers operator_words.

Lemma signs_idle : forall M t, In M marks0 -> clean t -> replace_each opers (replace_each signs (M ++ t)) = M ++ t.
Proof.
  intros M t J C. rewrite (replace_each_id signs).
  - apply replace_each_id. intros (k, x) I. exact (oper_free k x M t (Permutation_in _ HO I) J C).
  - intros (k, x) I. exact (sign_free k x M t (Permutation_in _ HS I) J C).
Qed.
Lemma word_cases : forall kv, In kv RazorWordsModel.reserved -> kv = ($"$", $"__REPL_0__") \/ In (fst kv) dotted_words.
Proof. intros kv I. vm_compute in I. repeat (destruct I as [<-|I]; [vm_compute; tauto|]). destruct I. Qed.
Lemma words_idle : forall t, clean t -> protect_words words t = t.
Proof.
  intros t C. apply replace_each_id. intros kv I. apply (Permutation_in _ HW) in I. destruct (word_cases kv I) as [->|J]; [|exact (cl_words t C _ J)].
  apply contains_missing with (c := "$"); [left; reflexivity | exact (go_missing t "$" eq_refl (cl_chars t C))].
Qed.
Lemma each_once : forall k x s s' l, (forall kv, In kv l -> kv = (k, x) \/ contains (fst kv) s = false /\ contains (fst kv) s' = false) -> In (k, x) l ->
  replace_all k x s = s' -> contains k s' = false -> replace_each l s = s'.
Proof.
  intros k x s s' l. induction l as [|kv l IH]; intros H I R C; [destruct I|]. unfold replace_each in *. cbn [fold_left].
  assert (D : kv = (k, x) \/ contains (fst kv) s = false /\ contains (fst kv) s' = false) by (apply H; left; reflexivity). destruct D as [->|[D1 D2]].
  - cbn [fst snd]. rewrite R. apply replace_each_id. intros kv J. destruct (H kv (or_intror J)) as [->|[_ D]]; [exact C | exact D].
  - destruct I as [E|I].
    + subst kv. cbn [fst snd] in *. rewrite R. apply replace_each_id. intros kv J. destruct (H kv (or_intror J)) as [->|[_ D]]; [exact C | exact D].
    + rewrite replace_all_no by exact D1. apply IH; [intros kv' J; apply H; right; exact J | exact I | exact R | exact C].
Qed.
Lemma words_dollar : forall t, clean t -> protect_words words ("$" :: t) = $"__REPL_0__" ++ t.
Proof.
  intros t C. assert (ND : ~ In "$" t) by exact (go_missing t "$" eq_refl (cl_chars t C)).
  apply (each_once $"$" $"__REPL_0__").
  - intros kv I. apply (Permutation_in _ HW) in I. destruct (word_cases kv I) as [->|J]; [left; reflexivity|]. right.
    assert (W : In (fst kv) dotted_words -> ~ In "$" (fst kv) /\ ~ In "_" (fst kv) /\ forallb (fun M => negb (contains (fst kv) M)) [$"__REPL_0_"; $"__DoTPrefix_"] = true /\ fst kv <> [] /\ contains (fst kv) [] = false).
    { clear. generalize (fst kv). intros w J. vm_compute in J. repeat (destruct J as [<-|J]; [repeat split; try reflexivity; vm_compute; intuition discriminate|]). destruct J. }
    destruct (W J) as (W1 & W2 & W3 & W4 & W5). pose proof (cl_words t C _ J) as CT. split.
    + exact (cut_word_false (fst kv) [] "$" t W1 W5 CT).
    + apply mark_free; [right; left; reflexivity | exact W2 | exact W3 | exact CT].
  - apply (Permutation_in _ (Permutation_sym HW)). vm_compute. tauto.
  - change ("$" :: t) with ($"$" ++ t). rewrite replace_all_sep by discriminate. rewrite replace_all_no; [reflexivity|]. apply contains_missing with (c := "$"); [left; reflexivity | exact ND].
  - apply contains_missing with (c := "$"); [left; reflexivity|]. intro A. apply in_app_or in A. destruct A as [A|A]; [vm_compute in A; intuition discriminate | exact (ND A)].
Qed.

Lemma no_quotes : forall s, ~ In DQ s -> ~ In BQ s -> protect s = (s, []).
Proof.
  intros s D B. unfold protect. cbn [protect_go]. assert (Q : index_quote s = None); [|rewrite Q; reflexivity].
  induction s as [|c s IH]; [reflexivity|]. cbn [index_quote]. rewrite IH by (intro I; first [apply D; right; exact I | apply B; right; exact I]).
  destruct (Ascii.eqb_spec c DQ) as [->|_]; [exfalso; apply D; left; reflexivity|]. destruct (Ascii.eqb_spec c BQ) as [->|_]; [exfalso; apply B; left; reflexivity | reflexivity].
Qed.
Lemma no_index : forall s, ~ In "[" s -> ~ In ":" s -> index_expression beyond s = s.
Proof.
  intros s N C. unfold index_expression.
  assert (E : replace_all_string (negative_slice beyond) $"[${index}:0]" s = s).
  { unfold replace_all_string, replace_re. apply replace_none. cbn [snd]. intros u t E t' H.
    assert (NS : exists r, c_re (negative_slice beyond) = RSeq (RByte (Ascii.eqb "[")) r) by (vm_compute; eexists; reflexivity).
    destruct NS as [r NS]. rewrite NS in H. inversion H as [| | |a b s0 s1 s2 A B| | | | | | | | | |]; subst.
    inversion A as [|f c s0 F| | | | | | | | | | | |]; subst. apply Ascii.eqb_eq in F. subst c. apply N. apply in_or_app. right. left. reflexivity. }
  rewrite E. rewrite (replace_all_no $"[]") by (apply contains_missing with (c := "["); [left; reflexivity | exact N]).
  rewrite (replace_all_no $"[:") by (apply contains_missing with (c := "["); [left; reflexivity | exact N]).
  apply replace_all_no. apply contains_missing with (c := ":"); [left; reflexivity | exact C].
Qed.
Lemma no_tokens : forall s, ~ In DQ s -> restore s [] = Ok s.
Proof. intros s D. unfold restore. rewrite <- (app_nil_r s) at 1. rewrite restore_plain by exact D. cbn [restore_go bind]. rewrite app_nil_r. reflexivity. Qed.
Lemma mark_chars : forall M t c, In M marks0 -> clean t -> In c [DQ; BQ; "["; ":"] -> ~ In c (M ++ t).
Proof.
  intros M t c J C I A. apply in_app_or in A. destruct A as [A|A].
  - destruct J as [<-|[<-|[<-|[]]]]; destruct I as [<-|[<-|[<-|[<-|[]]]]]; vm_compute in A; intuition discriminate.
  - revert A. apply go_missing; [|exact (cl_chars t C)]. destruct I as [<-|[<-|[<-|[<-|[]]]]]; reflexivity.
Qed.
Definition go1 := RazorAssignModel.go_text beyond words signs opers.
Lemma go_plain : forall t, clean t -> dots_held false t = true -> go1 t = Ok t.
Proof.
  intros t C D. unfold go1, RazorAssignModel.go_text. pose proof (mark_chars [] t) as MC. cbn [app] in MC.
  rewrite no_quotes by (apply MC; [left; reflexivity | exact C | vm_compute; tauto]). cbn [map]. rewrite words_idle by exact C.
  change $"${prefix}__DoTPrefix__${value}" with dot_repl. rewrite (dots_idle beyond t (go_low t (cl_chars t C)) D). pose proof (signs_idle [] t (or_introl eq_refl) C) as SI. cbn [app] in SI. rewrite SI.
  rewrite no_index by (apply MC; [left; reflexivity | exact C | vm_compute; tauto]). apply no_tokens. apply MC; [left; reflexivity | exact C | vm_compute; tauto].
Qed.
Lemma go_dollar : forall t, clean t -> dots_held true t = true -> go1 ("$" :: t) = Ok ($"__REPL_0__" ++ t).
Proof.
  intros t C D. unfold go1, RazorAssignModel.go_text. pose proof (mark_chars $"__REPL_0__" t) as MC. pose proof (mark_chars [] t) as MC0. cbn [app] in MC0.
  assert (J : In $"__REPL_0__" marks0) by (right; left; reflexivity).
  rewrite no_quotes by (intros [E|E]; [discriminate E | revert E; apply MC0; [left; reflexivity | exact C | vm_compute; tauto]]).
  cbn [map]. rewrite words_dollar by exact C. change $"${prefix}__DoTPrefix__${value}" with dot_repl. rewrite dots_idle.
  - rewrite (signs_idle $"__REPL_0__" t J C). rewrite no_index by (apply MC; [exact J | exact C | vm_compute; tauto]). apply no_tokens. apply MC; [exact J | exact C | vm_compute; tauto].
  - apply Forall_app. split; [vm_compute; repeat constructor | exact (go_low t (cl_chars t C))].
  - rewrite dots_app. change (dots_held false $"__REPL_0__") with true. exact D.
Qed.
Lemma go_dot : forall w t c r, w = c :: r -> is_word c = true -> Forall (fun c => is_word c || Ascii.eqb c "." = true) r -> stops path_class t -> dots_held true t = true ->
  clean ("." :: w ++ t) -> go1 ("." :: w ++ t) = Ok (dot_rep ++ w ++ t).
Proof.
  intros w t c r E WC WR ST D C. unfold go1, RazorAssignModel.go_text. pose proof (mark_chars [] ("." :: w ++ t)) as MC. cbn [app] in MC.
  assert (C' : clean (w ++ t)).
  { destruct C as [C1 C2 C3 C4 C5]. constructor.
    - apply andb_true_iff in C1. apply C1.
    - intros k I. specialize (C2 k I). rewrite contains_cons in C2. apply orb_false_iff in C2. apply C2.
    - rewrite contains_cons in C3. apply orb_false_iff in C3. apply C3.
    - rewrite contains_cons in C4. apply orb_false_iff in C4. apply C4.
    - intros o f I. specialize (C5 o f I). rewrite contains_cons in C5. apply orb_false_iff in C5. apply C5. }
  assert (J : In dot_rep marks0) by (right; right; left; reflexivity). pose proof (mark_chars dot_rep (w ++ t)) as MD.
  rewrite no_quotes by (apply MC; [left; reflexivity | exact C | vm_compute; tauto]). cbn [map]. rewrite words_idle by exact C.
  change $"${prefix}__DoTPrefix__${value}" with dot_repl. rewrite (dots_start beyond w t c r E WC WR ST); [| | exact D].
  - rewrite (signs_idle dot_rep (w ++ t) J C'). rewrite no_index by (apply MD; [exact J | exact C' | vm_compute; tauto]). apply no_tokens. apply MD; [exact J | exact C' | vm_compute; tauto].
  - pose proof (go_low _ (cl_chars _ C')) as L. apply Forall_app in L. apply L.
Qed.
End Text.
