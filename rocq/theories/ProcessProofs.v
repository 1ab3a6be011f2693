(** Proofs about the rendering of contents. *)
From Coq Require Import String Ascii List ZArith NArith Bool Arith Lia.
From Verif Require Import GoStr GoStrFacts SentinelFacts TemplateModel TemplateSpec TemplateProofs PathModel ProcessModel ProcessSpec PauseProofs.
Import ListNotations.

(** ** Strict files *)
Lemma strict_iff : forall o file source, is_strict o file source = true <-> strict o file source.
Proof.
  intros o file source. unfold is_strict, strict, explicit_go_template. rewrite !orb_true_iff, andb_true_iff, negb_true_iff, holds_iff, holds_iff. split.
  - intros [[H|H]|(H1 & H2)]; auto. right. right. exists (path_ext file). split; [apply ext_exists|]. split; [apply str_eqb_neq; exact H1|exact H2].
  - intros [H|[H|(e & X & N & H)]]; auto. right. apply ext_unique in X. subst e. split; [apply str_eqb_neq; exact N|exact H].
Qed.

(** ** Undefined values *)
Lemma count_pos : forall sub s, sub <> [] -> (0 < count_sub sub s <-> contains sub s = true).
Proof.
  intros sub s N. unfold count_sub. destruct (contains sub s) eqn:C.
  - split; [reflexivity|intros _]. apply contains_iff in C. destruct C as (a & b & ->). destruct (index sub (a ++ sub ++ b)) as [n|] eqn:I.
    + rewrite (split_index_some sub _ n N I). cbn [List.length]. pose proof (split_nonnil sub (skipn (n + List.length sub) (a ++ sub ++ b))) as Q. destruct (split sub (skipn (n + List.length sub) (a ++ sub ++ b))); [congruence|]. cbn [List.length]. lia.
    + apply contains_false_index in I. exfalso. assert (contains sub (a ++ sub ++ b) = true) by (apply contains_iff; eauto). congruence.
  - rewrite split_no by exact C. cbn. split; [lia|discriminate].
Qed.
Lemma count_undefined : forall s, Nat.ltb 0 (count_sub no_value (replace_all nil_value no_value s)) = true <-> undefined_value s.
Proof.
  intro s. rewrite Nat.ltb_lt, count_pos by discriminate. unfold undefined_value. rewrite <- !holds_iff. change $"<no value>" with no_value. change $"<nil>" with nil_value.
  destruct (contains nil_value s) eqn:C.
  - split; [auto|intros _]. destruct (index nil_value s) as [n|] eqn:I; [|apply contains_false_index in I; congruence].
    unfold replace_all. rewrite (split_index_some nil_value s n ltac:(discriminate) I). rewrite join_cons by apply split_nonnil. apply contains_iff. eexists. eexists. reflexivity.
  - rewrite replace_all_no by exact C. split; [auto|intros [H|H]; [exact H|discriminate]].
Qed.

(** ** Values put aside *)
Definition vbr : ascii := "!"%char.
Definition vmark : str := $"_VALUE".
Definition two (x : str) : Prop := In x [no_value_repl; nil_value_repl].
Lemma two_sentinel : forall x, two x -> sentinel vbr vmark x.
Proof. intros x [<-|[<-|[]]]; [exists $"NO_VALUE"|exists $"NIL_VALUE"]; (split; [reflexivity|]; split; [cbn; intuition discriminate|reflexivity]). Qed.
Lemma two_apart : forall d x, d = no_value \/ d = nil_value -> two x -> apart d x.
Proof.
  intros d x D T. split; [destruct T as [<-|[<-|[]]]; discriminate|]. intros c I J.
  destruct D as [->| ->]; destruct T as [<-|[<-|[]]]; cbn in I, J; intuition (subst; discriminate).
Qed.
Definition vden (s : str) : str := if str_eqb s no_value_repl then no_value else nil_value.
Lemma values_back : forall s, contains vmark s = false -> restore_values (protect_values s) = s.
Proof.
  intros s H. unfold restore_values, protect_values.
  assert (E0 : each (fun f => contains vmark f = false) two [] s) by (split; [constructor|exact H]).
  pose proof (veil_flat no_value no_value_repl [] s ltac:(discriminate) ltac:(constructor)) as V1. pose proof (veil_meaning vden no_value_repl [] s ltac:(discriminate)) as M1. change (vden no_value_repl) with no_value in M1.
  pose proof (veil_each (fun f => contains vmark f = false) (fun f => contains vmark f = false) two no_value no_value_repl [] s (fun f K => split_fields_other no_value vmark f ltac:(discriminate) K) (or_introl eq_refl) E0) as E1.
  destruct (veil no_value no_value_repl [] s) as (T1, l1). cbn [flat] in V1. rewrite V1.
  assert (A1 : Forall (fun fx => apart nil_value (snd fx)) T1) by (destruct E1 as (E1 & _); eapply Forall_impl; [|exact E1]; intros fs (_ & K); apply two_apart; auto).
  pose proof (veil_flat nil_value nil_value_repl T1 l1 ltac:(discriminate) A1) as V2. pose proof (veil_meaning vden nil_value_repl T1 l1 ltac:(discriminate)) as M2. change (vden nil_value_repl) with nil_value in M2.
  pose proof (veil_each (fun f => contains vmark f = false) (fun f => contains vmark f = false) two nil_value nil_value_repl T1 l1 (fun f K => split_fields_other nil_value vmark f ltac:(discriminate) K) (or_intror (or_introl eq_refl)) E1) as E2.
  destruct (veil nil_value nil_value_repl T1 l1) as (T2, l2). rewrite V2.
  assert (Q : forall x, In x (map snd T2) -> two x) by (intros x I; apply in_map_iff in I; destruct I as (fs & <- & I); destruct E2 as (E2 & _); rewrite Forall_forall in E2; apply E2; exact I).
  assert (G2 : good vbr vmark T2 l2) by (destruct E2 as (A & B); split; [|exact B]; eapply Forall_impl; [|exact A]; intros fs (K1 & K2); split; [exact K1|apply two_sentinel; exact K2]).
  assert (L1 : forall c, In c no_value -> ~ In c vmark) by (intros c I J; cbn in I, J; intuition (subst; discriminate)).
  pose proof (put_flat vbr vmark no_value_repl no_value T2 l2 (two_sentinel _ (or_introl eq_refl)) G2) as P1. pose proof (put_good vbr vmark ltac:(discriminate) no_value_repl no_value T2 l2 ltac:(discriminate) L1 G2) as G3.
  pose proof (put_meaning vden no_value_repl T2 l2) as N1. pose proof (put_gone no_value_repl no_value T2 l2) as X1. change (vden no_value_repl) with no_value in N1. destruct (put no_value_repl no_value T2 l2) as (T3, l3). rewrite P1.
  pose proof (put_flat vbr vmark nil_value_repl nil_value T3 l3 (two_sentinel _ (or_intror (or_introl eq_refl))) G3) as P2.
  pose proof (put_meaning vden nil_value_repl T3 l3) as N2. pose proof (put_gone nil_value_repl nil_value T3 l3) as X2. change (vden nil_value_repl) with nil_value in N2. destruct (put nil_value_repl nil_value T3 l3) as (T4, l4). rewrite P2.
  assert (N : map snd T4 = []).
  { destruct (map snd T4) as [|x r] eqn:E; [reflexivity|]. exfalso. assert (I : In x (x :: r)) by (left; reflexivity). rewrite X2, X1 in I. destruct I as ((I & Na) & Nb). apply Q in I. destruct I as [<-|[<-|[]]]; congruence. }
  rewrite <- (meaning_none vden) by exact N. cbn [meaning] in M1. congruence.
Qed.

Section WithEngine.
Context {G : Engine}.

(** ** Attempts *)
Lemma attempt_ends : forall stack d file lines check n st original code st' r c e,
  attempt stack d st file lines check n original code = (st', Ok (r, c, e)) ->
  exists out errs, ends_with file lines n st code st' out errs /\
    (errs <> [] -> exists x, e = Some x /\ Forall (holds x) errs) /\
    (errs = [] -> exists o, out = Some o /\ (check = false -> e = None) /\
      (run_engine st n file code = (st', Ok o) ->
       let text := revert_if (pausing original) d (substitute o) in
       (r, e) = (if check then check_values file text else (text, None)) /\ c = negb (str_eqb r original))).
Proof.
  induction stack as [|stack IH]; intros d file lines check n st original code st' r c e H; cbn [attempt] in H; [discriminate|].
  destruct (run_engine st n file code) as (st1, [o|x|x]) eqn:R; [| |discriminate].
  - set (text := revert_if (pausing original) d (substitute o)) in *. destruct (if check then check_values file text else (text, None)) as (r', e') eqn:C. inversion H; subst.
    exists (Some o), []. split; [apply ends_ok; exact R|]. split; [congruence|]. intros _. exists o. split; [reflexivity|]. split; [intros ->; inversion C; reflexivity|]. intros _. cbv zeta. auto.
  - destruct (diagnose file lines code x) as [y|code' e1|y] eqn:D; [| |discriminate].
    + inversion H; subst. exists None, [y]. split; [eapply ends_stop; eassumption|]. split; [|discriminate]. intros _. exists y. split; [reflexivity|]. constructor; [exists [], []; rewrite app_nil_r; reflexivity|constructor].
    + destruct (attempt stack d st1 file lines false (S n) code' code') as (st2, [((r2, c2), e2)|y|y]) eqn:A; [|discriminate|discriminate]. inversion H; subst. clear H.
      destruct (IH _ _ _ _ _ _ _ _ _ _ _ _ A) as (out & errs & E & H1 & H2). exists out, (reported e1 ++ errs). split; [eapply ends_again; eassumption|]. split.
      * intro NE0. destruct errs as [|z errs].
        -- destruct (H2 eq_refl) as (o & _ & K & _). specialize (K eq_refl). subst e2. destruct e1 as [y|]; [|exfalso; apply NE0; reflexivity]. exists y. split; [reflexivity|]. constructor; [exists [], []; rewrite app_nil_r; reflexivity|constructor].
        -- destruct H1 as (y & -> & F); [discriminate|]. destruct e1 as [w|]; [|exists y; split; [reflexivity|exact F]].
           cbn [merge_errors reported app]. eexists. split; [reflexivity|]. constructor; [exists []; eexists; reflexivity|].
           eapply Forall_impl; [|exact F]. intros q (a & b & Q). destruct (str_eqb w y) eqn:X.
           ++ apply str_eqb_eq in X. subst w. exists a, (b ++ [NL] ++ unable_text). rewrite Q, <- !app_assoc. reflexivity.
           ++ exists (w ++ [NL] ++ a), b. rewrite Q, <- !app_assoc. reflexivity.
      * intro Z. apply app_eq_nil in Z. destruct Z as (Z1 & ->). destruct e1; [discriminate|]. destruct (H2 eq_refl) as (o & -> & K & _). exists o. split; [reflexivity|]. split; [intros _; rewrite (K eq_refl); reflexivity|]. intro R2. congruence.
Qed.

(** ** The whole *)
Definition rendered (o : optset) (code : str) : str := if oget o o_accept_no_value then code else protect_values code.

Lemma oget_script : forall o (b : bool) k, k <> o_output_stdout -> oget (if b then oset o o_output_stdout true else o) k = oget o k.
Proof. intros o b k N. destruct b; [|reflexivity]. change (oset o o_output_stdout true) with (opt_set o true [o_output_stdout]). rewrite opt_set_get. destruct (in_dec Nat.eq_dec k [o_output_stdout]) as [[<-|[]]|]; congruence. Qed.

Lemma strict_script : forall o (b : bool) file source, is_strict (if b then oset o o_output_stdout true else o) file source = is_strict o file source.
Proof. intros. unfold is_strict. rewrite oget_script by discriminate. reflexivity. Qed.

Lemma process_code : forall stack o d st file source code script,
  prepare o d source = (code, script) -> oget o o_rendering_disabled = false -> is_code d code = true ->
  process_content stack o d st file source =
  let o' := if script then oset o o_output_stdout true else o in
  let '(st', r) := attempt stack d st file (split [NL] source) (negb (oget o o_accept_no_value)) 0 source (rendered o code) in
  (o', st', match r with Ok (result, changed, Some e) => if is_strict o file source then Ok (result, changed, Some e) else Ok (source, false, None) | r => r end).
Proof.
  intros stack o d st file source code script P R C. unfold process_content, rendered. rewrite P. cbv zeta. rewrite !oget_script by discriminate. rewrite R, C. cbn [orb negb]. rewrite strict_script.
  destruct (attempt stack d st file (split [NL] source) (negb (oget o o_accept_no_value)) 0 source (if oget o o_accept_no_value then code else protect_values code)) as (st', [((r, c), [e|])|e|e]); try reflexivity. destruct (is_strict o file source); reflexivity.
Qed.

Lemma process_failed : forall stack o d st file source code script o' st' result changed err,
  prepare o d source = (code, script) -> oget o o_rendering_disabled = false -> is_code d code = true ->
  process_content stack o d st file source = (o', st', Ok (result, changed, err)) ->
  exists out errs, ends_with file (split [NL] source) 0 st (rendered o code) st' out errs /\
    (errs <> [] -> strict o file source -> exists e, err = Some e /\ Forall (holds e) errs) /\
    (errs <> [] -> ~ strict o file source -> result = source /\ changed = false /\ err = None).
Proof.
  intros stack o d st file source code script o' st' result changed err P R C H. rewrite (process_code _ _ _ _ _ _ _ _ P R C) in H. cbv zeta in H.
  destruct (attempt stack d st file (split [NL] source) (negb (oget o o_accept_no_value)) 0 source (rendered o code)) as (st1, [((r, c), e)|e|e]) eqn:A; [|discriminate|discriminate].
  destruct (attempt_ends _ _ _ _ _ _ _ _ _ _ _ _ _ A) as (out & errs & E & H1 & _). exists out, errs.
  assert (S1 : st1 = st') by (destruct e; [destruct (is_strict o file source)|]; congruence). subst st1. split; [exact E|]. rewrite <- strict_iff. split; intros N S.
  - destruct (H1 N) as (x & -> & F). rewrite S in H. exists x. split; [congruence|exact F].
  - destruct (H1 N) as (x & -> & F). apply not_true_is_false in S. rewrite S in H. inversion H. auto.
Qed.

Lemma process_no_error : forall stack o d st file source o' st' result changed err,
  ~ strict o file source -> process_content stack o d st file source = (o', st', Ok (result, changed, err)) -> err = None.
Proof.
  intros stack o d st file source o' st' result changed err S H. destruct (prepare o d source) as (code, script) eqn:P. destruct (oget o o_rendering_disabled) eqn:R; [|destruct (is_code d code) eqn:C].
  - unfold process_content in H. rewrite P in H. cbv zeta in H. rewrite oget_script in H by discriminate. rewrite R in H. cbn [orb] in H. congruence.
  - rewrite (process_code _ _ _ _ _ _ _ _ P R C) in H. cbv zeta in H. rewrite <- strict_iff in S. apply not_true_is_false in S.
    destruct (attempt stack d st file (split [NL] source) (negb (oget o o_accept_no_value)) 0 source (rendered o code)) as (st1, [((r, c), [e|])|e|e]); try rewrite S in H; congruence.
  - unfold process_content in H. rewrite P in H. cbv zeta in H. rewrite oget_script in H by discriminate. rewrite R, C in H. cbn [orb negb] in H. congruence.
Qed.

(** The first attempt succeeds. *)
Lemma process_first : forall stack o d st file source code script st' out,
  prepare o d source = (code, script) -> oget o o_rendering_disabled = false -> is_code d code = true ->
  run_engine st 0 file (rendered o code) = (st', Ok out) ->
  let text := revert_if (pausing source) d (substitute out) in
  let '(_, st2, r) := process_content (S stack) o d st file source in st2 = st' /\
  (oget o o_accept_no_value = true -> r = Ok (text, negb (str_eqb text source), None)) /\
  (oget o o_accept_no_value = false -> ~ undefined_value text -> r = Ok (restore_values text, negb (str_eqb (restore_values text) source), None)) /\
  (oget o o_accept_no_value = false -> undefined_value text -> strict o file source ->
    let result := restore_values (highlight text) in
    r = Ok (result, negb (str_eqb result source), Some ($"template: " ++ file ++ $":: contains undefined value(s)" ++ [NL] ++ numbered result))) /\
  (oget o o_accept_no_value = false -> undefined_value text -> ~ strict o file source -> r = Ok (source, false, None)).
Proof.
  intros stack o d st file source code script st' out P R C H text. rewrite (process_code _ _ _ _ _ _ _ _ P R C). cbn [attempt]. rewrite H. fold text. cbv zeta. pose proof (count_undefined text) as U. pose proof (strict_iff o file source) as S0. unfold check_values.
  destruct (oget o o_accept_no_value); cbn [negb].
  - split; [reflexivity|]. split; [reflexivity|]. repeat split; intros; discriminate.
  - destruct (Nat.ltb 0 (count_sub no_value (replace_all nil_value no_value text))).
    + destruct (is_strict o file source); (split; [reflexivity|]; split; [discriminate|]; split; [intros _ N; exfalso; apply N, U; reflexivity|]); split; intros _ _ S.
      * reflexivity.
      * exfalso. apply S, S0. reflexivity.
      * apply S0 in S. discriminate.
      * reflexivity.
    + split; [reflexivity|]. split; [discriminate|]. split; [reflexivity|]. split; intros _ X; apply U in X; discriminate.
Qed.

(** ** Texts without code *)
Lemma strip_none : forall s, has_prefix $"#!" s = false -> strip_shebang s = (s, false).
Proof. intros s H. unfold strip_shebang. rewrite H. reflexivity. Qed.

Lemma process_plain : forall stack o d st file source,
  let text := substitute source in
  ~ (exists r, text = $"#!" ++ r) -> ~ holds source $"gotemplate-pause!" -> ~ holds source $"razor-pause!" ->
  (holds text $"no-gotemplate!" \/ (~ holds text (left_delim d) /\ ~ holds text (right_delim d) /\ ~ holds text (razor_delim d))) ->
  process_content stack o d st file source = (o, st, Ok (text, false, None)).
Proof.
  intros stack o d st file source text N1 N2 N3 H. unfold process_content, prepare. fold text. rewrite strip_none.
  - rewrite <- holds_not in N2, N3. unfold pausing. unfold pause_go_template, pause_razor. rewrite N2, N3. cbn [orb].
    assert (C : is_code d text = false /\ is_razor d text = false).
    { split; apply not_true_is_false; [rewrite code_iff|rewrite razor_iff]; tauto. }
    destruct C as (C & Z). unfold apply_razor. rewrite Z, andb_false_r, C. cbn [negb]. rewrite orb_true_r. reflexivity.
  - apply not_true_is_false. rewrite has_prefix_iff. exact N1.
Qed.

(** A document in which all code is paused. *)
Lemma contains_lines : forall delim lines, delim <> [] -> ~ In NL delim -> lines <> [] -> Forall (fun l => contains delim l = false) lines -> contains delim (join [NL] lines) = false.
Proof.
  intros delim lines N NN NE F. induction F as [|l lines Hl F IH]; [congruence|]. destruct lines as [|x lines]; [exact Hl|].
  change (join [NL] (l :: x :: lines)) with (l ++ [NL] ++ join [NL] (x :: lines)). apply contains_cut; auto; [discriminate|intros c I [<-|[]]; contradiction|apply IH; discriminate].
Qed.
Lemma process_paused : forall stack o d st file lines, let source := join [NL] lines in
  ordinary_delims d -> ~ In NL (left_delim d ++ right_delim d ++ razor_delim d) -> lines <> [] -> Forall (fun l => ~ In NL l) lines ->
  substitute source = source -> ~ (exists r, source = $"#!" ++ r) ->
  (forall i, i < List.length lines -> ~ holds (nth i lines []) $"&paused-" /\
     (code_paused lines i \/ (~ holds (nth i lines []) (left_delim d) /\ ~ holds (nth i lines []) (right_delim d) /\ ~ holds (nth i lines []) (razor_delim d)))) ->
  process_content stack o d st file source = (o, st, Ok (source, false, None)).
Proof.
  intros stack o d st file lines source O NN NE F Hs N1 H. unfold process_content, prepare. rewrite Hs, strip_none by (apply not_true_is_false; rewrite has_prefix_iff; exact N1).
  set (code := if pausing source then hide d source else source).
  assert (K : (contains (left_delim d) code = false /\ contains (right_delim d) code = false /\ contains (razor_delim d) code = false) /\ revert_if (pausing source) d code = source).
  { destruct O as (OL & OR & OZ). assert (NL1 : ~ In NL (left_delim d) /\ ~ In NL (right_delim d) /\ ~ In NL (razor_delim d)) by (repeat split; intro I; apply NN; rewrite !in_app_iff; auto). destruct NL1 as (NL1 & NL2 & NL3).
    unfold code. destruct (pausing source) eqn:P.
    - destruct (hide_lines d lines (conj OL (conj OR OZ)) NE F) as (lines' & EH & L & Q). fold source in EH. rewrite EH. assert (NE' : lines' <> []) by (intro; subst; cbn in L; destruct lines; [congruence|discriminate]).
      assert (D : forall i, i < List.length lines' -> contains (left_delim d) (nth i lines' []) = false /\ contains (right_delim d) (nth i lines' []) = false /\ contains (razor_delim d) (nth i lines' []) = false).
      { intros i Li. rewrite L in Li. destruct (Q i Li) as (Q1 & _ & Q3 & _). destruct (H i Li) as (_ & [Hp|(Ha & Hb & Hc)]).
        - destruct (Q1 Hp) as (A & B & C). rewrite !holds_not. auto.
        - destruct (contains (left_delim d) (nth i lines' []) || contains (right_delim d) (nth i lines' []) || contains (razor_delim d) (nth i lines' [])) eqn:X.
          + exfalso. assert (W : ~ code_paused lines i) by (intro W; destruct (Q1 W) as (A & B & C); rewrite <- holds_not in A, B, C; rewrite A, B, C in X; discriminate).
            rewrite (Q3 W (or_intror Hc)) in X. rewrite <- holds_not in Ha, Hb, Hc. apply orb_true_iff in X. destruct X as [X|X]; [apply orb_true_iff in X; destruct X as [X|X]|]; [exact (eq_true_false_abs _ X Ha)|exact (eq_true_false_abs _ X Hb)|exact (eq_true_false_abs _ X Hc)].
          + apply orb_false_iff in X. destruct X as (X & X3). apply orb_false_iff in X. destruct X. auto. }
      split.
      + split; [|split]; apply contains_lines; auto; try (apply OL); try (apply OR); try (apply OZ); apply Forall_forall; intros l I; destruct (In_nth _ _ [] I) as (i & Li & <-); destruct (D i Li) as (A & B & C); assumption.
      + cbn [revert_if]. rewrite revert_join by exact NE'. unfold source. f_equal. apply (nth_ext _ _ [] []); [rewrite map_length; exact L|]. intros i Li. rewrite map_length in Li.
        change (nth i (map (revert d) lines') []) with (nth i (map (revert d) lines') (revert d [])). rewrite map_nth. rewrite L in Li. destruct (Q i Li) as (_ & _ & _ & Q4). apply Q4. apply (proj1 (H i Li)).
    - split; [|reflexivity]. assert (NP : forall i, i < List.length lines -> ~ code_paused lines i).
      { intros i Li (j & Lj & Hj & _). unfold pausing in P. apply orb_false_iff in P. destruct P as (P & _). assert (contains pause_go_template source = true); [|congruence].
        apply holds_iff. destruct Hj as (a & b & Hj). destruct (in_join [NL] lines (nth j lines [])) as (a' & b' & E); [apply nth_In; lia|]. unfold source. rewrite E, Hj. exists (a' ++ a), (b ++ b'). rewrite <- !app_assoc. reflexivity. }
      split; [|split]; (apply contains_lines; auto; [apply OL || apply OR || apply OZ|]; apply Forall_forall; intros l I; destruct (In_nth _ _ [] I) as (i & Li & <-); destruct (H i Li) as (_ & [Hp|(A & B & C)]); [exfalso; exact (NP i Li Hp)|rewrite !holds_not; assumption]). }
  destruct K as ((K1 & K2 & K3) & K4). cbv zeta. fold code.
  assert (Z : is_razor d code = false) by (unfold is_razor; rewrite K3; reflexivity). assert (C : is_code d code = false) by (unfold is_code; rewrite Z, K1, K2; apply andb_false_r).
  unfold apply_razor. rewrite Z, andb_false_r, C. cbn [negb]. rewrite orb_true_r, K4. reflexivity.
Qed.
End WithEngine.

(** ** The extensions that are fragments of the list *)
Definition ext_list : str := $".gt,.gte,.template".
Definition fragments : list str := flat_map (fun k => map (fun n => firstn n (skipn k ext_list)) (seq 0 20)) (seq 0 20).
Definition strict_ext : list str :=
  [$".gt"; $".gte"; $".template"; $"."; $".g"; $".gt,"; $".gte,"; $".t"; $".te"; $".tem"; $".temp"; $".templ"; $".templa"; $".templat"].
Lemma fragments_checked : forallb (fun e => match e with c :: x => implb (Ascii.eqb c "." && negb (contains_byte "." x)) (mem_str e strict_ext) | [] => true end) fragments = true.
Proof. vm_compute. reflexivity. Qed.
Lemma strict_ext_iff : forall f e, extension f e -> e <> [] -> (holds $".gt,.gte,.template" e <-> In e strict_ext).
Proof.
  intros f e X N. split.
  - intros (a & b & E). destruct X as [(a' & x & _ & -> & D & _)|(a' & x & _ & -> & _)]; [|congruence].
    assert (I : In ($"." ++ x) fragments).
    { apply in_flat_map. exists (List.length a). assert (L : List.length ext_list = List.length a + (List.length ($"." ++ x) + List.length b)) by (unfold ext_list; rewrite E, !app_length; reflexivity). change (List.length ext_list) with 18 in L.
      split; [apply in_seq; lia|]. apply in_map_iff. exists (List.length ($"." ++ x)). split; [|apply in_seq; lia]. unfold ext_list. rewrite E, skipn_app, skipn_all, Nat.sub_diag. cbn [app skipn]. rewrite firstn_app, firstn_all, Nat.sub_diag, app_nil_r. reflexivity. }
    pose proof fragments_checked as F. rewrite forallb_forall in F. specialize (F _ I). cbn [app lit list_ascii_of_string] in F. change ($"." ++ x) with ("."%char :: x) in *.
    cbv iota in F. destruct (contains_byte "." x) eqn:C; [apply contains_byte_In in C; contradiction|]. cbn [Ascii.eqb Bool.eqb andb negb implb] in F. apply mem_str_In. exact F.
  - intro I. apply holds_iff. unfold strict_ext in I. repeat (destruct I as [<-|I]; [reflexivity|]). destruct I.
Qed.

Lemma strict_exact : forall o file source, is_strict o file source = true <->
  oget o o_strict_error_check = true \/ holds source $"force-gotemplate!" \/ exists e, extension file e /\ In e strict_ext.
Proof.
  intros o file source. rewrite strict_iff. unfold strict. split; (intros [H|[H|(e & X & H)]]; [auto|auto|]); right; right; exists e.
  - destruct H as (N & H). split; [exact X|]. apply (strict_ext_iff file); assumption.
  - assert (N : e <> []) by (intros ->; cbn in H; intuition discriminate). split; [exact X|]. split; [exact N|]. apply (strict_ext_iff file e X N). exact H.
Qed.

(** Protected texts have no undefined value. *)
Lemma protect_hides : forall s, ~ undefined_value (protect_values s).
Proof.
  intro s. unfold undefined_value. rewrite <- !holds_iff. change $"<no value>" with no_value. change $"<nil>" with nil_value. unfold protect_values.
  set (t := replace_all no_value no_value_repl s).
  assert (H1 : contains no_value t = false).
  { unfold t. pose proof (veil_flat no_value no_value_repl [] s ltac:(discriminate) ltac:(constructor)) as V.
    pose proof (veil_each (fun _ => True) (fun f => contains no_value f = false) (fun x => apart no_value x) no_value no_value_repl [] s (fun f _ => split_fields_no no_value ltac:(discriminate) f) (two_apart no_value _ (or_introl eq_refl) (or_introl eq_refl))) as VE.
    destruct (veil no_value no_value_repl [] s) as (T', l'). cbn [flat] in V. rewrite V. apply each_not_contains; [discriminate|]. apply VE. split; [constructor|exact I]. }
  pose proof (veil_flat nil_value nil_value_repl [] t ltac:(discriminate) ltac:(constructor)) as V.
  pose proof (veil_each (fun _ => True) (fun f => contains nil_value f = false) (fun x => apart nil_value x) nil_value nil_value_repl [] t (fun f _ => split_fields_no nil_value ltac:(discriminate) f) (two_apart nil_value _ (or_intror eq_refl) (or_intror (or_introl eq_refl)))) as VE.
  pose proof (veil_each (fun f => contains no_value f = false) (fun f => contains no_value f = false) (fun x => apart no_value x) nil_value nil_value_repl [] t (fun f K => split_fields_other nil_value no_value f ltac:(discriminate) K) (two_apart no_value _ (or_introl eq_refl) (or_intror (or_introl eq_refl)))) as VN.
  destruct (veil nil_value nil_value_repl [] t) as (T', l'). cbn [flat] in V. rewrite V.
  rewrite (each_not_contains no_value T' l'), (each_not_contains nil_value T' l'); [intuition discriminate|discriminate|apply VE; split; [constructor|exact I]|discriminate|apply VN; split; [constructor|exact H1]].
Qed.

Lemma script_first : forall first rest, ~ In NL first ->
  strip_shebang ($"#!" ++ first ++ NL :: rest) = (if contains $"gotemplate" ($"#!" ++ first) then rest else $"#!" ++ first ++ NL :: rest, contains $"gotemplate" ($"#!" ++ first)).
Proof.
  intros first rest N. unfold strip_shebang. rewrite has_prefix_app. rewrite app_assoc, split1_app.
  - destruct (contains $"gotemplate" ($"#!" ++ first)); [|reflexivity]. change (join [NL] (split [NL] rest)) with (join [NL] (split [NL] rest)). rewrite join_split by discriminate. reflexivity.
  - intro I. apply in_app_or in I. destruct I as [I|I]; [|contradiction]. cbn in I. intuition discriminate.
Qed.

Section Options.
Context {G : Engine}.
Lemma process_options : forall stack o d st file source o' st' r k,
  process_content stack o d st file source = (o', st', r) -> oget o' k = oget o k \/ (k = o_output_stdout /\ oget o' k = true /\ exists x, substitute source = $"#!" ++ x).
Proof.
  intros stack o d st file source o' st' r k H. unfold process_content, prepare in H. destruct (strip_shebang (substitute source)) as (c, script) eqn:S. cbv zeta in H.
  assert (E : o' = if script then oset o o_output_stdout true else o).
  { destruct (oget (if script then oset o o_output_stdout true else o) o_rendering_disabled || negb (is_code d (apply_razor o d (if pausing source then hide d c else c)))); [congruence|].
    destruct (attempt stack d st file (split [NL] source) (negb (oget (if script then oset o o_output_stdout true else o) o_accept_no_value)) 0 source
      (if oget (if script then oset o o_output_stdout true else o) o_accept_no_value then apply_razor o d (if pausing source then hide d c else c) else protect_values (apply_razor o d (if pausing source then hide d c else c)))) as (st1, [((r1, c1), [e|])|e|e]); try congruence.
    destruct (is_strict (if script then oset o o_output_stdout true else o) file source); congruence. }
  destruct script; [|left; congruence]. destruct (Nat.eq_dec k o_output_stdout) as [->|NK].
  - right. split; [reflexivity|]. split.
    + rewrite E. change (oset o o_output_stdout true) with (opt_set o true [o_output_stdout]). rewrite opt_set_get. destruct (in_dec Nat.eq_dec o_output_stdout [o_output_stdout]) as [_|N]; [reflexivity|exfalso; apply N; left; reflexivity].
    + unfold strip_shebang in S. destruct (has_prefix $"#!" (substitute source)) eqn:P; [|discriminate]. apply has_prefix_iff in P. exact P.
  - left. rewrite E. exact (oget_script o true k NK).
Qed.

(** Enough stack is enough. *)
Lemma ends_attempt : forall file lines n st code st' out errs, ends_with file lines n st code st' out errs ->
  exists N, forall stack d check original, N <= stack -> exists r c e, attempt stack d st file lines check n original code = (st', Ok (r, c, e)).
Proof.
  intros file lines n st code st' out errs H. induction H as [n st code st' out R|n st code st' e e' R D|n st code st1 e code' e1 st' out errs R D H IH].
  - exists 1. intros [|stack] d check original L; [lia|]. cbn [attempt]. rewrite R. destruct (if check then check_values file (revert_if (pausing original) d (substitute out)) else (revert_if (pausing original) d (substitute out), None)) as (r, e). eauto.
  - exists 1. intros [|stack] d check original L; [lia|]. cbn [attempt]. rewrite R, D. eauto.
  - destruct IH as (N & IH). exists (S N). intros [|stack] d check original L; [lia|]. cbn [attempt]. rewrite R, D. destruct (IH stack d false code' ltac:(lia)) as (r & c & x & ->). eauto.
Qed.
Lemma process_ends : forall o d st file source code script st' out errs,
  prepare o d source = (code, script) -> oget o o_rendering_disabled = false -> is_code d code = true ->
  ends_with file (split [NL] source) 0 st (if oget o o_accept_no_value then code else protect_values code) st' out errs ->
  exists N, forall stack, N <= stack -> exists o' result changed err, process_content stack o d st file source = (o', st', Ok (result, changed, err)).
Proof.
  intros o d st file source code script st' out errs P R C H. destruct (ends_attempt _ _ _ _ _ _ _ _ H) as (N & K). exists N. intros stack L. rewrite (process_code _ _ _ _ _ _ _ _ P R C). cbv zeta. unfold rendered.
  destruct (K stack d (negb (oget o o_accept_no_value)) source L) as (r & c & e & ->). destruct e as [e|]; [destruct (is_strict o file source)|]; eauto 6.
Qed.
End Options.
