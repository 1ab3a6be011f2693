(** Missing keys: the theorems. *)
From Coq Require Import String Ascii List ZArith NArith Bool Lia ZifyBool ZifyN.
From Verif Require Import GoStr GoStrFacts NumFacts Utf8 TemplateModel TemplateSpec TemplateProofs ProcessModel TextModel TextSpec TextProofs2 TextProofs3 RazorWordsModel ReModel ReSyntaxModel RazorTableModel RazorAssignModel ReSound RazorRefMain RazorAsgGo RazorAsgMatch ErrorModel ErrorSpec ErrorMatch ErrorMatch2 ErrorMatch3 ErrorMatch4 ErrorProofs ErrorProofs2 ErrorProofs3.
Import ListNotations.
Local Open Scope char_scope.

(** An action that starts with u and a blank, then the path and the rest v *)
(** The path is the only one of its kind, in the only action of its kind *)
Definition located (a u path v b : str) : Prop :=
  path <> [] /\ Forall word_char path /\ ~ In "(" (a ++ u) /\ match v with [] => True | c :: _ => c = " " end /\
  (forall k, occurs_at $"}}" (action_line a u path v b) k -> path_column a u <= k -> path_column a u + length path + length v <= k) /\
  (forall k, occurs_at $"{{" (a ++ $"{{" ++ u ++ $" " ++ path ++ v) k -> k <= length a) /\
  (forall k, occurs_at path ($"{{" ++ (u ++ $" " ++ path ++ v) ++ $"}}") k -> k = 3 + length u) /\
  (forall k, occurs_at ($"{{" ++ (u ++ $" " ++ path ++ v) ++ $"}}") (action_line a u path v b) k -> k = length a).

(** ** Default values *)
Lemma search_step : forall n r pv c s x a b g, low c = true -> match_at r (pv, c :: s) = None -> search n r (Some c, s) = Some (x, a, b, g) -> search (S n) r (pv, c :: s) = Some (c :: x, a, b, g).
Proof.
  intros n r pv c s x a b g L M H. cbn [search]. rewrite M. cbn [snd]. rewrite decode_low by exact L. cbn [snd firstn skipn]. change (last_byte [c]) with (Some c). rewrite H. reflexivity.
Qed.
Lemma alt_left : forall a b p g k T G0, lands (rmatch a p g k) T G0 -> lands (rmatch (RAlt a b) p g k) T G0.
Proof. intros a b p g k T G0 (q & Q). exists q. cbn [rmatch]. rewrite Q. reflexivity. Qed.
Lemma alt_right : forall a b p g (k : place -> groups -> option (place * groups)) T G0, rmatch a p g k = None -> lands (rmatch b p g k) T G0 -> lands (rmatch (RAlt a b) p g k) T G0.
Proof. intros a b p g k T G0 N (q & Q). exists q. cbn [rmatch]. rewrite N. exact Q. Qed.
Definition default_re : re := RSeq begin_re (RSeq (RGroup 4 (RAlt (RAlt (lit $"undef") (lit $"ifUndef")) (lit $"default"))) (RSeq blanks1 (RSeq (RGroup 5 (RStar false (RRune dot))) (RSeq blanks1 (Lits undef_error (end_re 6)))))).
Lemma not_space : forall c, (N_of_ascii c < 128)%N -> ~ In c [" "; "009"; "010"; "012"; "013"] -> low c = true /\ in_class c_space (N_of_ascii c) = false /\ in_class dot (N_of_ascii c) = true.
Proof.
  intros c L N. split; [apply ascii_low; exact L|]. clear L. destruct c as [[] [] [] [] [] [] [] []]; try (split; reflexivity); exfalso; apply N; cbn; tauto.
Qed.
Lemma seq_none : forall a b p g (k : place -> groups -> option (place * groups)), rmatch a p g (fun p g => rmatch b p g k) = None -> rmatch (RSeq a b) p g k = None.
Proof. intros a b p g k H. exact H. Qed.
Lemma default_lands : forall w x pv, In w defaults -> one_word x ->
  lands (match_at default_re (pv, w ++ $" " ++ x ++ $" " ++ undef_error ++ $" }}")) [] [(6, $" }}"); (7, $"}}"); (5, x); (4, w)].
Proof.
  intros w x pv IN (NE & AX & BX). change (lands (rmatch default_re (pv, w ++ $" " ++ x ++ $" " ++ undef_error ++ $" }}") [] finish) [] [(6, $" }}"); (7, $"}}"); (5, x); (4, w)]).
  assert (XS : forall c y, x = c :: y -> low c = true /\ in_class c_space (N_of_ascii c) = false).
  { intros c y ->. inversion AX as [|? ? A1 _]; subst. inversion BX as [|? ? B1 _]; subst. pose proof (not_space c A1 B1). tauto. }
  unfold default_re. apply seq_lands. apply opt_skip; [destruct IN as [<-|[<-|[<-|[]]]]; reflexivity|]. apply seq_lands.
  eapply group_inner.
  { intros k' K'. destruct IN as [<-|[<-|[<-|[]]]].
    - apply alt_left. apply alt_left. apply lit_lands; [discriminate | exact K'].
    - apply alt_left. apply alt_right; [reflexivity|]. apply lit_lands; [discriminate | exact K'].
    - apply alt_right; [reflexivity|]. apply lit_lands; [discriminate | exact K']. }
  intros p1. apply seq_lands. unfold blanks1, blanks, sp. apply (plus_lands c_space c_space _ _ (x ++ $" " ++ undef_error ++ $" }}") _ _ " " []); [|reflexivity|reflexivity|constructor|].
  { destruct x as [|c y]; [contradiction|]. cbn [app stops]. exact (XS c y eq_refl). }
  intros p2. apply seq_lands. apply group_lazy.
  { apply Forall_forall. intros c I. unfold ascii_text in AX. rewrite Forall_forall in AX, BX. pose proof (not_space c (AX c I) (BX c I)). tauto. }
  { intros z y pv' g' E NY. destruct y as [|c y]; [contradiction|]. assert (I : In c x) by (rewrite E; apply in_or_app; right; left; reflexivity).
    unfold ascii_text in AX. rewrite Forall_forall in AX, BX. destruct (not_space c (AX c I) (BX c I)) as (L & S0 & _). cbn [app].
    apply seq_none. apply seq_none. rewrite rune_low by exact L. rewrite S0. reflexivity. }
  intros p3. apply seq_lands. apply (plus_lands c_space c_space _ _ (undef_error ++ $" }}") _ _ " " []); [split; reflexivity | reflexivity | reflexivity | constructor|].
  intros p4. apply lits_lands. intros p5. unfold end_re. exists (Some "}"). reflexivity.
Qed.
Lemma eats_alt : forall a b s s', eats (RAlt a b) s s' -> eats a s s' \/ eats b s s'.
Proof. intros a b s s' H. inversion H as [| | | |? ? ? ? X|? ? ? ? X| | | | | | | |]; subst; auto. Qed.
Lemma eats_group : forall n a s s', eats (RGroup n a) s s' -> eats a s s'.
Proof. intros n a s s' H. inversion H as [| | | | | | | |? ? ? ? X| | | | |]; subst; assumption. Qed.
Lemma eats_rune : forall cl c s s', low c = true -> eats (RRune cl) (c :: s) s' -> in_class cl (N_of_ascii c) = true /\ s' = s.
Proof. intros cl c s s' L H. inversion H as [| |? ? NE0 I| | | | | | | | | | |]; subst. rewrite decode_low in I by exact L. rewrite decode_low by exact L. split; [exact I | reflexivity]. Qed.
Lemma eats_blanks : forall c s s', low c = true -> in_class c_space (N_of_ascii c) = false -> eats blanks (c :: s) s' -> s' = c :: s.
Proof.
  intros c s s' L N H. unfold blanks, sp in H. inversion H as [| | | | | | |? ? ? s1 ? X Y| | | | | |]; subst; [reflexivity|]. apply eats_rune in X; [|exact L]. destruct X as [X _]. rewrite X in N. discriminate.
Qed.
Lemma eats_opt : forall a s s', eats (ROpt a) s s' -> eats a s s' \/ s' = s.
Proof. intros a s s' H. apply eats_alt in H. destruct H as [H|H]; [left; exact H | right]. inversion H; subst. reflexivity. Qed.
Lemma begin_eats : forall s s', eats begin_re s s' -> s' = s \/ has_prefix $"(" s = true \/
  exists m s1 s2 k, s = $"{{" ++ m /\ (s1 = m \/ m = "-" :: s1) /\ eats blanks s1 (k ++ s2) /\ In k [$"if"; $"range"; $"with"] /\ exists s3, eats sp s2 s3.
Proof.
  intros s s' H. unfold begin_re in H. apply eats_opt in H. destruct H as [H|H]; [right | left; exact H]. apply eats_group in H. apply eats_seq in H. destruct H as (_ & t & _ & H & _). apply eats_group in H. apply eats_alt in H. destruct H as [H|H].
  - right. apply eats_lits in H. destruct H as (m & -> & H). apply eats_seq in H. destruct H as (_ & s1 & _ & H1 & H). apply eats_seq in H. destruct H as (_ & s2 & _ & H2 & H). apply eats_seq in H. destruct H as (_ & s3 & _ & H3 & H). apply eats_seq in H. destruct H as (_ & s4 & _ & H4 & _). apply eats_group in H3.
    destruct (eats_words _ [$"if"; $"range"; $"with"] (w_alt _ _ _ _ (w_alt _ _ _ _ (w_lit $"if" ltac:(discriminate)) (w_lit $"range" ltac:(discriminate))) (w_lit $"with" ltac:(discriminate))) _ _ H3) as (k & I & E). subst s2.
    exists m, s1, s3, k. split; [reflexivity|]. split; [|split; [exact H2 | split; [exact I | exists s4; exact H4]]].
    apply eats_opt in H1. destruct H1 as [H1|H1]; [right | left; exact H1]. inversion H1 as [|f c x F| | | | | | | | | | | |]; subst. apply Ascii.eqb_eq in F. subst c. reflexivity.
  - left. apply (eats_lit $"(") in H; [subst s; reflexivity | discriminate].
Qed.
Lemma default_words : words_of (RAlt (RAlt (lit $"undef") (lit $"ifUndef")) (lit $"default")) defaults.
Proof. exact (w_alt _ _ _ _ (w_alt _ _ _ _ (w_lit $"undef" ltac:(discriminate)) (w_lit $"ifUndef" ltac:(discriminate))) (w_lit $"default" ltac:(discriminate))). Qed.
Lemma default_start : forall w t s' pre, In w defaults -> In pre [$"{{ "; $"{ "; $" "] -> ~ eats default_re (pre ++ w ++ t) s'.
Proof.
  intros w t s' pre IW IP H. unfold default_re in H. apply eats_seq in H. destruct H as (_ & s1 & _ & HB & H). apply eats_seq in H. destruct H as (_ & s2 & _ & H & _). apply eats_group in H.
  destruct (eats_words _ _ default_words _ _ H) as (k & I & E). apply begin_eats in HB. destruct HB as [-> | [HB | (m & m1 & m2 & kw & E1 & E2 & E3 & I3 & (m3 & E4))]].
  - destruct IP as [<-|[<-|[<-|[]]]], I as [<-|[<-|[<-|[]]]]; discriminate.
  - destruct IP as [<-|[<-|[<-|[]]]]; discriminate.
  - destruct IP as [<-|[<-|[<-|[]]]]; [|discriminate|discriminate]. injection E1 as <-. destruct E2 as [-> | E2]; [|discriminate].
    assert (NS : exists c y, w ++ t = c :: y /\ low c = true /\ in_class c_space (N_of_ascii c) = false) by (destruct IW as [<-|[<-|[<-|[]]]]; eexists; eexists; (split; [reflexivity | split; reflexivity])). destruct NS as (c & y & EC & LC & NC).
    unfold blanks, sp in E3. change ([" "] ++ w ++ t) with (" " :: w ++ t) in E3. inversion E3 as [| | | | | |? ? ? X0|? ? ? z ? X Y| | | | | |]; subst.
    + destruct I3 as [<-|[<-|[<-|[]]]]; discriminate.
    + apply eats_rune in X; [|reflexivity]. destruct X as [_ ->]. rewrite EC in Y. apply eats_blanks in Y; [|exact LC|exact NC]. rewrite <- EC in Y.
      destruct I3 as [<-|[<-|[<-|[]]]], IW as [<-|[<-|[<-|[]]]]; try discriminate. injection Y as Y. subst m2. apply eats_rune in E4; [|reflexivity]. destruct E4 as [E4 _]. discriminate.
Qed.
Lemma default_search : forall w x n, In w defaults -> one_word x ->
  exists a q, search (S (S (S n))) default_re (None, $"{{" ++ ($" " ++ w ++ $" " ++ x ++ $" " ++ undef_error ++ $" ") ++ $"}}") =
    Some ($"{{ ", (a, w ++ $" " ++ x ++ $" " ++ undef_error ++ $" }}"), (q, []), [(6, $" }}"); (7, $"}}"); (5, x); (4, w)]).
Proof.
  intros w x n IN OX. set (T0 := w ++ $" " ++ x ++ $" " ++ undef_error ++ $" }}"). destruct (default_lands w x (after_text None $"{{ ") IN OX) as (q & Q). exists (after_text None $"{{ "), q.
  replace ($"{{" ++ ($" " ++ w ++ $" " ++ x ++ $" " ++ undef_error ++ $" ") ++ $"}}") with ($"{{ " ++ T0) by (unfold T0; rewrite <- !app_assoc; reflexivity).
  apply search_skip; [cbn; lia | unfold T0; destruct IN as [<-|[<-|[<-|[]]]]; reflexivity | | exact Q].
  intros v p E NE t' X. unfold T0 in X. apply (default_start w _ t' p IN) in X; [exact X|].
  destruct v as [|c1 v]; [left; exact E|]. injection E as <- E. destruct v as [|c2 v]; [right; left; exact E|]. injection E as <- E. destruct v as [|c3 v]; [right; right; left; exact E|]. injection E as <- E. destruct v; [exfalso; apply NE; symmetry; exact E | discriminate].
Qed.
Lemma nth_later : forall (c : ascii) x y k, ~ In c x -> nth_error (x ++ y) k = Some c -> length x <= k /\ nth_error y (k - length x) = Some c.
Proof.
  intros c x y k N H. destruct (Nat.lt_ge_cases k (length x)) as [L|L]; [rewrite nth_error_app1 in H by exact L; exfalso; apply N; eapply nth_error_In; exact H|]. rewrite nth_error_app2 in H by exact L. split; assumption.
Qed.
Lemma nth_never : forall (c : ascii) x k, ~ In c x -> nth_error x k <> Some c.
Proof. intros c x k N H. apply N. eapply nth_error_In. exact H. Qed.
Lemma occurs_nth : forall c w s k, occurs_at (c :: w) s k -> nth_error s k = Some c.
Proof. intros c w s k (a & b & -> & <-). rewrite nth_error_app2 by lia. rewrite Nat.sub_diag. reflexivity. Qed.
Lemma occurs_nth2 : forall c d w s k, occurs_at (c :: d :: w) s k -> nth_error s (S k) = Some d.
Proof. intros c d w s k (a & b & -> & <-). rewrite nth_error_app2 by lia. replace (S (length a) - length a) with 1 by lia. reflexivity. Qed.
Lemma word_marks : forall p, Forall word_char p -> ~ In "{" p /\ ~ In "}" p.
Proof.
  intros p F. rewrite Forall_forall in F. split; intros I; specialize (F _ I); destruct F as [F|[F|F]]; try discriminate; cbn in F; lia.
Qed.
Definition inside (m : str) : Prop := ~ In "{" m /\ ~ In "}" m.
Lemma open_at : forall a m b k, ~ In "{" a -> inside m -> ~ In "{" b -> nth_error (a ++ ($"{{" ++ m ++ $"}}") ++ b) k = Some "{" -> k = length a \/ k = S (length a).
Proof.
  intros a m b k NA [NM _] NB H. rewrite <- app_assoc in H. apply nth_later in H; [|exact NA]. destruct H as [L H]. remember (k - length a) as j eqn:J. destruct j as [|[|j]]; [left; lia | right; lia|]. exfalso.
  rewrite <- app_assoc in H. match type of H with _ = Some ?c => change (nth_error (m ++ $"}}" ++ b) j = Some c) in H end. apply nth_later in H; [|exact NM]. destruct H as [_ H]. destruct (j - length m) as [|[|i]]; [discriminate | discriminate|]. exact (nth_never _ _ _ NB H).
Qed.
Lemma close_at : forall a m b k, ~ In "}" a -> inside m -> ~ In "}" b -> nth_error (a ++ ($"{{" ++ m ++ $"}}") ++ b) k = Some "}" -> length a + 2 + length m <= k.
Proof.
  intros a m b k NA [_ NM] NB H. rewrite <- app_assoc in H. apply nth_later in H; [|exact NA]. destruct H as [L H]. remember (k - length a) as j eqn:J. destruct j as [|[|j]]; [discriminate | discriminate|].
  rewrite <- app_assoc in H. match type of H with _ = Some ?c => change (nth_error (m ++ $"}}" ++ b) j = Some c) in H end. apply nth_later in H; [|exact NM]. destruct H as [H _]. lia.
Qed.
Lemma section_once : forall a m b k, ~ In "{" a -> inside m -> ~ In "{" b -> occurs_at ($"{{" ++ m ++ $"}}") (a ++ ($"{{" ++ m ++ $"}}") ++ b) k -> k = length a.
Proof.
  intros a m b k NA NM NB H. pose proof (occurs_nth _ _ _ _ H) as H1. pose proof (occurs_nth2 _ _ _ _ _ H) as H2. apply open_at in H1; [|assumption..]. apply open_at in H2; [|assumption..]. lia.
Qed.
Lemma inside_app : forall a b, inside a -> inside b -> inside (a ++ b).
Proof. intros a b [A1 A2] [B1 B2]. split; intros I; apply in_app_or in I; tauto. Qed.
Lemma marks_inside : forall s, no_marks s -> inside s.
Proof. intros s (A & B & _). split; assumption. Qed.
Lemma one_located : forall a u path v b, one_action a u path v b -> located a u path v b.
Proof.
  intros a u path v b (MA & MU & MV & MB & NE & WC & HV & ON). pose proof (word_marks _ WC) as WM.
  assert (IM : inside (u ++ $" " ++ path ++ v)). { apply inside_app; [apply marks_inside; exact MU|]. apply inside_app; [split; intros [I|[]]; discriminate|]. apply inside_app; [exact WM | apply marks_inside; exact MV]. }
  destruct MA as (A1 & A2 & A3). destruct MB as (B1 & B2 & B3). destruct MU as (U1 & U2 & U3).
  split; [exact NE|]. split; [exact WC|]. split; [intros I; apply in_app_or in I; tauto|]. split; [exact HV|]. split; [|split; [|split]].
  - intros k K _. apply occurs_nth in K. apply close_at in K; [|assumption..]. rewrite !app_length in K. change (length $" ") with 1 in K. unfold path_column. lia.
  - intros k K. pose proof (occurs_nth2 _ _ _ _ _ K) as H2. assert (X : nth_error (a ++ ($"{{" ++ (u ++ $" " ++ path ++ v) ++ $"}}") ++ b) (S k) = Some "{").
    { replace (a ++ ($"{{" ++ (u ++ $" " ++ path ++ v) ++ $"}}") ++ b) with ((a ++ $"{{" ++ u ++ $" " ++ path ++ v) ++ $"}}" ++ b) by (rewrite <- !app_assoc; reflexivity). rewrite nth_error_app1; [exact H2|]. apply nth_error_Some. rewrite H2. discriminate. }
    apply open_at in X; [|assumption..]. lia.
  - intros k (x & y & E & <-). destruct path as [|c0 path]; [contradiction|].
    assert (C0 : c0 <> "{") by (intros ->; apply (proj1 WM); left; reflexivity).
    destruct x as [|x0 x]; [injection E as E _; symmetry in E; contradiction|]. destruct x as [|x1 x]; [injection E as _ E _; symmetry in E; contradiction|]. injection E as _ _ E.
    assert (X : exists y', u ++ $" " ++ (c0 :: path) ++ v = x ++ (c0 :: path) ++ y').
    { change ((u ++ $" " ++ (c0 :: path) ++ v) ++ $"}}" = x ++ (c0 :: path) ++ y) in E. rewrite (app_assoc x) in E. destruct (app_cut _ _ _ _ _ E) as [(z & E1 & E2)|(z & E1 & E2)].
      - destruct z as [|z0 z]; [exists []; rewrite app_nil_r; rewrite app_nil_r in E1; symmetry; exact E1|]. exfalso.
        destruct (exists_last (l := z0 :: z) ltac:(discriminate)) as (z' & d & EZ). destruct (exists_last (l := c0 :: path) ltac:(discriminate)) as (p' & c & EP). rewrite EZ, EP in E1. rewrite !(app_assoc _ _ [_]) in E1.
        apply app_inj_tail in E1. destruct E1 as [_ <-]. apply (proj2 WM). rewrite EP. apply in_or_app. right. left. rewrite EZ in E2. symmetry.
        assert (ID : In c $"}}") by (rewrite E2; apply in_or_app; left; apply in_or_app; right; left; reflexivity). destruct ID as [<-|[<-|[]]]; reflexivity.
      - exists z. rewrite E1. rewrite <- app_assoc. reflexivity. }
    destruct X as (y' & X). apply ON in X. cbn [length]. lia.
  - intros k K. apply section_once in K; assumption.
Qed.
Section Proofs.
Variable beyond : N -> bool.
Variables red white black yellow : str -> str.
Variable read_file : str -> res str.
Notation errors := (map (compiled_of beyond) template_errors).
Notation handle := (handle beyond red white black yellow read_file).
Notation repair := (repair beyond red yellow).
Definition managing (new_context new_line : str) : str * bool :=
  let exprs := map (compiled_of beyond) (undef_expressions default_delims) in
  let '(n, undef) := match multi 0 exprs new_context with Some (n, f) => (n, f) | None => (O, fun _ => []) end in
  if negb (str_eqb (undef $"ifUndef") []) then
    (replace_all new_context (replace_all_string (nth n exprs {| c_re := RNil; c_names := [] |}) $"${begin}${ifUndef}${end}" new_context) new_line, true)
  else if negb (str_eqb (undef $"isZero") []) then
    (replace_all new_context (undef $"begin" ++ (if str_eqb (undef $"isZero") $"isSet" then $"false" else $"true") ++ undef $"end") new_line, true)
  else if negb (str_eqb (undef $"assert") []) then
    (replace_all new_context (replace_once undef_error $"0" new_context) new_line, true)
  else (new_line, false).
Lemma undefined_at : forall a u path v b, located a u path v b ->
  undefined_line beyond default_delims (action_line a u path v b) (Z.of_nat (path_column a u)) =
    managing ($"{{" ++ (u ++ $" " ++ undef_error ++ v) ++ $"}}") (action_line a u undef_error v b).
Proof.
  intros a u path v b (NE & WC & NP & HV & HR & HL & OP & OC).
  assert (LP : length path <> 0) by (destruct path; [contradiction | discriminate]).
  assert (W : select_word (action_line a u path v b) (Z.of_nat (path_column a u)) = path).
  { pose proof (word_here (a ++ $"{{" ++ u) path (v ++ $"}}" ++ b) NE WC) as W. rewrite !app_length in W. change (length $"{{") with 2 in W.
    unfold path_column, action_line. replace (length a + length u + 3) with (S (length a + (2 + length u))) by lia. rewrite <- W at 2; [|destruct v as [|c v]; [reflexivity | rewrite HV; reflexivity]].
    f_equal. rewrite <- !app_assoc. reflexivity. }
  assert (I : select_context (action_line a u path v b) (Z.of_nat (path_column a u)) $"(" $")" = []).
  { apply no_inner. unfold action_line, path_column. intro X. apply NP.
    assert (E : a ++ ($"{{" ++ (u ++ $" " ++ path ++ v) ++ $"}}") ++ b = (a ++ $"{{" ++ u ++ $" ") ++ path ++ v ++ $"}}" ++ b) by (rewrite <- !app_assoc; reflexivity).
    rewrite E in X. rewrite firstn_app in X. rewrite !app_length in X. change (length $"{{") with 2 in X. change (length $" ") with 1 in X. replace (length a + length u + 3 - (length a + (2 + (length u + 1)))) with 0 in X by lia. cbn [firstn] in X. rewrite app_nil_r in X.
    rewrite firstn_all2 in X by (rewrite !app_length; change (length $"{{") with 2; change (length $" ") with 1; lia).
    apply in_app_or in X. destruct X as [X|X]; [apply in_or_app; left; exact X|]. apply in_app_or in X. destruct X as [[X|[X|[]]]|X]; try discriminate. apply in_app_or in X. destruct X as [X|[X|[]]]; try discriminate. apply in_or_app. right. exact X. }
  assert (C : select_context (action_line a u path v b) (Z.of_nat (path_column a u)) $"{{" $"}}" = $"{{" ++ (u ++ $" " ++ path ++ v) ++ $"}}").
  { unfold select_context, action_line. rewrite context_simple; [reflexivity | discriminate | discriminate | | | exact HL].
    - unfold path_column. rewrite !app_length. change (length $"{{") with 2. change (length $" ") with 1. lia.
    - intros k K1 K2. specialize (HR k K1). rewrite !app_length. change (length $"{{") with 2. change (length $" ") with 1. unfold path_column in *. lia. }
  assert (NC : replace_str path undef_error ($"{{" ++ (u ++ $" " ++ path ++ v) ++ $"}}") = $"{{" ++ (u ++ $" " ++ undef_error ++ v) ++ $"}}").
  { assert (E : forall z, $"{{" ++ (u ++ $" " ++ z ++ v) ++ $"}}" = ($"{{" ++ u ++ $" ") ++ z ++ v ++ $"}}") by (intros z; rewrite <- !app_assoc; reflexivity). rewrite !E. rewrite E in OP.
    apply replace_str_only; [exact NE|]. intros k K. specialize (OP k K). rewrite OP. rewrite !app_length. change (length $"{{") with 2. change (length $" ") with 1. lia. }
  assert (NLN : replace_str ($"{{" ++ (u ++ $" " ++ path ++ v) ++ $"}}") ($"{{" ++ (u ++ $" " ++ undef_error ++ v) ++ $"}}") (action_line a u path v b) = action_line a u undef_error v b).
  { unfold action_line at 1. rewrite replace_str_only; [reflexivity | discriminate | exact OC]. }
  unfold undefined_line. change (left_delim default_delims) with $"{{". change (right_delim default_delims) with $"}}". rewrite I. rewrite C. rewrite W. cbv zeta. 
  match goal with |- context [replace_str path undef_error ?z] => replace (replace_str path undef_error z) with ($"{{" ++ (u ++ $" " ++ undef_error ++ v) ++ $"}}") by (symmetry; exact NC) end.
  match goal with |- context [replace_str ?x ?y (action_line a u path v b)] => replace (replace_str x y (action_line a u path v b)) with (action_line a u undef_error v b) by (symmetry; exact NLN) end.
  unfold managing. reflexivity.
Qed.
Lemma missing_at : forall file source (pre post : list str) (a u path v b : str) original o name code key new managed,
  let line := action_line a u path v b in let n := itoa (Z.of_nat (S (length pre))) in let column := itoa (Z.of_nat (path_column a u)) in
  let text := $"map has no entry for key """ ++ key ++ $"""" in
  key <> [] -> located a u path v b -> good_lines (pre ++ line :: post) -> small (S (length pre)) -> small (length line) -> nth_error source (length pre) = Some original ->
  outer_ok o -> exec_ok file n column name code text -> ~ holds line run_error -> ~ holds code undef_error ->
  managing ($"{{" ++ (u ++ $" " ++ undef_error ++ v) ++ $"}}") (action_line a u undef_error v b) = (new, managed) -> new <> line ->
  handle default_delims file source (join [NL] (pre ++ line :: post)) (outer_text o ++ exec_message file n column name code text) =
    Ok (Again (join [NL] (pre ++ new :: post)) (if managed then None else Some (white (location file n (Some column)) ++ (red $"Undefined value " ++ yellow key) ++ $" in: " ++ black original))).
Proof.
  intros file source pre post a u path v b original o name code key new managed line n column text NK LO GL SP SL SO OO OK HE HU MA NN.
  destruct (exec_key beyond _ _ _ _ _ _ OK) as (m & MU & RD).
  assert (LL : length line = path_column a u + length path + length v + 2 + length b) by (unfold line, action_line, path_column; rewrite !app_length; change (length $"{{") with 2; change (length $"}}") with 2; change (length $" ") with 1; lia).
  assert (AD : adjusted line (Z.of_nat (path_column a u) - 1) = Ok (Z.of_nat (path_column a u))).
  { unfold adjusted. destruct (Z.eqb_spec (Z.of_nat (path_column a u) - 1) 0) as [E|E]; [unfold path_column in E; lia|]. destruct (Z.ltb_spec (Z.of_nat (path_column a u) - 1) 0) as [A|A]; [unfold path_column in A; lia|].
    assert (NE : nth_error line (Z.to_nat (Z.of_nat (path_column a u) - 1)) = Some " ").
    { replace (Z.to_nat (Z.of_nat (path_column a u) - 1)) with (length (a ++ $"{{" ++ u)) by (rewrite !app_length; change (length $"{{") with 2; unfold path_column; lia).
      assert (E2 : line = (a ++ $"{{" ++ u) ++ " " :: path ++ v ++ $"}}" ++ b) by (unfold line, action_line; rewrite <- !app_assoc; reflexivity).
      rewrite E2. rewrite nth_error_app2 by lia. rewrite Nat.sub_diag. reflexivity. }
    rewrite NE. change (contains_byte " " $" (") with true. cbv iota. f_equal. unfold path_column. lia. }
  erewrite (handle_at beyond red white black yellow read_file default_delims file source pre line post original _ 0 m); [| | exact RD | reflexivity | exact GL | exact SO | apply small_line; [exact SP | reflexivity] | reflexivity | apply column_itoa; unfold small in SL; lia | exact AD].
  2: { rewrite exec_error_text by assumption. exact MU. }
  destruct RD as (R1 & R2 & R3 & R4 & R5 & R6 & R7 & R8 & R9 & R10). cbn [s_location s_file s_line s_column s_code s_key s_message s_error s_value s_actual] in *.
  erewrite outcome_new.
  2: { unfold ErrorModel.repair. rewrite R6. destruct key as [|c0 key]; [contradiction|]. unfold line. rewrite undefined_at by exact LO. rewrite MA. reflexivity. }
  - rewrite R5, R1. rewrite (no_holds _ _ HE), (no_holds _ _ HU). cbn [orb]. destruct managed; reflexivity.
  - exact NN.
Qed.
Lemma action_inj : forall a u x y v b, action_line a u x v b = action_line a u y v b -> x = y.
Proof.
  intros a u x y v b E. unfold action_line in E. apply app_inv_head in E. rewrite <- !app_assoc in E. do 3 apply app_inv_head in E. apply app_inv_tail in E. exact E.
Qed.
Lemma path_undef : forall path, Forall word_char path -> path <> undef_error.
Proof. intros path F E. subst path. inversion F as [|? ? H _]; subst. destruct H as [H|[H|H]]; [cbn in H; lia | discriminate | discriminate]. Qed.
(** A key that is missing where nothing accepts it *)
Lemma missing : forall file source (pre post : list str) (a u path v b : str) original o name code key,
  let line := action_line a u path v b in let n := itoa (Z.of_nat (S (length pre))) in let column := itoa (Z.of_nat (path_column a u)) in
  let text := $"map has no entry for key """ ++ key ++ $"""" in
  key <> [] -> located a u path v b -> good_lines (pre ++ line :: post) -> small (S (length pre)) -> small (length line) -> nth_error source (length pre) = Some original ->
  outer_ok o -> exec_ok file n column name code text -> ~ holds line run_error -> ~ holds code undef_error ->
  (forall w, In w lenient -> ~ holds ($"{{" ++ (u ++ $" " ++ undef_error ++ v) ++ $"}}") w) ->
  handle default_delims file source (join [NL] (pre ++ line :: post)) (outer_text o ++ exec_message file n column name code text) =
    Ok (Again (join [NL] (pre ++ action_line a u undef_error v b :: post)) (Some (white (location file n (Some column)) ++ (red $"Undefined value " ++ yellow key) ++ $" in: " ++ black original))).
Proof.
  intros file source pre post a u path v b original o name code key line n column text NK LO GL SP SL SO OO OK HE HU LE.
  apply (missing_at file source pre post a u path v b original o name code key (action_line a u undef_error v b) false NK LO GL SP SL SO OO OK HE HU).
  - unfold managing. rewrite unmanaged by exact LE. reflexivity.
  - intros E. apply action_inj in E. destruct LO as (_ & WC & _). exact (path_undef _ WC (eq_sym E)).
Qed.
(** *** Default values *)
Lemma one_word_text : forall x, one_word x -> x <> []. Proof. intros x H. exact (proj1 H). Qed.
Lemma managing_default : forall a w x b, In w defaults -> one_word x ->
  (forall k, occurs_at ($"{{" ++ (($" " ++ w ++ $" " ++ x) ++ $" " ++ undef_error ++ $" ") ++ $"}}") (action_line a ($" " ++ w ++ $" " ++ x) undef_error $" " b) k -> k = length a) ->
  managing ($"{{" ++ (($" " ++ w ++ $" " ++ x) ++ $" " ++ undef_error ++ $" ") ++ $"}}") (action_line a ($" " ++ w ++ $" " ++ x) undef_error $" " b) = (a ++ $"{{ " ++ x ++ $" }}" ++ b, true).
Proof.
  intros a w x b IN OX ON. set (N0 := $"{{" ++ (($" " ++ w ++ $" " ++ x) ++ $" " ++ undef_error ++ $" ") ++ $"}}") in *.
  assert (EN : N0 = $"{{" ++ ($" " ++ w ++ $" " ++ x ++ $" " ++ undef_error ++ $" ") ++ $"}}") by (unfold N0; rewrite <- !app_assoc; reflexivity).
  assert (LN : exists n, length N0 = S (S (S n))) by (unfold N0; rewrite !app_length; change (length $"{{") with 2; change (length $"}}") with 2; exists (length (($" " ++ w ++ $" " ++ x)) + (length $" " + (length undef_error + length $" ")) + 1); rewrite !app_length; lia).
  destruct LN as (n & LN). destruct (default_search w x n IN OX) as (pa & q & SE). rewrite <- EN in SE. rewrite <- LN in SE.
  assert (RS : replace_all_string {| c_re := default_re; c_names := [($"end", 6); ($"ifUndef", 5); ($"begin", 1)] |} $"${begin}${ifUndef}${end}" N0 = $"{{ " ++ x ++ $" }}").
  { unfold replace_all_string, replace_re. cbn [c_re c_names]. cbn [replace_matches snd].
    match goal with |- context [match ?z with Some _ => _ | None => _ end] => match z with search _ _ _ => replace z with (Some ($"{{ ", (pa, w ++ $" " ++ x ++ $" " ++ undef_error ++ $" }}"), (q, @nil ascii), [(6, $" }}"); (7, $"}}"); (5, x); (4, w)])) by (symmetry; exact SE) end end.
    cbv beta iota zeta. 
    assert (TK : str_eqb (taken (pa, w ++ $" " ++ x ++ $" " ++ undef_error ++ $" }}") (q, [])) [] = false).
    { apply str_eqb_neq. unfold taken. cbn [snd length]. rewrite Nat.sub_0_r, firstn_all. destruct IN as [<-|[<-|[<-|[]]]]; discriminate. }
    rewrite TK. assert (RE : forall n0 f0, replace_matches n0 default_re f0 true (q, []) = []) by (intros [|n0] f0; reflexivity). rewrite RE. rewrite app_nil_r. apply (f_equal (app $"{{ ")).
    match goal with |- expand ?f _ = _ => transitivity (f $"begin" ++ f $"ifUndef" ++ f $"end" ++ []); [reflexivity|] end. change ([] ++ x ++ $" }}" ++ [] = x ++ $" }}"). rewrite app_nil_r. reflexivity. }
  unfold managing. rewrite (undef_are beyond). cbn [multi nth c_re c_names].
  fold default_re. 
  match goal with |- context [match ?z with Some _ => _ | None => _ end] => match z with search _ _ _ => replace z with (Some ($"{{ ", (pa, w ++ $" " ++ x ++ $" " ++ undef_error ++ $" }}"), (q, @nil ascii), [(6, $" }}"); (7, $"}}"); (5, x); (4, w)])) by (symmetry; exact SE) end end.
  cbv beta iota zeta.
  match goal with |- context [named_group ?l ?wh ?g $"ifUndef"] => change (named_group l wh g $"ifUndef") with x end.
  assert (XE : str_eqb x [] = false) by (apply str_eqb_neq; exact (proj1 OX)). rewrite XE. cbn [negb]. rewrite RS. f_equal.
  unfold action_line. change (a ++ ($"{{" ++ (($" " ++ w ++ $" " ++ x) ++ $" " ++ undef_error ++ $" ") ++ $"}}") ++ b) with (a ++ N0 ++ b).
  rewrite replace_only; [rewrite <- !app_assoc; reflexivity | discriminate | exact ON].
Qed.
(** *** Conditions *)
Lemma managing_condition : forall a kw w b, In kw [$"if"; $"with"; $"range"] -> In w conditions ->
  (forall k, occurs_at ($"{{" ++ (($" " ++ kw ++ $" " ++ w) ++ $" " ++ undef_error ++ $" ") ++ $"}}") (action_line a ($" " ++ kw ++ $" " ++ w) undef_error $" " b) k -> k = length a) ->
  managing ($"{{" ++ (($" " ++ kw ++ $" " ++ w) ++ $" " ++ undef_error ++ $" ") ++ $"}}") (action_line a ($" " ++ kw ++ $" " ++ w) undef_error $" " b) =
    (a ++ $"{{ " ++ kw ++ $" " ++ (if str_eqb w $"isSet" then $"false" else $"true") ++ $" }}" ++ b, true).
Proof.
  intros a kw w b IK IW ON. set (N0 := $"{{" ++ (($" " ++ kw ++ $" " ++ w) ++ $" " ++ undef_error ++ $" ") ++ $"}}") in *. set (L0 := action_line a ($" " ++ kw ++ $" " ++ w) undef_error $" " b) in *.
  assert (G0 : managing N0 L0 = (replace_all N0 ($"{{ " ++ kw ++ $" " ++ (if str_eqb w $"isSet" then $"false" else $"true") ++ $" }}") L0, true)).
  { clearbody L0. clear ON. unfold managing. rewrite (undef_are beyond). subst N0. destruct IK as [<-|[<-|[<-|[]]]], IW as [<-|[<-|[<-|[<-|[<-|[]]]]]]; vm_compute; reflexivity. }
  rewrite G0. f_equal. unfold L0, action_line. change (a ++ ($"{{" ++ (($" " ++ kw ++ $" " ++ w) ++ $" " ++ undef_error ++ $" ") ++ $"}}") ++ b) with (a ++ N0 ++ b).
  rewrite replace_only; [rewrite <- !app_assoc; reflexivity | discriminate | exact ON].
Qed.

(** *** The theorems on one action *)
Definition missing_text (key : str) : str := $"map has no entry for key """ ++ key ++ $"""".
Lemma inside_word : forall w, In w (defaults ++ conditions ++ [$"if"; $"with"; $"range"]) -> inside w.
Proof. intros w I. cbn [defaults conditions app In] in I. repeat (destruct I as [<-|I]; [split; intros X; cbn in X; repeat (destruct X as [X|X]; [discriminate|]); exact X|]). contradiction. Qed.
Lemma undef_inside : inside undef_error.
Proof. split; intros X; cbn in X; repeat (destruct X as [X|X]; [discriminate|]); exact X. Qed.
Lemma blank_inside : inside $" ". Proof. split; intros [X|[]]; discriminate. Qed.
Lemma defaulted : forall file source (pre post : list str) (a w x path b : str) original o name code key,
  let line := action_line a ($" " ++ w ++ $" " ++ x) path $" " b in let n := itoa (Z.of_nat (S (length pre))) in let column := itoa (Z.of_nat (path_column a ($" " ++ w ++ $" " ++ x))) in
  In w defaults -> one_word x -> key <> [] -> one_action a ($" " ++ w ++ $" " ++ x) path $" " b -> good_lines (pre ++ line :: post) -> small (S (length pre)) -> small (length line) -> nth_error source (length pre) = Some original ->
  outer_ok o -> exec_ok file n column name code (missing_text key) -> ~ holds line run_error -> ~ holds code undef_error ->
  handle default_delims file source (join [NL] (pre ++ line :: post)) (outer_text o ++ exec_message file n column name code (missing_text key)) =
    Ok (Again (join [NL] (pre ++ (a ++ $"{{ " ++ x ++ $" }}" ++ b) :: post)) None).
Proof.
  intros file source pre post a w x path b original o name code key line n column IW OX NK OA GL SP SL SO OO OK HE HU.
  apply (missing_at file source pre post a ($" " ++ w ++ $" " ++ x) path $" " b original o name code key (a ++ $"{{ " ++ x ++ $" }}" ++ b) true NK (one_located _ _ _ _ _ OA) GL SP SL SO OO OK HE HU).
  - apply managing_default; [exact IW | exact OX|]. intros k K. destruct OA as ((A1 & _) & MU & MV & (B1 & _) & _). apply (section_once a (($" " ++ w ++ $" " ++ x) ++ $" " ++ undef_error ++ $" ") b k A1); [|exact B1|exact K].
    apply inside_app; [apply marks_inside; exact MU|]. split; intros X; cbn in X; repeat (destruct X as [X|X]; [discriminate|]); exact X.
  - intros E. apply (f_equal (@length ascii)) in E. unfold line, action_line in E. rewrite !app_length in E. change (length $"{{ ") with 3 in E. change (length $" }}") with 3 in E. change (length $"{{") with 2 in E. change (length $"}}") with 2 in E. change (length $" ") with 1 in E. lia.
Qed.
Lemma conditional : forall file source (pre post : list str) (a kw w path b : str) original o name code key,
  let line := action_line a ($" " ++ kw ++ $" " ++ w) path $" " b in let n := itoa (Z.of_nat (S (length pre))) in let column := itoa (Z.of_nat (path_column a ($" " ++ kw ++ $" " ++ w))) in
  In kw [$"if"; $"with"; $"range"] -> In w conditions -> key <> [] -> one_action a ($" " ++ kw ++ $" " ++ w) path $" " b -> good_lines (pre ++ line :: post) -> small (S (length pre)) -> small (length line) -> nth_error source (length pre) = Some original ->
  outer_ok o -> exec_ok file n column name code (missing_text key) -> ~ holds line run_error -> ~ holds code undef_error ->
  handle default_delims file source (join [NL] (pre ++ line :: post)) (outer_text o ++ exec_message file n column name code (missing_text key)) =
    Ok (Again (join [NL] (pre ++ (a ++ $"{{ " ++ kw ++ $" " ++ (if str_eqb w $"isSet" then $"false" else $"true") ++ $" }}" ++ b) :: post)) None).
Proof.
  intros file source pre post a kw w path b original o name code key line n column IK IW NK OA GL SP SL SO OO OK HE HU.
  apply (missing_at file source pre post a ($" " ++ kw ++ $" " ++ w) path $" " b original o name code key (a ++ $"{{ " ++ kw ++ $" " ++ (if str_eqb w $"isSet" then $"false" else $"true") ++ $" }}" ++ b) true NK (one_located _ _ _ _ _ OA) GL SP SL SO OO OK HE HU).
  - apply managing_condition; [exact IK | exact IW|]. intros k K. destruct OA as ((A1 & _) & MU & MV & (B1 & _) & _). apply (section_once a (($" " ++ kw ++ $" " ++ w) ++ $" " ++ undef_error ++ $" ") b k A1); [|exact B1|exact K].
    apply inside_app; [apply marks_inside; exact MU|]. split; intros X; cbn in X; repeat (destruct X as [X|X]; [discriminate|]); exact X.
  - intros E. apply (f_equal (@length ascii)) in E. unfold line, action_line in E. rewrite !app_length in E. change (length $"{{ ") with 3 in E. change (length $" }}") with 3 in E. change (length $"{{") with 2 in E. change (length $"}}") with 2 in E. change (length $" ") with 1 in E.
    destruct OA as (_ & _ & _ & _ & NE & _). destruct path as [|c0 path]; [contradiction|]. cbn [length] in E.
    destruct IW as [<-|[<-|[<-|[<-|[<-|[]]]]]]; cbn in E; lia.
Qed.
(** ** Every message *)
Lemma set_line_split : forall l n y x, nth_error l n = Some y -> exists pre post, l = pre ++ y :: post /\ length pre = n /\ set_line l n x = pre ++ x :: post.
Proof.
  induction l as [|z l IH]; intros n y x H; [destruct n; discriminate|]. destruct n as [|n]; cbn in H.
  - injection H as <-. exists [], l. repeat split.
  - destruct (IH n y x H) as (pre & post & E1 & E2 & E3). exists (z :: pre), post. cbn [app length set_line]. rewrite E1 at 1. rewrite E2, E3. repeat split.
Qed.
Lemma get_line_ok : forall l n x, get_line l n = Ok x -> nth_error l (Z.to_nat n) = Some x.
Proof. intros l n x H. unfold get_line in H. destruct (Z.ltb n 0); [discriminate|]. destruct (nth_error l (Z.to_nat n)); [injection H as ->; reflexivity | discriminate]. Qed.
Lemma one_line : forall d file source code e code' err, handle d file source code e = Ok (Again code' err) ->
  exists pre line post new original, code = join [NL] (pre ++ line :: post) /\ good_lines (pre ++ line :: post) /\ code' = join [NL] (pre ++ new :: post) /\ nth_error source (length pre) = Some original /\
    (err <> None \/ new <> line) /\ (forall x, err = Some x -> exists where_ text, x = white where_ ++ text ++ $" in: " ++ black original).
Proof.
  intros d file source code e code' err H. unfold ErrorModel.handle in H. destruct (multi 0 errors (error_text beyond e)) as [[k m]|]; [|discriminate].
  destruct (to_int (m $"line")) as [n0|?|?]; try discriminate. cbn [bind] in H.
  match type of H with bind ?a _ = _ => destruct a as [n|?|?]; try discriminate end. cbn [bind] in H.
  match type of H with bind ?a _ = _ => destruct a as [c|?|?]; try discriminate end. cbn [bind] in H.
  destruct (negb (str_eqb (m $"file") file)).
  { match type of H with bind ?a _ = _ => destruct a as [l|?|?]; discriminate end. }
  destruct (get_line (split [NL] code) (n - 1)) as [line|?|?] eqn:GL; try discriminate. cbn [bind] in H.
  match type of H with bind ?a _ = _ => destruct a as [c2|?|?]; try discriminate end. cbn [bind] in H.
  destruct (get_line source (n - 1)) as [original|?|?] eqn:GS; try discriminate. cbn [bind] in H.
  destruct (repair d m line c2) as [new text]. apply get_line_ok in GL. apply get_line_ok in GS.
  destruct (set_line_split _ _ _ new GL) as (pre & post & E1 & E2 & E3).
  assert (EC : code = join [NL] (pre ++ line :: post)) by (rewrite <- E1; symmetry; apply join_split; discriminate).
  set (text2 := if contains run_error line || contains undef_error (m $"code") then None else text) in *.
  set (err2 := match text2 with Some t => Some (white (m $"location") ++ t ++ $" in: " ++ black original) | None => None end) in *.
  rewrite E3 in H.
  exists pre, line, post, new, original. split; [exact EC|]. split; [rewrite <- E1; apply split1_fields|]. 
  assert (SH : forall x, err2 = Some x -> exists where_ text, x = white where_ ++ text ++ $" in: " ++ black original).
  { intros x X. unfold err2 in X. destruct text2 as [t|]; [|discriminate]. injection X as <-. exists (m $"location"), t. reflexivity. }
  destruct (str_eqb_spec new line) as [EN|EN]; cbn [negb] in H.
  - destruct err2 as [x|] eqn:ER; [|discriminate]. destruct (contains no_value_error x); [|discriminate]. injection H as <- <-. rewrite E2. repeat split; try assumption. left. discriminate.
  - injection H as <- <-. rewrite E2. repeat split; try assumption. right. exact EN.
Qed.
Lemma not_ours : forall d file source code e, ~ holds e $"template: " -> handle d file source code e = Ok (Stop e).
Proof.
  intros d file source code e H. assert (X : error_text beyond e = e). { unfold error_text. rewrite line_re. cbn [last_error]. cbn [snd]. rewrite mark_none by exact H. reflexivity. }
  unfold ErrorModel.handle. rewrite X. assert (M : multi 0 errors e = None); [|rewrite M; reflexivity]. rewrite errors_are.
  assert (P : forall n c r, search n (prefix_re c r) (None, e) = None) by (intros n c r; apply mark_none; exact H).
  assert (Q : forall n r, search n (exec_re r) (None, e) = None).
  { intros n r. apply search_none. intros u t E t' Z. cbn [snd] in E. unfold exec_re in Z. apply eats_seq in Z. destruct Z as (u0 & s0 & -> & _ & Z). unfold prefix_re in Z. apply eats_lits in Z. destruct Z as (s1 & -> & _). apply H. exists (u ++ u0), s1. rewrite E. rewrite <- !app_assoc. reflexivity. }
  rewrite !multi_none by (apply Q || apply P). reflexivity.
Qed.
End Proofs.
