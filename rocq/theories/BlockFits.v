(** Razor documents with blocks fit the automaton. *)
From Coq Require Import String Ascii List ZArith NArith Bool Lia ZifyBool ZifyN.
From Verif Require Import GoStr GoStrFacts Utf8 TemplateModel TemplateSpec TemplateProofs RazorExprModel RazorWordsSpec
  ReModel ReSyntaxModel RazorTableModel RazorAssignModel ReSound RazorRefSpec RazorRefAuto RazorRefProofs RazorRefMain RazorAsgSpec RazorAsgAuto RazorAsgExpr RazorAsgVal3 RazorAsgWrite2 RazorAsgMatch RazorAsgFits RazorAsgDoc
  BlockSpec BlockAuto.
Import ListNotations.
Local Open Scope char_scope.

Definition skips (r : re) (a : str) : Prop := forall u v, a = u ++ v -> v <> [] -> forall t t', ends t -> ~ eats r (v ++ t) t'.
Lemma skipped_skips : forall r a, skipped r a -> skips r a.
Proof. intros r a H u v E N t t' _. exact (H u v E N t t'). Qed.

Section Keys.
Variable keys : list str.
Notation bd := (bdelta keys).
Definition odd_char (c : ascii) : bool := Ascii.eqb c "@" || Ascii.eqb c "010".
Definition states_after (q : str) (s : str) : list str := fold_left (fun qs c => flat_map (fun q => bd q c) qs) s [q].
Hypothesis plain_keys : existsb (existsb odd_char) (key_words keys) = false.
Hypothesis key_paths : forallb (fun w => forallb (fun q => mem q (states_after $"@" w)) (after_key keys w)) (key_words keys) = true.

Fixpoint goes (q s q' : str) : Prop :=
  match s with
  | [] => q = q'
  | c :: s => exists q1, In q1 (bd q c) /\ goes q1 s q'
  end.
Lemma goes_app : forall a b q q1 q2, goes q a q1 -> goes q1 b q2 -> goes q (a ++ b) q2.
Proof.
  induction a as [|c a IH]; intros b q q1 q2 R F; [cbn in R; subst; exact F|]. destruct R as (q0 & I & R). exists q0. split; [exact I | exact (IH _ _ _ _ R F)].
Qed.
Lemma goes_split : forall a b q q2, goes q (a ++ b) q2 -> exists q1, goes q a q1 /\ goes q1 b q2.
Proof.
  induction a as [|c a IH]; intros b q q2 R; [exists q; split; [reflexivity | exact R]|]. destruct R as (q0 & I & R). destruct (IH _ _ _ R) as (q1 & A & B).
  exists q1. split; [exists q0; split; assumption | exact B].
Qed.
Lemma goes_runs : forall s q q', runs true q s q' -> goes q s q'.
Proof.
  induction s as [|c s IH]; intros q q' R; [exact R|]. destruct R as (q1 & I & R). exists q1. split; [apply in_or_app; left; exact I | exact (IH _ _ R)].
Qed.
Lemma goes_loop : forall (P : ascii -> Prop) q s, (forall c, P c -> In q (bd q c)) -> Forall P s -> goes q s q.
Proof. intros P q s H F. induction F as [|c s C F IH]; [reflexivity|]. exists q. split; [exact (H c C) | exact IH]. Qed.
Lemma states_goes_from : forall s qs q', In q' (fold_left (fun qs c => flat_map (fun q => bd q c) qs) s qs) -> exists q, In q qs /\ goes q s q'.
Proof.
  induction s as [|c s IH]; intros qs q' H; [exists q'; split; [exact H | reflexivity]|]. cbn [fold_left] in H. destruct (IH _ _ H) as (q1 & I & R).
  apply in_flat_map in I. destruct I as (q & Q & I). exists q. split; [exact Q|]. exists q1. split; assumption.
Qed.
Lemma states_goes : forall q s q', In q' (states_after q s) -> goes q s q'.
Proof. intros q s q' H. apply states_goes_from in H. destruct H as (x & [<-|[]] & R). exact R. Qed.
Lemma key_goes : forall w q, In w (key_words keys) -> In q (after_key keys w) -> goes $"@" w q.
Proof.
  intros w q W Q. apply states_goes. rewrite forallb_forall in key_paths. specialize (key_paths w W). rewrite forallb_forall in key_paths. specialize (key_paths q Q). apply mem_In. exact key_paths.
Qed.

(** ** Steps *)
Lemma key_chars : forall v w c, In w (key_words keys) -> has_prefix (v ++ [c]) w = true -> c <> "@" /\ c <> "010".
Proof.
  intros v w c W H. apply has_prefix_iff in H. destruct H as (r & E).
  assert (O : odd_char c = false).
  { destruct (odd_char c) eqn:O; [|reflexivity]. exfalso. assert (X : existsb (existsb odd_char) (key_words keys) = true); [|congruence].
    apply existsb_exists. exists w. split; [exact W|]. apply existsb_exists. exists c. split; [|exact O]. rewrite E. apply in_or_app. left. apply in_or_app. right. left. reflexivity. }
  split; intros ->; discriminate O.
Qed.
Lemma key_step_in : forall u c q', In q' (key_step keys u c) -> c <> "@" /\ c <> "010" /\ q' <> $"L".
Proof.
  intros u c q' I. unfold key_step in I. cbv zeta in I. destruct (mem (u ++ [c]) (key_words keys)) eqn:M.
  - apply mem_In in M. destruct (key_chars u (u ++ [c]) c M) as [A B]; [apply has_prefix_iff; exists []; rewrite app_nil_r; reflexivity|]. split; [exact A|]. split; [exact B|].
    unfold after_key in I. repeat match type of I with In _ (if ?x then _ else _) => destruct x end; cbn in I; intuition (subst; discriminate).
  - destruct (existsb (has_prefix (u ++ [c])) (key_words keys)) eqn:X; [|destruct I]. apply existsb_exists in X. destruct X as (w & W & HP). destruct (key_chars u w c W HP) as [A B].
    destruct I as [<-|[]]. repeat split; [exact A | exact B | discriminate].
Qed.
Lemma inner_step_b : forall q c q', q <> $"L" -> In q' (bd q c) -> c <> "@" /\ (if Ascii.eqb c "010" then q' = $"L" else q' <> $"L").
Proof.
  intros q c q' NL I. apply in_app_or in I. destruct I as [I|I]; [exact (inner_step true q c q' NL I)|].
  assert (KS : forall u, In q' (key_step keys u c) -> c <> "@" /\ (if Ascii.eqb c "010" then q' = $"L" else q' <> $"L")).
  { intros u J. apply key_step_in in J. destruct J as (A & B & C). split; [exact A|]. rewrite (proj2 (Ascii.eqb_neq _ _) B). exact C. }
  unfold cdelta, one_of in I. cbn [existsb] in I.
  repeat match type of I with
         | In _ (key_step _ ?u _) => exact (KS u I)
         | In _ (if ?x then _ else _) => destruct x eqn:?E
         | In _ [] => destruct I | In _ [_] => destruct I as [<-|[]] | In _ [_; _] => destruct I as [<-|[<-|[]]] end.
  all: try (split; [intros ->; try discriminate; cbn in *; discriminate | destruct (Ascii.eqb_spec c "010") as [->|_]; cbn in *; try discriminate; reflexivity]).
  destruct q as [|x u]; [destruct I|]. destruct x as [[] [] [] [] [] [] [] []]; try destruct I. exact (KS u I).
Qed.
Lemma T_step : forall c, c <> "@" -> c <> "010" -> In $"T" (one_line keys $"T" c).
Proof.
  intros c A B. unfold one_line. change (str_eqb $"T" $"*") with false. rewrite (proj2 (Ascii.eqb_neq _ _) B). cbn [orb]. apply in_or_app. left.
  change (In $"T" (if Ascii.eqb c "010" then [$"L"] else if Ascii.eqb c "@" then [] else [$"T"])). rewrite (proj2 (Ascii.eqb_neq _ _) B), (proj2 (Ascii.eqb_neq _ _) A). left. reflexivity.
Qed.
Lemma star_fits : forall t, fits (one_line keys) $"*" t.
Proof. induction t as [|c t IH]; [exact I|]. exists $"*". split; [left; reflexivity | exact IH]. Qed.
Lemma ends_fits : forall q t, ends t -> fits (one_line keys) q t.
Proof. intros q t [->|(r & ->)]; [exact I|]. exists $"*". split; [unfold one_line; rewrite orb_true_r; left; reflexivity | apply star_fits]. Qed.
Lemma goes_one_line : forall v q q' t, ~ In "010" v -> goes q v q' -> ends t -> fits (one_line keys) q (v ++ t).
Proof.
  induction v as [|c v IH]; intros q q' t N R EN; [exact (ends_fits q t EN)|]. destruct R as (q1 & I & R). exists q1. split; [|apply (IH q1 q'); [intro X; apply N; right; exact X | exact R | exact EN]].
  unfold one_line. assert (NC : Ascii.eqb c "010" = false) by (apply Ascii.eqb_neq; intros ->; apply N; left; reflexivity). rewrite NC, orb_false_r.
  destruct (str_eqb q $"*") eqn:Q; [|exact I]. apply str_eqb_eq in Q. subst q. destruct I.
Qed.
Lemma goes_text : forall v q q' t, q <> $"L" -> ~ In "010" v -> goes q v q' -> ends t -> fits (one_line keys) $"T" (v ++ t).
Proof.
  induction v as [|c v IH]; intros q q' t NL N R EN; [exact (ends_fits _ t EN)|]. destruct R as (q1 & I & R). destruct (inner_step_b q c q1 NL I) as [A B].
  assert (NC : c <> "010") by (intros ->; apply N; left; reflexivity). rewrite (proj2 (Ascii.eqb_neq _ _) NC) in B. exists $"T". split; [exact (T_step c A NC)|].
  apply (IH q1 q'); [exact B | intro X; apply N; right; exact X | exact R | exact EN].
Qed.

(** ** Lines *)
Definition line_path (s : str) : Prop := ~ In "010" s /\ exists q, goes $"L" s q /\ In $"L" (bd q "010").
Lemma foreign_skips_with : forall d : (str -> ascii -> list str) -> list str -> re -> bool, (forall delta qs r q s s', d delta qs r = true -> In q qs -> fits delta q s -> ~ eats r s s') -> forall r s, foreign_with d keys r = true -> line_path s -> skips r s.
Proof.
  intros d SOUND r s D (N & q & R & _) u v E NV t t' EN EA. unfold foreign_with in D. pose proof (fun q s s' => SOUND (one_line keys) inits r q s s' D) as K. clear D. subst s. apply goes_split in R. destruct R as (q1 & _ & R).
  assert (NV' : ~ In "010" v) by (intro X; apply N; apply in_or_app; right; exact X).
  destruct (list_eq_dec ascii_dec q1 $"L") as [->|NL].
  - exact (K $"L" _ _ (or_introl eq_refl) (goes_one_line v _ _ t NV' R EN) EA).
  - exact (K $"T" _ _ (or_intror (or_introl eq_refl)) (goes_text v _ _ t NL NV' R EN) EA).
Qed.
Lemma foreign_skips : forall r s, foreign keys r = true -> line_path s -> skips r s.
Proof. exact (foreign_skips_with (dead all_bytes) (dead_sound all_bytes all_bytes_ok)). Qed.
Lemma goes_fits : forall s q q' t, goes q s q' -> fits bd q' t -> fits bd q (s ++ t).
Proof. induction s as [|c s IH]; intros q q' t R F; [cbn in R; subst; exact F|]. destruct R as (q1 & I & R). exists q1. split; [exact I | exact (IH _ _ _ R F)]. Qed.
Lemma fits_text_b : forall s q, q <> $"L" -> fits bd q s -> fits bd $"T" s.
Proof.
  induction s as [|c s IH]; intros q NL F; [exact I|]. destruct F as (q' & I & F). destruct (inner_step_b q c q' NL I) as [A1 A2]. destruct (Ascii.eqb_spec c "010") as [->|N].
  - subst q'. exists $"L". split; [left; reflexivity | exact F].
  - exists $"T". split; [|exact (IH q' A2 F)]. pose proof (T_step c A1 N) as H. unfold one_line in H. rewrite (proj2 (Ascii.eqb_neq _ _) N) in H. exact H.
Qed.
Lemma fits_suffix_b : forall u t q, fits bd q (u ++ t) -> exists q', In q' inits /\ fits bd q' t.
Proof.
  induction u as [|c u IH]; intros t q F.
  - destruct (list_eq_dec ascii_dec q $"L") as [->|N]; [exists $"L"; split; [left; reflexivity | exact F] | exists $"T"; split; [right; left; reflexivity | exact (fits_text_b t q N F)]].
  - destruct F as (q' & _ & F). exact (IH t q' F).
Qed.
Lemma bsilent_idle : forall bytes fuel, (forall c, In c bytes) -> forall ws r s, bsilent_with bytes fuel keys ws r = true -> fits bd $"L" s -> (forall w, In w ws -> contains w s = false) -> idle r s.
Proof.
  intros bytes fuel ALL ws r s H F W. unfold bsilent_with in H. cbv zeta beta in H. destruct (needs bytes fuel ws [] [r]) eqn:N; [exact (needs_idle bytes fuel ALL ws r s N W)|].
  intros u t E t' EA. rewrite E in F. destruct (fits_suffix_b u t _ F) as (q & Q & FQ). exact (dead_sound bytes ALL bd _ _ _ _ _ H Q FQ EA).
Qed.
Lemma document_fits : forall f l, (forall x, In x l -> line_path (f x)) -> fits bd $"L" (block_lines f l).
Proof.
  intros f. induction l as [|x l IH]; intros H; [exact I|]. destruct (H x (or_introl eq_refl)) as (_ & q & R & Q). destruct l as [|y l].
  - rewrite <- (app_nil_r (block_lines f [x])). exact (goes_fits _ _ _ [] R I).
  - change (block_lines f (x :: y :: l)) with (f x ++ "010" :: block_lines f (y :: l)). apply (goes_fits _ _ _ _ R). exists $"L". split; [exact Q|]. apply IH. intros z I. apply H. right. exact I.
Qed.
Lemma words_path : forall s, ~ In "@" s -> ~ In "010" s -> line_path s.
Proof.
  intros s A N. split; [exact N|].
  assert (G : forall q, q = $"L" \/ q = $"T" -> exists q', goes q s q' /\ In $"L" (bd q' "010")).
  { induction s as [|c s IH]; intros q Q; [exists q; split; [reflexivity | destruct Q as [->| ->]; left; reflexivity]|].
    assert (IH' : forall q, q = $"L" \/ q = $"T" -> exists q', goes q s q' /\ In $"L" (bd q' "010")) by (apply IH; intro; [apply A | apply N]; right; assumption).
    assert (CA : Ascii.eqb c "@" = false) by (apply Ascii.eqb_neq; intros ->; apply A; left; reflexivity). assert (CN : Ascii.eqb c "010" = false) by (apply Ascii.eqb_neq; intros ->; apply N; left; reflexivity).
    assert (ST : exists q1, (q1 = $"L" \/ q1 = $"T") /\ In q1 (bd q c)).
    { destruct Q as [->| ->].
      - destruct (is_blank c) eqn:B.
        + exists $"L". split; [left; reflexivity|]. apply in_or_app. left. change (In $"L" (if is_blank c || Ascii.eqb c "010" then [$"L"] else if Ascii.eqb c "@" then [$"@"] else [$"T"])). rewrite B. left. reflexivity.
        + exists $"T". split; [right; reflexivity|]. apply in_or_app. left. change (In $"T" (if is_blank c || Ascii.eqb c "010" then [$"L"] else if Ascii.eqb c "@" then [$"@"] else [$"T"])). rewrite B, CN, CA. left. reflexivity.
      - exists $"T". split; [right; reflexivity|]. apply in_or_app. left. change (In $"T" (if Ascii.eqb c "010" then [$"L"] else if Ascii.eqb c "@" then [] else [$"T"])). rewrite CN, CA. left. reflexivity. }
    destruct ST as (q1 & Q1 & I1). destruct (IH' q1 Q1) as (q' & R & E). exists q'. split; [exists q1; split; assumption | exact E]. }
  exact (G $"L" (or_introl eq_refl)).
Qed.
Lemma asg_path : forall parse i t b1 o b2 E e, line_ok parse (Asg i t b1 o b2 E e) -> line_path (line_source (Asg i t b1 o b2 E e)).
Proof.
  intros parse i t b1 o b2 E e (B & T & SP & U & B2 & TX & _). pose proof TX as (TE & HE & _). pose proof (update_op t o U) as O. split.
  - cbn [line_source]. destruct T as [F _].
    assert (BN : forall b, Forall blank_char b -> ~ In "010" b) by (intros b H I; rewrite Forall_forall in H; destruct (H _ I); discriminate).
    assert (DN : ~ In "010" (dotted (names t))).
    { intros I. destruct (dotted_chars _ (names_not_nil t) F) as (c & r & X & A & W). rewrite X in I. rewrite Forall_forall in W. destruct I as [->|I]; [apply is_alpha_iff in A; discriminate A|].
      destruct (W _ I) as [Y|Y]; [apply is_word_iff in Y; discriminate Y | discriminate Y]. }
    assert (TN : ~ In "010" (target_text t)).
    { unfold target_text. destruct (t_kind t); intros I; repeat (apply in_app_or in I; destruct I as [I|I]); try exact (DN I); cbn in I; intuition discriminate. }
    assert (ON : ~ In "010" (op_text o)).
    { destruct o as [| |op]; [cbv; intuition discriminate | cbv; intuition discriminate|]. specialize (O op eq_refl). cbn in O. repeat (destruct O as [<-|O]; [cbv; intuition discriminate|]). destruct O. }
    destruct SP as [SB _]. intros I. repeat (apply in_app_or in I; destruct I as [I|I]); [exact (BN i B I) | exact (TN I) | exact (BN b1 SB I) | exact (ON I) | exact (BN b2 B2 I) | exact (proj1 (proj2 (values_no_at E TE)) I)].
  - exists $"E". split; [|left; reflexivity]. cbn [line_source].
    replace (i ++ target_text t ++ b1 ++ op_text o ++ b2 ++ E) with (i ++ (target_text t ++ b1 ++ op_text o) ++ b2 ++ E) by (rewrite <- !app_assoc; reflexivity). apply goes_runs.
    apply (runs_app true _ _ _ $"L"); [exact (indent_runs true i B)|]. apply (runs_app true _ _ _ $"V"); [exact (assign_runs true t b1 o (or_introl eq_refl) T SP O)|].
    apply (runs_app true _ _ _ $"V"); [exact (gap_runs true b2 B2)|]. exact (value_runs true E TE HE).
Qed.
(** *** Blocks *)
Lemma blanks_line : forall b, Forall blank_char b -> ~ In "010" b.
Proof. intros b H I. rewrite Forall_forall in H. destruct (H _ I); discriminate. Qed.
Lemma blanks_goes : forall q b, (forall c, is_blank c = true -> In q (bd q c)) -> Forall blank_char b -> goes q b q.
Proof. intros q b H B. apply (goes_loop blank_char); [|exact B]. intros c C. apply H. apply is_blank_iff. exact C. Qed.
Ltac here := apply in_or_app; right.
Lemma start_goes : forall i m w q, Forall blank_char i -> In (mark_text m ++ w) (key_words keys) -> In q (after_key keys (mark_text m ++ w)) -> goes $"L" (i ++ $"@" ++ mark_text m ++ w) q.
Proof.
  intros i m w q B W Q. apply (goes_app _ _ _ $"L"); [exact (goes_runs _ _ _ (indent_runs true i B))|]. exists $"@". split; [left; reflexivity|]. exact (key_goes _ _ W Q).
Qed.
Lemma mark_key : forall m w, In w keys -> In (mark_text m ++ w) (key_words keys).
Proof.
  intros m w I. unfold key_words. apply in_flat_map. exists (mark_text m). split; [destruct m; vm_compute; tauto|]. apply in_map. exact I.
Qed.
Lemma rest_goes : forall b1 b2 E b3 z, Forall blank_char b1 -> Forall blank_char b2 -> Forall value_char E -> Forall blank_char b3 -> Forall (fun c => ascii_char c /\ ~ In c [")"; "@"; ";"; "{"; "010"]) z ->
  goes $"co" (b1 ++ $"(" ++ b2 ++ E ++ $")" ++ b3 ++ z) $"ct".
Proof.
  intros b1 b2 E b3 z B1 B2 VE B3 Z. apply (goes_app _ _ _ $"co").
  { apply blanks_goes; [|exact B1]. intros c C. here. change (In $"co" (if is_blank c then [$"co"] else if Ascii.eqb c "(" then [$"cv"] else [])). rewrite C. left. reflexivity. }
  exists $"cv". split; [here; left; reflexivity|]. change (goes $"cv" (b2 ++ E ++ $")" ++ b3 ++ z) $"ct").
  assert (V : forall c, is_value c = true -> In $"cv" (bd $"cv" c)).
  { intros c C. here. change (In $"cv" (if is_value c then (if Ascii.eqb c ")" then [$"cv"; $"ct"] else [$"cv"]) else [])). rewrite C. destruct (Ascii.eqb c ")"); left; reflexivity. }
  apply (goes_app _ _ _ $"cv"); [apply blanks_goes; [|exact B2]; intros c C; apply V; unfold is_value; rewrite C; rewrite orb_true_r; reflexivity|].
  apply (goes_app _ _ _ $"cv"); [apply (goes_loop value_char); [|exact VE]; intros c C; apply V; apply value_iff; exact C|].
  exists $"ct". split; [here; right; left; reflexivity|]. change (goes $"ct" (b3 ++ z) $"ct"). apply (goes_loop (fun c => blank_char c \/ (ascii_char c /\ ~ In c [")"; "@"; ";"; "{"; "010"]))).
  - intros c C. here. assert (C' : ~ In c [")"; "@"; ";"; "{"; "010"]) by (destruct C as [[->| ->]|[_ C]]; [cbn; intuition discriminate | cbn; intuition discriminate | exact C]).
    change (In $"ct" (if Ascii.eqb c "010" then [$"L"] else if one_of [")"; "@"; ";"; "{"] c then [] else [$"ct"])).
    destruct (Ascii.eqb_spec c "010") as [->|_]; [exfalso; apply C'; cbn; tauto|]. destruct (one_of [")"; "@"; ";"; "{"] c) eqn:O; [|left; reflexivity].
    exfalso. apply C'. unfold one_of in O. apply existsb_exists in O. destruct O as (x & X & EX). apply Ascii.eqb_eq in EX. subst x. cbn in X |- *. tauto.
  - apply Forall_app. split; [eapply Forall_impl; [|exact B3]; intros; left; assumption | eapply Forall_impl; [|exact Z]; intros; right; assumption].
Qed.
Definition opener_key (w : opener) : str :=
  match w with OIf => $"if" | OElseIf _ => $"else" | OWith => $"with" | ORange => $"range" | OFor | OForEach _ => $"for" end.
Lemma after_else : forall m, after_key keys (mark_text m ++ $"else") = if mem $"if" keys then [$"ce"; $"cf"] else [$"ce"].
Proof. destruct m; reflexivity. Qed.
Lemma opener_goes : forall i m w, Forall blank_char i -> opener_ok w -> In (opener_key w) keys -> (forall b, w = OElseIf b -> In $"if" keys) -> goes $"L" (i ++ $"@" ++ mark_text m ++ opener_text w) $"co".
Proof.
  intros i m w B W K KI.
  assert (AK : after_key keys (mark_text m ++ opener_key w) = match w with OElseIf _ => [$"ce"; $"cf"] | OFor | OForEach _ => [$"co"; $"cx"] | _ => [$"co"] end).
  { destruct w; try (destruct m; reflexivity). cbn [opener_key]. rewrite after_else. rewrite (proj2 (mem_In _ _) (KI b eq_refl)). reflexivity. }
  assert (S0 : forall q, In q (match w with OElseIf _ => [$"ce"; $"cf"] | OFor | OForEach _ => [$"co"; $"cx"] | _ => [$"co"] end) -> goes $"L" (i ++ $"@" ++ mark_text m ++ opener_key w) q).
  { intros q Q. apply start_goes; [exact B | exact (mark_key m _ K) | rewrite AK; exact Q]. }
  destruct w; try (apply S0; left; reflexivity).
  - cbn [opener_text opener_key] in *. replace (i ++ $"@" ++ mark_text m ++ $"else" ++ b ++ $"if") with ((i ++ $"@" ++ mark_text m ++ $"else") ++ b ++ $"if") by (rewrite <- !app_assoc; reflexivity).
    apply (goes_app _ _ _ $"cf"); [apply S0; right; left; reflexivity|]. apply (goes_app _ _ _ $"cf").
    + apply blanks_goes; [|exact W]. intros c C. here. change (In $"cf" (if is_blank c then [$"cf"] else if Ascii.eqb c "i" then [$"cg"] else [])). rewrite C. left. reflexivity.
    + exists $"cg". split; [here; left; reflexivity|]. exists $"co". split; [here; left; reflexivity | reflexivity].
  - cbn [opener_text opener_key] in *. replace (i ++ $"@" ++ mark_text m ++ $"for" ++ b ++ $"each") with ((i ++ $"@" ++ mark_text m ++ $"for") ++ b ++ $"each") by (rewrite <- !app_assoc; reflexivity).
    apply (goes_app _ _ _ $"cx"); [apply S0; right; left; reflexivity|]. apply (goes_app _ _ _ $"cx").
    + apply blanks_goes; [|exact W]. intros c C. here. change (In $"cx" (if is_blank c then [$"cx"] else if Ascii.eqb c "e" then [$"x1"] else [])). rewrite C. left. reflexivity.
    + exists $"x1". split; [here; left; reflexivity|]. exists $"x2". split; [here; left; reflexivity|]. exists $"x3". split; [here; left; reflexivity|]. exists $"co". split; [here; left; reflexivity | reflexivity].
Qed.
Lemma mark_line : forall m, ~ In "010" (mark_text m) /\ ~ In "@" (mark_text m).
Proof. destruct m; cbv; intuition discriminate. Qed.
Lemma opener_line : forall w, opener_ok w -> ~ In "010" (opener_text w) /\ ~ In "@" (opener_text w).
Proof.
  intros w W. destruct w; cbn [opener_text opener_ok] in *; try (cbv; intuition discriminate).
  all: split; intros I; repeat (apply in_app_or in I; destruct I as [I|I]); try (cbv in I; intuition discriminate); rewrite Forall_forall in W; destruct (W _ I); discriminate.
Qed.
Lemma after_line : forall z, text_after z -> ~ In "010" z /\ ~ In "@" z.
Proof. intros z (_ & Z). rewrite Forall_forall in Z. split; intros I; apply Z in I; destruct I as [_ I]; apply I; cbn; tauto. Qed.
Lemma open_path : forall i m w b1 b2 E b3 z, Forall blank_char i -> opener_ok w -> Forall blank_char b1 -> Forall blank_char b2 -> Forall value_char E -> Forall blank_char b3 -> text_after z ->
  In (opener_key w) keys -> (forall b, w = OElseIf b -> In $"if" keys) -> line_path (i ++ $"@" ++ mark_text m ++ opener_text w ++ b1 ++ $"(" ++ b2 ++ E ++ $")" ++ b3 ++ z).
Proof.
  intros i m w b1 b2 E b3 z B W B1 B2 VE B3 Z K KI. split.
  - intros I. repeat (apply in_app_or in I; destruct I as [I|I]); try (cbv in I; intuition discriminate);
      [exact (blanks_line _ B I) | exact (proj1 (mark_line m) I) | exact (proj1 (opener_line w W) I) | exact (blanks_line _ B1 I) | exact (blanks_line _ B2 I) | exact (proj1 (proj2 (values_no_at E VE)) I) | exact (blanks_line _ B3 I) | exact (proj1 (after_line z Z) I)].
  - exists $"ct". split; [|here; left; reflexivity]. 
    replace (i ++ $"@" ++ mark_text m ++ opener_text w ++ b1 ++ $"(" ++ b2 ++ E ++ $")" ++ b3 ++ z) with ((i ++ $"@" ++ mark_text m ++ opener_text w) ++ (b1 ++ $"(" ++ b2 ++ E ++ $")" ++ b3 ++ z)) by (rewrite <- !app_assoc; reflexivity).
    apply (goes_app _ _ _ $"co"); [apply opener_goes; assumption|]. apply rest_goes; try assumption. apply Z.
Qed.
Lemma alt_path : forall i m z, Forall blank_char i -> Forall (fun c => ~ In c ["("; "@"; "010"]) z -> In $"else" keys -> line_path (i ++ $"@" ++ mark_text m ++ $"else" ++ z).
Proof.
  intros i m z B Z K. split.
  - rewrite Forall_forall in Z. intros I. repeat (apply in_app_or in I; destruct I as [I|I]); try (cbv in I; intuition discriminate); [exact (blanks_line _ B I) | exact (proj1 (mark_line m) I) | apply (Z _ I); cbn; tauto].
  - exists $"ce". split; [|here; left; reflexivity]. replace (i ++ $"@" ++ mark_text m ++ $"else" ++ z) with ((i ++ $"@" ++ mark_text m ++ $"else") ++ z) by (rewrite <- !app_assoc; reflexivity).
    apply (goes_app _ _ _ $"ce").
    + apply start_goes; [exact B | exact (mark_key m _ K)|]. rewrite after_else. destruct (mem _ keys); left; reflexivity.
    + apply (goes_loop (fun c => ~ In c ["("; "@"; "010"])); [|exact Z]. intros c C. here. change (In $"ce" (if Ascii.eqb c "010" then [$"L"] else if one_of ["@"; "("] c then [] else [$"ce"])).
      destruct (Ascii.eqb_spec c "010") as [->|_]; [exfalso; apply C; cbn; tauto|]. destruct (one_of ["@"; "("] c) eqn:O; [|left; reflexivity].
      exfalso. apply C. unfold one_of in O. apply existsb_exists in O. destruct O as (x & X & EX). apply Ascii.eqb_eq in EX. subst x. cbn in X |- *. tauto.
Qed.
Lemma close_path : forall i m z, Forall blank_char i -> ~ In "@" z -> ~ In "010" z -> In $"end" keys -> line_path (i ++ $"@" ++ mark_text m ++ $"end" ++ z).
Proof.
  intros i m z B ZA ZN K. split.
  - intros I. repeat (apply in_app_or in I; destruct I as [I|I]); try (cbv in I; intuition discriminate); [exact (blanks_line _ B I) | exact (proj1 (mark_line m) I)].
  - exists $"cz". split; [|here; left; reflexivity]. replace (i ++ $"@" ++ mark_text m ++ $"end" ++ z) with ((i ++ $"@" ++ mark_text m ++ $"end") ++ z) by (rewrite <- !app_assoc; reflexivity).
    apply (goes_app _ _ _ $"cz").
    + apply start_goes; [exact B | exact (mark_key m _ K)|]. destruct m; left; reflexivity.
    + apply (goes_loop (fun c => c <> "@" /\ c <> "010")).
      * intros c [C1 C2]. here. change (In $"cz" (if Ascii.eqb c "010" then [$"L"] else if Ascii.eqb c "@" then [] else [$"cz"])). rewrite (proj2 (Ascii.eqb_neq _ _) C1), (proj2 (Ascii.eqb_neq _ _) C2). left. reflexivity.
      * apply Forall_forall. intros c I. split; intros ->; contradiction.
Qed.
End Keys.
