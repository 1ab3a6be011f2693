(** Razor documents with calls and expressions fit the automaton. *)
From Coq Require Import String Ascii List ZArith NArith Bool Lia ZifyBool ZifyN.
From Verif Require Import GoStr GoStrFacts Utf8 TemplateModel TemplateSpec TemplateProofs RazorExprModel RazorWordsSpec
  ReModel ReSyntaxModel RazorTableModel RazorAssignModel ReSound RazorRefSpec RazorRefAuto RazorRefProofs RazorRefMain RazorAsgSpec RazorAsgAuto RazorAsgExpr RazorAsgVal3 RazorAsgWrite2 RazorAsgMatch RazorAsgFits RazorAsgDoc
  BlockSpec BlockAuto BlockFits CallSpec CallAuto.
Import ListNotations.
Local Open Scope char_scope.

Section Steps.
Variables calls track names : bool.
Notation ed := (edelta calls track names).
Notation oc := (one_call calls track names).
Fixpoint passes (q s q' : str) : Prop :=
  match s with
  | [] => q = q'
  | c :: s => exists q1, In q1 (ed q c) /\ passes q1 s q'
  end.
Lemma passes_app : forall a b q q1 q2, passes q a q1 -> passes q1 b q2 -> passes q (a ++ b) q2.
Proof.
  induction a as [|c a IH]; intros b q q1 q2 R F; [cbn in R; subst; exact F|]. destruct R as (q0 & I & R). exists q0. split; [exact I | exact (IH _ _ _ _ R F)].
Qed.
Lemma passes_split : forall a b q q2, passes q (a ++ b) q2 -> exists q1, passes q a q1 /\ passes q1 b q2.
Proof.
  induction a as [|c a IH]; intros b q q2 R; [exists q; split; [reflexivity | exact R]|]. destruct R as (q0 & I & R). destruct (IH _ _ _ R) as (q1 & A & B).
  exists q1. split; [exists q0; split; assumption | exact B].
Qed.
Lemma passes_loop : forall (P : ascii -> Prop) q s, (forall c, P c -> In q (ed q c)) -> Forall P s -> passes q s q.
Proof. intros P q s H F. induction F as [|c s C F IH]; [reflexivity|]. exists q. split; [exact (H c C) | exact IH]. Qed.

(** ** Steps *)
Lemma name_step_in : forall u c q', is_word c = true -> In q' (call_name_step track u c) -> c <> "@" /\ c <> "010" /\ q' <> $"P".
Proof.
  intros u c q' W I. assert (A : c <> "@") by (intros ->; discriminate W). assert (B : c <> "010") by (intros ->; discriminate W). split; [exact A|]. split; [exact B|].
  unfold call_name_step, call_name_state in I. cbv zeta in I. repeat match type of I with In _ (if ?x then _ else _) => destruct x | In _ [if ?x then _ else _] => destruct x | In _ [] => destruct I | In _ [_] => destruct I as [<-|[]] end; discriminate.
Qed.
Lemma alpha_word : forall c, is_alpha c = true -> is_word c = true.
Proof. intros c H. unfold is_word. rewrite H. reflexivity. Qed.
Lemma call_inner_step : forall q c q', q <> $"P" -> In q' (ed q c) -> c <> "@" /\ (if Ascii.eqb c "010" then q' = $"P" else q' <> $"P").
Proof.
  intros q c q' NL I.
  assert (KS : forall u, is_word c = true -> In q' (call_name_step track u c) -> c <> "@" /\ (if Ascii.eqb c "010" then q' = $"P" else q' <> $"P")).
  { intros u W J. destruct (name_step_in u c q' W J) as (A & B & C). split; [exact A|]. rewrite (proj2 (Ascii.eqb_neq _ _) B). exact C. }
  unfold edelta, behind, one_of in I. cbn [existsb app] in I. destruct (str_eqb q $"P") eqn:QL; [apply str_eqb_eq in QL; contradiction|].
  repeat match type of I with
         | In _ (call_name_step _ ?u _) => exact (KS u ltac:(first [assumption | apply alpha_word; assumption]) I)
         | In _ (if ?x then _ else _) => destruct x eqn:?E
         | In _ [] => destruct I | In _ [_] => destruct I as [<-|[]] | In _ [_; _] => destruct I as [<-|[<-|[]]] end.
  all: try (split; [intros ->; try discriminate; cbn in *; discriminate | destruct (Ascii.eqb_spec c "010") as [->|_]; cbn in *; try discriminate; reflexivity]).
  destruct q as [|x u]; [destruct I|]. destruct x as [[] [] [] [] [] [] [] []]; try destruct I.
  repeat match type of I with
         | In _ (call_name_step _ ?u _) => exact (KS u ltac:(assumption) I)
         | In _ (if ?x then _ else _) => destruct x eqn:?E
         | In _ [] => destruct I | In _ [_] => destruct I as [<-|[]] end.
  all: try (split; [intros ->; try discriminate; cbn in *; discriminate | destruct (Ascii.eqb_spec c "010") as [->|_]; cbn in *; try discriminate; reflexivity]).
  exact (KS u eq_refl I).
Qed.
Lemma P_step : forall c, c <> "@" -> In $"P" (ed $"P" c).
Proof. intros c A. change (In $"P" (if Ascii.eqb c "@" then [$"@"] else [$"P"])). rewrite (proj2 (Ascii.eqb_neq _ _) A). left. reflexivity. Qed.
Lemma T_call : forall c, c <> "@" -> c <> "010" -> In $"T" (ed $"T" c).
Proof.
  intros c A B. change (In $"T" (if Ascii.eqb c "010" then [$"P"] else if Ascii.eqb c "@" then [] else [$"T"])). rewrite (proj2 (Ascii.eqb_neq _ _) B), (proj2 (Ascii.eqb_neq _ _) A). left. reflexivity.
Qed.
Lemma star_call : forall t, fits oc $"*" t.
Proof. induction t as [|c t IH]; [exact I|]. exists $"*". split; [left; reflexivity | exact IH]. Qed.
Lemma ends_call : forall q t, ends t -> fits oc q t.
Proof. intros q t [->|(r & ->)]; [exact I|]. exists $"*". split; [unfold one_call; rewrite orb_true_r; left; reflexivity | apply star_call]. Qed.
Lemma passes_one : forall v q q' t, ~ In "010" v -> passes q v q' -> ends t -> fits oc q (v ++ t).
Proof.
  induction v as [|c v IH]; intros q q' t N R EN; [exact (ends_call q t EN)|]. destruct R as (q1 & I & R). exists q1. split; [|apply (IH q1 q'); [intro X; apply N; right; exact X | exact R | exact EN]].
  unfold one_call. assert (NC : Ascii.eqb c "010" = false) by (apply Ascii.eqb_neq; intros ->; apply N; left; reflexivity). rewrite NC, orb_false_r.
  destruct (str_eqb q $"*") eqn:Q; [|exact I]. apply str_eqb_eq in Q. subst q. destruct I.
Qed.
Lemma passes_text : forall v q q' t, q <> $"P" -> ~ In "010" v -> passes q v q' -> ends t -> fits oc $"T" (v ++ t).
Proof.
  induction v as [|c v IH]; intros q q' t NL N R EN; [exact (ends_call _ t EN)|]. destruct R as (q1 & I & R). destruct (call_inner_step q c q1 NL I) as [A B].
  assert (NC : c <> "010") by (intros ->; apply N; left; reflexivity). rewrite (proj2 (Ascii.eqb_neq _ _) NC) in B. exists $"T". split.
  - unfold one_call. rewrite (proj2 (Ascii.eqb_neq _ _) NC). exact (T_call c A NC).
  - apply (IH q1 q'); [exact B | intro X; apply N; right; exact X | exact R | exact EN].
Qed.

(** ** Lines *)
Definition call_path (s : str) : Prop := ~ In "010" s /\ exists q, passes $"P" s q /\ In $"P" (ed q "010").
Lemma eforeign_skips_with : forall d : (str -> ascii -> list str) -> list str -> re -> bool, (forall delta qs r q s s', d delta qs r = true -> In q qs -> fits delta q s -> ~ eats r s s') -> forall r s, eforeign_with d calls track names r = true -> call_path s -> skips r s.
Proof.
  intros d SOUND r s D (N & q & R & _) u v E NV t t' EN EA. unfold eforeign_with in D. pose proof (fun q s s' => SOUND oc places r q s s' D) as K. clear D. subst s. apply passes_split in R. destruct R as (q1 & _ & R).
  assert (NV' : ~ In "010" v) by (intro X; apply N; apply in_or_app; right; exact X).
  destruct (list_eq_dec ascii_dec q1 $"P") as [->|NL].
  - exact (K $"P" _ _ (or_introl eq_refl) (passes_one v _ _ t NV' R EN) EA).
  - exact (K $"T" _ _ (or_intror (or_introl eq_refl)) (passes_text v _ _ t NL NV' R EN) EA).
Qed.
Lemma eforeign_skips : forall r s, eforeign calls track names r = true -> call_path s -> skips r s.
Proof. exact (eforeign_skips_with (dead all_bytes) (dead_sound all_bytes all_bytes_ok)). Qed.
Lemma passes_fits : forall s q q' t, passes q s q' -> fits ed q' t -> fits ed q (s ++ t).
Proof. induction s as [|c s IH]; intros q q' t R F; [cbn in R; subst; exact F|]. destruct R as (q1 & I & R). exists q1. split; [exact I | exact (IH _ _ _ R F)]. Qed.
Lemma fits_text_c : forall s q, q <> $"P" -> fits ed q s -> fits ed $"T" s.
Proof.
  induction s as [|c s IH]; intros q NL F; [exact I|]. destruct F as (q' & I & F). destruct (call_inner_step q c q' NL I) as [A1 A2]. destruct (Ascii.eqb_spec c "010") as [->|N].
  - subst q'. exists $"P". split; [left; reflexivity | exact F].
  - exists $"T". split; [exact (T_call c A1 N) | exact (IH q' A2 F)].
Qed.
Lemma fits_suffix_c : forall u t q, fits ed q (u ++ t) -> exists q', In q' places /\ fits ed q' t.
Proof.
  induction u as [|c u IH]; intros t q F.
  - destruct (list_eq_dec ascii_dec q $"P") as [->|N]; [exists $"P"; split; [left; reflexivity | exact F] | exists $"T"; split; [right; left; reflexivity | exact (fits_text_c t q N F)]].
  - destruct F as (q' & _ & F). exact (IH t q' F).
Qed.
Lemma esilent_idle : forall bytes fuel, (forall c, In c bytes) -> forall ws r s, esilent_with bytes fuel calls track names ws r = true -> fits ed $"P" s -> (forall w, In w ws -> contains w s = false) -> idle r s.
Proof.
  intros bytes fuel ALL ws r s H F W. unfold esilent_with in H. cbv zeta beta in H. destruct (needs bytes fuel ws [] [r]) eqn:N; [exact (needs_idle bytes fuel ALL ws r s N W)|].
  intros u t E t' EA. rewrite E in F. destruct (fits_suffix_c u t _ F) as (q & Q & FQ). exact (dead_sound bytes ALL ed _ _ _ _ _ H Q FQ EA).
Qed.
Lemma calls_fits : forall f l, (forall x, In x l -> call_path (f x)) -> fits ed $"P" (call_lines f l).
Proof.
  intros f. induction l as [|x l IH]; intros H; [exact I|]. destruct (H x (or_introl eq_refl)) as (_ & q & R & Q). destruct l as [|y l].
  - rewrite <- (app_nil_r (call_lines f [x])). exact (passes_fits _ _ _ [] R I).
  - change (call_lines f (x :: y :: l)) with (f x ++ "010" :: call_lines f (y :: l)). apply (passes_fits _ _ _ _ R). exists $"P". split; [exact Q|]. apply IH. intros z I. apply H. right. exact I.
Qed.
Lemma prose_passes : forall s, ~ In "@" s -> passes $"P" s $"P".
Proof. intros s A. apply (passes_loop (fun c => c <> "@")); [exact P_step|]. apply Forall_forall. intros c I ->. contradiction. Qed.
Lemma prose_path : forall s, ~ In "@" s -> ~ In "010" s -> call_path s.
Proof. intros s A N. split; [exact N|]. exists $"P". split; [exact (prose_passes s A) | left; reflexivity]. Qed.

(** *** The text behind *)
Definition rest_char (c : ascii) : Prop := ~ In c [")"; "@"; "010"].
Lemma rest_bools : forall c, rest_char c -> Ascii.eqb c "010" = false /\ one_of [")"; "@"] c = false.
Proof.
  intros c R. split; [apply Ascii.eqb_neq; intros ->; apply R; cbn; tauto|]. unfold one_of. cbn [existsb]. rewrite (proj2 (Ascii.eqb_neq c ")")), (proj2 (Ascii.eqb_neq c "@")); [reflexivity | intros ->; apply R; cbn; tauto ..].
Qed.
Lemma R_step : forall c, rest_char c -> exists q, (q = $"R" \/ q = $"Z") /\ In q (ed $"R" c).
Proof.
  intros c R. destruct (rest_bools c R) as [A B]. destruct (is_blank c) eqn:C; [exists $"R" | exists $"Z"]; (split; [tauto|]); change (ed $"R" c) with (if Ascii.eqb c "010" then [$"P"] else if one_of [")"; "@"] c then [] else if is_blank c then [$"R"] else [$"Z"]); rewrite A, B, C; left; reflexivity.
Qed.
Lemma Z_step : forall c, rest_char c -> In $"Z" (ed $"Z" c).
Proof.
  intros c R. destruct (rest_bools c R) as [A B]. change (In $"Z" (if Ascii.eqb c "010" then [$"P"] else if one_of [")"; "@"] c then [] else [$"Z"])). rewrite A, B. left. reflexivity.
Qed.
Lemma rest_passes : forall s q, q = $"R" \/ q = $"Z" -> Forall rest_char s -> exists q', (q' = $"R" \/ q' = $"Z") /\ passes q s q'.
Proof.
  induction s as [|c s IH]; intros q Q F; [exists q; split; [exact Q | reflexivity]|]. inversion F as [|? ? C F']; subst.
  assert (X : exists q1, (q1 = $"R" \/ q1 = $"Z") /\ In q1 (ed q c)) by (destruct Q as [->| ->]; [exact (R_step c C) | exists $"Z"; split; [tauto | exact (Z_step c C)]]).
  destruct X as (q1 & Q1 & I1). destruct (IH q1 Q1 F') as (q' & Q' & R). exists q'. split; [exact Q'|]. exists q1. split; assumption.
Qed.
Lemma behind_step : forall bad c, rest_char c -> ~ In c bad -> exists q, (q = $"R" \/ q = $"Z") /\ In q (behind bad c).
Proof.
  intros bad c R N. destruct (rest_bools c R) as [A B]. unfold behind.
  assert (B' : one_of ([")"; "@"] ++ bad) c = false).
  { unfold one_of in *. rewrite existsb_app, B. cbn [orb]. destruct (existsb (Ascii.eqb c) bad) eqn:X; [|reflexivity]. exfalso. apply existsb_exists in X. destruct X as (d & D & E). apply Ascii.eqb_eq in E. subst d. exact (N D). }
  rewrite A, B'. destruct (is_blank c); [exists $"R" | exists $"Z"]; (split; [tauto | left; reflexivity]).
Qed.
Lemma close_chars : forall c bad z, text_behind c bad z -> Forall rest_char (close_text c ++ z) /\ (forall x r, ~ In ";" bad -> ~ In " " bad -> ~ In "009" bad -> close_text c ++ z = x :: r -> ~ In x bad).
Proof.
  intros c bad z (Z & CO). assert (ZR : Forall rest_char z) by (eapply Forall_impl; [|exact Z]; intros x [_ X]; exact X). destruct c as [b|]; cbn [close_text] in *.
  - rewrite Forall_forall in CO. split.
    + rewrite <- app_assoc. apply Forall_app. split; [|constructor; [unfold rest_char; cbn; intuition discriminate | exact ZR]]. apply Forall_forall. intros x I. destruct (CO x I) as [->| ->]; unfold rest_char; cbn; intuition discriminate.
    + intros x r N1 N2 N3 E I. destruct b as [|d b]; cbn [app] in E; injection E as E1 _; subst x; [exact (N1 I)|]. destruct (CO d (or_introl eq_refl)) as [->| ->]; contradiction.
  - destruct CO as [_ CO]. split; [exact ZR|]. intros x r _ _ _ E. exact (CO x r E).
Qed.
Lemma behind_passes : forall q bad c z, (forall x, ed q x = behind bad x) -> ~ In ";" bad -> ~ In " " bad -> ~ In "009" bad -> text_behind c bad z ->
  exists q', passes q (close_text c ++ z) q' /\ In $"P" (ed q' "010").
Proof.
  intros q bad c z QB N1 N2 N3 H. destruct (close_chars c bad z H) as [F NB]. destruct (close_text c ++ z) as [|x r] eqn:E.
  - exists q. split; [reflexivity | rewrite QB; left; reflexivity].
  - inversion F as [|? ? C F']; subst. destruct (behind_step bad x C (NB x r N1 N2 N3 eq_refl)) as (q1 & Q1 & I1). destruct (rest_passes r q1 Q1 F') as (q' & Q' & R). exists q'. split.
    + exists q1. split; [rewrite QB; exact I1 | exact R].
    + destruct Q' as [->| ->]; left; reflexivity.
Qed.

(** *** Expressions *)
Definition is_idc (c : ascii) : bool := is_word c || Ascii.eqb c ".".
Definition is_name (E : str) : bool := match E with c :: r => (is_alpha c || Ascii.eqb c "_") && forallb is_idc r | [] => false end.
Lemma i_step : forall c, is_idc c = true -> In $"(i" (ed $"(i" c).
Proof. intros c H. change (ed $"(i" c) with (if is_word c || Ascii.eqb c "." then [$"(i"] else if Ascii.eqb c ")" then (if names then [$"D"] else []) else if is_blank c then [$"(b"] else if is_value c then [$"(v"] else []). unfold is_idc in H. rewrite H. left. reflexivity. Qed.
Lemma v_step : forall c, is_value c = true -> In $"(v" (ed $"(v" c).
Proof. intros c H. change (ed $"(v" c) with (if is_value c then (if Ascii.eqb c ")" then [$"(v"; $"D"] else [$"(v"]) else []). rewrite H. destruct (Ascii.eqb c ")"); left; reflexivity. Qed.
Lemma v_passes : forall s, Forall value_char s -> passes $"(v" s $"(v".
Proof. intros s F. apply (passes_loop value_char); [|exact F]. intros c C. exact (v_step c (value_iff c C)). Qed.
Lemma count_app : forall c a b, count c (a ++ b) = count c a + count c b.
Proof. intros. apply count_occ_app. Qed.
Lemma count_no : forall c s, ~ In c s -> count c s = 0.
Proof. intros c s N. apply count_occ_not_In. exact N. Qed.
Lemma unbalanced : forall w r, ~ In "(" w -> ~ balanced (w ++ ")" :: r).
Proof.
  intros w r N B. specialize (B (w ++ [")"]) r). rewrite <- app_assoc in B. specialize (B eq_refl). rewrite !count_app in B. rewrite (count_no "(" w N) in B. cbn in B. lia.
Qed.
Lemma b_passes : forall s pre, ~ In "(" pre -> Forall value_char s -> balanced (pre ++ s) -> s <> [] -> (forall a x, s = a ++ [x] -> ~ blank_char x) -> passes $"(b" s $"(v".
Proof.
  induction s as [|c s IH]; intros pre NP F BA NE LA; [contradiction|]. inversion F as [|? ? C F']; subst. pose proof (value_iff c C) as VC.
  assert (NC : c <> ")") by (intros ->; exact (unbalanced pre s NP BA)).
  destruct (is_blank c) eqn:B.
  - exists $"(b". split; [change (ed $"(b" c) with (if is_blank c then [$"(b"] else if Ascii.eqb c ")" then [] else if is_value c then [$"(v"] else []); rewrite B; left; reflexivity|].
    destruct s as [|d s]; [exfalso; apply (LA [] c eq_refl); apply is_blank_iff; exact B|]. apply (IH (pre ++ [c])); [|exact F' | rewrite <- app_assoc; exact BA | discriminate | intros a x E; apply (LA (c :: a) x); rewrite E; reflexivity].
    intros I. apply in_app_or in I. destruct I as [I|[I|[]]]; [exact (NP I) | subst c; discriminate B].
  - exists $"(v". split; [|exact (v_passes s F')]. change (ed $"(b" c) with (if is_blank c then [$"(b"] else if Ascii.eqb c ")" then [] else if is_value c then [$"(v"] else []). rewrite B, VC, (proj2 (Ascii.eqb_neq _ _) NC). left. reflexivity.
Qed.
Lemma i_passes : forall s pre, ~ In "(" pre -> Forall value_char s -> balanced (pre ++ s) -> forallb is_idc s = false -> (forall a x, s = a ++ [x] -> ~ blank_char x) -> passes $"(i" s $"(v".
Proof.
  induction s as [|c s IH]; intros pre NP F BA ID LA; [discriminate ID|]. inversion F as [|? ? C F']; subst. pose proof (value_iff c C) as VC. cbn [forallb] in ID.
  assert (LA' : forall a x, s = a ++ [x] -> ~ blank_char x) by (intros a x E; apply (LA (c :: a) x); rewrite E; reflexivity).
  destruct (is_idc c) eqn:IC.
  - exists $"(i". split; [exact (i_step c IC)|]. apply (IH (pre ++ [c])); [|exact F' | rewrite <- app_assoc; exact BA | exact ID | exact LA'].
    intros I. apply in_app_or in I. destruct I as [I|[I|[]]]; [exact (NP I) | subst c; discriminate IC].
  - assert (NC : c <> ")") by (intros ->; exact (unbalanced pre s NP BA)). unfold is_idc in IC.
    assert (ST : ed $"(i" c = if is_blank c then [$"(b"] else [$"(v"]).
    { change (ed $"(i" c) with (if is_word c || Ascii.eqb c "." then [$"(i"] else if Ascii.eqb c ")" then (if names then [$"D"] else []) else if is_blank c then [$"(b"] else if is_value c then [$"(v"] else []). rewrite IC, VC, (proj2 (Ascii.eqb_neq _ _) NC). reflexivity. }
    destruct (is_blank c) eqn:B.
    + exists $"(b". split; [rewrite ST; left; reflexivity|]. destruct s as [|d s]; [exfalso; apply (LA [] c eq_refl); apply is_blank_iff; exact B|].
      apply (b_passes _ (pre ++ [c])); [|exact F' | rewrite <- app_assoc; exact BA | discriminate | exact LA'].
      intros I. apply in_app_or in I. destruct I as [I|[I|[]]]; [exact (NP I) | subst c; discriminate B].
    + exists $"(v". split; [rewrite ST; left; reflexivity | exact (v_passes s F')].
Qed.
Lemma value_not_dot : forall c r, text_ok (c :: r) -> c <> ".".
Proof.
  intros c r (_ & _ & _ & _ & _ & D & _) ->. destruct (D [] r eq_refl) as (a & x & E & _). destruct a; discriminate E.
Qed.
Lemma expr_passes : forall E, text_ok E -> balanced E -> (forall a x, E = a ++ [x] -> ~ blank_char x) -> (is_name E = true -> names = true) -> passes $"(" (E ++ $")") $"D".
Proof.
  intros E T BA LA NM. pose proof T as (V & (c & r & EQ & NB) & _). subst E. pose proof (value_not_dot c r T) as ND. inversion V as [|? ? C F]; subst. pose proof (value_iff c C) as VC.
  assert (B : is_blank c = false) by (destruct (is_blank c) eqn:B; [exfalso; apply NB; apply is_blank_iff; exact B | reflexivity]).
  assert (ST : ed $"(" c = if is_alpha c || Ascii.eqb c "_" then [$"(i"] else [$"(v"]).
  { change (ed $"(" c) with (if is_blank c then [$"("] else if is_alpha c || Ascii.eqb c "_" then [$"(i"] else if is_value c then [$"(v"] else []). rewrite B, VC. reflexivity. }
  assert (LV : passes $"(v" $")" $"D") by (exists $"D"; split; [right; left; reflexivity | reflexivity]).
  assert (LA' : forall a x, r = a ++ [x] -> ~ blank_char x) by (intros a x E; apply (LA (c :: a) x); rewrite E; reflexivity).
  destruct (is_alpha c || Ascii.eqb c "_") eqn:A.
  - exists $"(i". split; [rewrite ST; left; reflexivity|]. destruct (forallb is_idc r) eqn:ID.
    + assert (NT : names = true) by (apply NM; cbn [is_name]; rewrite A, ID; reflexivity). apply (passes_app r $")" _ $"(i").
      * apply (passes_loop (fun c => is_idc c = true)); [exact i_step|]. apply Forall_forall. rewrite forallb_forall in ID. exact ID.
      * exists $"D". split; [|reflexivity]. change (In $"D" (if names then [$"D"] else [])). rewrite NT. left. reflexivity.
    + apply (passes_app r $")" _ $"(v"); [|exact LV]. apply (i_passes r [c]); [|exact F | exact BA | exact ID | exact LA'].
      intros [I|[]]. subst c. discriminate A.
  - exists $"(v". split; [rewrite ST; left; reflexivity|]. apply (passes_app r $")" _ $"(v"); [exact (v_passes r F) | exact LV].
Qed.
Lemma open_passes : forall m, In m [Plain; Dash; DashDash] -> passes $"@" (mark_text m ++ $"(") $"(".
Proof.
  intros m I. cbn in I. destruct I as [<-|[<-|[<-|[]]]].
  - exists $"(". split; [left; reflexivity | reflexivity].
  - exists $"@-". split; [left; reflexivity|]. exists $"(". split; [left; reflexivity | reflexivity].
  - exists $"@-". split; [left; reflexivity|]. exists $"@=". split; [left; reflexivity|]. exists $"(". split; [left; reflexivity | reflexivity].
Qed.
Lemma no_line : forall s, Forall rest_char s -> ~ In "010" s.
Proof. intros s F I. rewrite Forall_forall in F. apply F in I. apply I. cbn. tauto. Qed.
Lemma shown_path : forall parse p m b E e c z, call_ok parse (Shown p m b E e c z) -> (is_name E = true -> names = true) -> call_path (call_source (Shown p m b E e c z)).
Proof.
  intros parse p m b E e c z ((PA & PN & _) & M & B & T & BA & LA & _ & _ & Z) NM. pose proof T as (V & _). destruct (values_no_at E V) as (_ & VN & _). destruct (close_chars c ["["] z Z) as [CF _]. split.
  - cbn [call_source]. intros I. rewrite !in_app_iff in I.
    destruct I as [I|[I|[I|[I|[I|[I|[I|I]]]]]]]; [exact (PN I) | cbv in I; intuition discriminate | exact (proj1 (mark_line m) I) | cbv in I; intuition discriminate | exact (blanks_line _ B I) | exact (VN I) | cbv in I; intuition discriminate|].
    rewrite <- in_app_iff in I. exact (no_line _ CF I).
  - destruct (behind_passes $"D" ["["] c z ltac:(reflexivity) ltac:(cbn; intuition discriminate) ltac:(cbn; intuition discriminate) ltac:(cbn; intuition discriminate) Z) as (q & R & L). exists q. split; [|exact L]. cbn [call_source].
    replace (p ++ $"@" ++ mark_text m ++ $"(" ++ b ++ E ++ $")" ++ close_text c ++ z) with (p ++ $"@" ++ (mark_text m ++ $"(") ++ b ++ (E ++ $")") ++ close_text c ++ z) by (rewrite <- !app_assoc; reflexivity).
    apply (passes_app _ _ _ $"P"); [exact (prose_passes p PA)|]. exists $"@". split; [left; reflexivity|]. change (passes $"@" ((mark_text m ++ $"(") ++ b ++ (E ++ $")") ++ close_text c ++ z) q). apply (passes_app _ _ _ $"("); [exact (open_passes m M)|].
    apply (passes_app _ _ _ $"("); [|apply (passes_app _ _ _ $"D"); [exact (expr_passes E T BA LA NM) | exact R]].
    apply (passes_loop blank_char); [|exact B]. intros x X. change (ed $"(" x) with (if is_blank x then [$"("] else if is_alpha x || Ascii.eqb x "_" then [$"(i"] else if is_value x then [$"(v"] else []). rewrite (proj2 (is_blank_iff x) X). left. reflexivity.
Qed.

(** *** Calls *)
Definition name_at (u : str) : str := if track then call_name_state u else $"I".
Lemma name_passes : forall r u f, f = u ++ r -> u <> [] -> function_ok f -> Forall word_char r -> passes (name_at u) r (name_at f).
Proof.
  induction r as [|c r IH]; intros u f EF NU OK W; [rewrite app_nil_r in EF; subst; reflexivity|]. inversion W as [|? ? C W']; subst. apply is_word_iff in C.
  exists (name_at (u ++ [c])). split; [|apply (IH (u ++ [c])); [rewrite <- app_assoc; reflexivity | destruct u; discriminate | exact OK | exact W']].
  assert (K : mem (u ++ [c]) kw2 = false).
  { destruct (mem (u ++ [c]) kw2) eqn:K; [|reflexivity]. exfalso. apply mem_In in K. destruct OK as [(_ & N1 & N2 & _) _]. cbn in K. destruct K as [K|[K|[]]]; [apply N1 | apply N2]; exists r; (transitivity ((u ++ [c]) ++ r); [rewrite <- app_assoc; reflexivity | rewrite <- K; reflexivity]). }
  assert (SN : ed ("n" :: u) c = call_name_step track u c).
  { change (ed ("n" :: u) c) with (if is_word c then call_name_step track u c else if Ascii.eqb c "(" then (if mem u taken_names then [] else [$"C"]) else []). rewrite C. reflexivity. }
  assert (SI : In $"I" (ed $"I" c)).
  { change (ed $"I" c) with (if is_word c then [$"I"] else if Ascii.eqb c "(" then [$"C"] else []). rewrite C. left. reflexivity. }
  assert (PR : existsb (has_prefix u) begun = false -> existsb (has_prefix (u ++ [c])) begun = false).
  { intros X. destruct (existsb (has_prefix (u ++ [c])) begun) eqn:Y; [|reflexivity]. apply existsb_exists in Y. destruct Y as (w & IW & HP). apply has_prefix_iff in HP. destruct HP as (t & E).
    assert (Z : existsb (has_prefix u) begun = true) by (apply existsb_exists; exists w; split; [exact IW | apply has_prefix_iff; exists (c :: t); rewrite E, <- app_assoc; reflexivity]). congruence. }
  unfold call_name_step in SN. cbv zeta in SN. rewrite K in SN. unfold name_at. destruct track; [|exact SI].
  unfold call_name_state at 2. destruct (existsb (has_prefix u) begun) eqn:X; [rewrite SN; left; reflexivity|]. unfold call_name_state. rewrite (PR eq_refl). exact SI.
Qed.
Lemma name_paren : forall f, function_ok f -> In $"C" (ed (name_at f) "(").
Proof.
  intros f [(_ & _ & _ & N) NI]. unfold name_at, call_name_state. destruct track; [destruct (existsb (has_prefix f) begun) eqn:X|]; try (left; reflexivity).
  change (In $"C" (if mem f taken_names then [] else [$"C"])). destruct (mem f taken_names) eqn:M; [|left; reflexivity]. exfalso. apply mem_In in M. apply in_app_or in M. destruct M; contradiction.
Qed.
Lemma first_name : forall c r, calls = true -> function_ok (c :: r) -> forall q, In q [$"@"; $"@-"; $"@="; $"@_"; $"@+"] -> In (name_at [c]) (ed q c).
Proof.
  intros c r CA [((c' & r' & E & A & _) & N1 & N2 & _) _] q Q. injection E as <- <-. apply is_alpha_iff in A.
  assert (NP : Ascii.eqb c "(" = false /\ Ascii.eqb c "-" = false /\ Ascii.eqb c "_" = false) by (repeat split; apply Ascii.eqb_neq; intros ->; discriminate A). destruct NP as (X1 & X2 & X3).
  assert (K : In (name_at [c]) (call_name_step track [] c)).
  { unfold name_at, call_name_step. cbv zeta. cbn [app]. destruct track; [|left; reflexivity]. destruct (mem [c] kw2) eqn:K; [|left; reflexivity]. exfalso. apply mem_In in K. cbn in K. intuition discriminate. }
  cbn in Q. destruct Q as [<-|[<-|[<-|[<-|[<-|[]]]]]].
  - change (In (name_at [c]) (if Ascii.eqb c "(" then [$"("] else if Ascii.eqb c "-" then [$"@-"] else if negb calls then [] else if Ascii.eqb c "_" then [$"@_"] else if is_alpha c then call_name_step track [] c else [])). rewrite X1, X2, X3, CA, A. exact K.
  - change (In (name_at [c]) (if Ascii.eqb c "(" then [$"("] else if Ascii.eqb c "-" then [$"@="] else if negb calls then [] else if is_alpha c then call_name_step track [] c else [])). rewrite X1, X2, CA, A. exact K.
  - change (In (name_at [c]) (if Ascii.eqb c "(" then [$"("] else if negb calls then [] else if is_alpha c then call_name_step track [] c else [])). rewrite X1, CA, A. exact K.
  - change (In (name_at [c]) (if Ascii.eqb c "-" then [$"@+"] else if is_alpha c then call_name_step track [] c else [])). rewrite X2, A. exact K.
  - change (In (name_at [c]) (if is_alpha c then call_name_step track [] c else [])). rewrite A. exact K.
Qed.
Lemma mark_passes : forall m, calls = true -> exists q, In q [$"@"; $"@-"; $"@="; $"@_"; $"@+"] /\ passes $"@" (mark_text m) q.
Proof.
  intros m CA. destruct m; [exists $"@" | exists $"@_" | exists $"@-" | exists $"@=" | exists $"@+"]; (split; [cbn; tauto|]).
  - reflexivity.
  - exists $"@_". split; [|reflexivity]. change (In $"@_" (if negb calls then [] else [$"@_"])). rewrite CA. left. reflexivity.
  - exists $"@-". split; [left; reflexivity | reflexivity].
  - exists $"@-". split; [left; reflexivity|]. exists $"@=". split; [left; reflexivity | reflexivity].
  - exists $"@_". split; [change (In $"@_" (if negb calls then [] else [$"@_"])); rewrite CA; left; reflexivity|]. exists $"@+". split; [left; reflexivity | reflexivity].
Qed.
(** The arguments *)
Definition inside (q : str) : Prop := q = $"C" \/ q = $"C)".
Lemma args_passes : forall s q, inside q -> Forall value_char s -> (q = $"C)" -> forall r, s <> "." :: r) -> ~ holds s $")." -> exists q', inside q' /\ passes q s q'.
Proof.
  induction s as [|c s IH]; intros q Q F D N; [exists q; split; [exact Q | reflexivity]|]. inversion F as [|? ? C F']; subst. pose proof (value_iff c C) as VC.
  assert (N' : ~ holds s $").") by (intros (a & b & E); apply N; exists (c :: a), b; rewrite E; reflexivity).
  assert (ST : In (if Ascii.eqb c ")" then $"C)" else $"C") (ed q c)).
  { destruct Q as [->| ->].
    - change (ed $"C" c) with (if is_value c then (if Ascii.eqb c ")" then [$"C)"; $"A"] else [$"C"]) else []). rewrite VC. destruct (Ascii.eqb c ")"); left; reflexivity.
    - change (ed $"C)" c) with (if Ascii.eqb c "." then [] else if is_value c then (if Ascii.eqb c ")" then [$"C)"; $"A"] else [$"C"]) else []). rewrite VC.
      destruct (Ascii.eqb_spec c ".") as [->|_]; [exfalso; exact (D eq_refl s eq_refl)|]. destruct (Ascii.eqb c ")"); left; reflexivity. }
  destruct (IH (if Ascii.eqb c ")" then $"C)" else $"C")) as (q' & Q' & R); [destruct (Ascii.eqb c ")"); [right | left]; reflexivity | exact F' | | exact N' | exists q'; split; [exact Q' | exists (if Ascii.eqb c ")" then $"C)" else $"C"); split; assumption]].
  destruct (Ascii.eqb_spec c ")") as [->|_]; intros X r E; [|discriminate X]. subst s. apply N. exists [], r. reflexivity.
Qed.
Lemma args_end : forall q, inside q -> In $"A" (ed q ")").
Proof. intros q [->| ->]; right; left; reflexivity. Qed.
Lemma called_path : forall parse p m f A e c z, calls = true -> call_ok parse (Called p m f A e c z) -> call_path (call_source (Called p m f A e c z)).
Proof.
  intros parse p m f A e c z CA ((PA & PN & _) & FO & T & ND & _ & _ & Z). pose proof T as (V & _). destruct (values_no_at _ V) as (_ & VN & _). destruct (close_chars c ["["; "."] z Z) as [CF _]. split.
  - cbn [call_source]. intros I. rewrite (in_app_iff p), (in_app_iff $"@"), (in_app_iff (mark_text m)), (in_app_iff (call_text f A)) in I.
    destruct I as [I|[I|[I|[I|I]]]]; [exact (PN I) | cbv in I; intuition discriminate | exact (proj1 (mark_line m) I) | exact (VN I) | exact (no_line _ CF I)].
  - destruct (behind_passes $"A" ["["; "."] c z ltac:(reflexivity) ltac:(cbn; intuition discriminate) ltac:(cbn; intuition discriminate) ltac:(cbn; intuition discriminate) Z) as (q & R & L). exists q. split; [|exact L]. cbn [call_source].
    unfold call_text in *. pose proof FO as [((fc & fr & EF & AL & W) & _) _].
    assert (VA : Forall value_char A) by (apply Forall_app in V; destruct V as [_ V]; apply Forall_app in V; destruct V as [_ V]; apply Forall_app in V; apply V).
    assert (NA : ~ holds A $").") by (intros (a & b & E); apply ND; exists (f ++ $"(" ++ a), (b ++ $")"); rewrite E; rewrite <- !app_assoc; reflexivity).
    apply (passes_app _ _ _ $"P"); [exact (prose_passes p PA)|]. exists $"@". split; [left; reflexivity|].
    change (passes $"@" (mark_text m ++ (f ++ $"(" ++ A ++ $")") ++ close_text c ++ z) q). destruct (mark_passes m CA) as (qm & QM & RM). apply (passes_app _ _ _ qm); [exact RM|]. rewrite <- !app_assoc.
    apply (passes_app _ _ _ (name_at f)).
    + subst f. exists (name_at [fc]). split; [exact (first_name fc fr CA FO qm QM)|]. exact (name_passes fr [fc] (fc :: fr) eq_refl ltac:(discriminate) FO W).
    + exists $"C". split; [exact (name_paren f FO)|]. destruct (args_passes A $"C" (or_introl eq_refl) VA ltac:(intros X; discriminate X) NA) as (qa & QA & RA).
      change (passes $"C" (A ++ $")" ++ close_text c ++ z) q). apply (passes_app _ _ _ qa); [exact RA|]. exists $"A". split; [exact (args_end qa QA) | exact R].
Qed.
End Steps.
