(** Razor documents with blocks: where the matches of the rows end. *)
From Coq Require Import String Ascii List ZArith NArith Bool Lia ZifyBool ZifyN.
From Verif Require Import GoStr GoStrFacts Utf8 TemplateModel TemplateSpec TemplateProofs RazorExprModel RazorWordsSpec
  ReModel ReSyntaxModel RazorTableModel RazorAssignModel ReSound RazorRefSpec RazorRefAuto RazorRefProofs RazorRefMain RazorAsgSpec RazorAsgGo RazorAsgMatch BlockSpec BlockMatch.
Import ListNotations.
Local Open Scope char_scope.

Definition outside (c : ascii) : Prop := low c = true /\ ~ blank_char c.
Lemma after_blanks : forall b b' c d x y, Forall blank_char b -> Forall blank_char b' -> ~ blank_char c -> ~ blank_char d -> b ++ c :: x = b' ++ d :: y -> c = d.
Proof.
  induction b as [|e b IH]; intros b' c d x y B B' C D E; destruct b' as [|f b']; cbn [app] in E; injection E as E1 E2.
  - exact E1.
  - subst f. inversion B'; subst. contradiction.
  - subst e. inversion B; subst. contradiction.
  - inversion B; subst. inversion B'; subst. exact (IH b' c d x y ltac:(assumption) ltac:(assumption) C D E2).
Qed.
Lemma blank_word : forall c, is_alpha c = true -> ~ blank_char c.
Proof. intros c A B. destruct B as [-> | ->]; discriminate A. Qed.
Lemma seq_inv : forall a b s t, eats (RSeq a b) s t -> exists s1, eats a s s1 /\ eats b s1 t.
Proof. intros a b s t E. inversion E; subst. eexists; split; eassumption. Qed.
Lemma alt_inv : forall a b s t, eats (RAlt a b) s t -> eats a s t \/ eats b s t.
Proof. intros a b s t E. inversion E; subst; [left | right]; assumption. Qed.
(** Blanks and a byte *)
Lemma blanks_byte : forall b c s k g pv T G0, Forall blank_char b -> outside c -> (forall pv', lands (k (pv', s) g) T G0) ->
  lands (rmatch (RSeq blanks (B c)) (pv, b ++ c :: s) g k) T G0.
Proof.
  intros b c s k g pv T G0 FB (L & N) K. apply seq_lands. apply blanks_lands; [exact FB | intros x r X; injection X as <- _; split; assumption|]. intro p. apply byte_lands. exact K.
Qed.
Lemma blanks_missing : forall b c s w d t, Forall blank_char b -> ~ blank_char c -> ~ blank_char d -> c <> d -> ~ eats (RSeq blanks (RazorRefMain.Lit (d :: w))) (b ++ c :: s) t.
Proof.
  intros b c s w d t FB C D N E. apply seq_inv in E. destruct E as (s1 & H1 & H2). apply star_blanks in H1. destruct H1 as (b' & FB' & EQ).
  apply RazorRefMain.Lit_eats in H2. subst s1. apply N. exact (after_blanks b b' c d s (w ++ t) FB FB' C D EQ).
Qed.
Lemma word_lands : forall w t k g pv T G0, (forall pv', lands (k (pv', t) g) T G0) -> lands (rmatch (RazorRefMain.Lit w) (pv, w ++ t) g k) T G0.
Proof. intros w t k g pv T G0 K. rewrite Lit_match. apply K. Qed.
Lemma paren_outside : outside "(".
Proof. split; [reflexivity | intros [H|H]; discriminate H]. Qed.

(** ** Loops *)
Definition for_text (m : mark) (w : opener) (b1 : str) : str := "@" :: mark_text m ++ opener_text w ++ b1 ++ $"(".
Lemma for_lands : forall m w b1 t pv, opener_ok w -> Forall blank_char b1 -> (w = OFor \/ exists b, w = OForEach b) ->
  lands (match_at for_re (pv, for_text m w b1 ++ t)) t (mark_groups m).
Proof.
  intros m w b1 t pv OK FB W. unfold match_at. change (fun q g => Some (q, g)) with finish. unfold for_re, for_text. apply seq_lands. cbn [app]. apply byte_lands. intro p1. apply seq_lands.
  rewrite <- !app_assoc. destruct W as [->|(b & ->)]; cbn [opener_text opener_ok] in *.
  - change ($"for" ++ b1 ++ $"(" ++ t) with ("f" :: "o" :: "r" :: b1 ++ "(" :: t). apply marks_lands; [reflexivity|]. intro p2.
    apply seq_lands, byte_lands. intro p3. apply seq_lands, byte_lands. intro p4. apply seq_lands, byte_lands. intro p5. apply seq_lands. unfold ROpt. apply right_lands.
    + intros x. cbn [snd]. apply (blanks_missing b1 "(" t $"ach" "e"); [exact FB | apply paren_outside | intros [H|H]; discriminate H | discriminate].
    + cbn [rmatch]. apply blanks_byte; [exact FB | exact paren_outside | intro p6; eexists; reflexivity].
  - change (($"for" ++ b ++ $"each") ++ b1 ++ $"(" ++ t) with ("f" :: "o" :: "r" :: (b ++ $"each") ++ b1 ++ "(" :: t). rewrite <- app_assoc. apply marks_lands; [reflexivity|]. intro p2.
    apply seq_lands, byte_lands. intro p3. apply seq_lands, byte_lands. intro p4. apply seq_lands, byte_lands. intro p5. apply seq_lands. unfold ROpt. apply left_lands. apply seq_lands.
    apply blanks_lands; [exact OK | intros c r X; injection X as <- _; split; [reflexivity | intros [H|H]; discriminate H]|]. intro p6. apply word_lands. intro p7.
    apply blanks_byte; [exact FB | exact paren_outside | intro p8; eexists; reflexivity].
Qed.

(** ** Commands *)
Definition command_text (m : mark) (w : opener) (b1 b2 E b3 : str) : str := "@" :: mark_text m ++ opener_text w ++ b1 ++ $"(" ++ b2 ++ E ++ $")" ++ b3.
Definition plain_opener (w : opener) : Prop := match w with OFor | OForEach _ => False | _ => True end.
Lemma opener_alpha : forall w, exists c r, opener_text w = c :: r /\ is_alpha c = true.
Proof. intros [|b| | | |b]; eexists; eexists; split; reflexivity. Qed.
Lemma commands_lands : forall w t k g pv T G0, plain_opener w -> opener_ok w -> (forall pv', lands (k (pv', t) g) T G0) -> lands (rmatch commands_re (pv, opener_text w ++ t) g k) T G0.
Proof.
  intros w t k g pv T G0 PW OK K. unfold commands_re. destruct w as [|b| | | |b]; cbn [opener_text plain_opener] in *; try contradiction.
  - do 5 apply left_lands. apply word_lands. exact K.
  - do 4 apply left_lands. apply right_lands; [intros x EA; apply RazorRefMain.Lit_eats in EA; discriminate EA|]. change (($"else" ++ b ++ $"if") ++ t) with ("e" :: "l" :: "s" :: "e" :: (b ++ $"if") ++ t).
    do 4 (apply seq_lands, byte_lands; intro). rewrite <- app_assoc. apply seq_lands. apply blanks_lands; [exact OK | intros c r X; injection X as <- _; split; [reflexivity | intros [H|H]; discriminate H]|].
    intro p6. exact (word_lands $"if" t k g p6 T G0 K).
  - do 2 apply left_lands. apply right_lands; [|apply word_lands; exact K]. intros x EA. cbn [snd] in EA. 
    apply alt_inv in EA. destruct EA as [EA|EA]; [|apply RazorRefMain.Lit_eats in EA; discriminate EA]. apply alt_inv in EA. destruct EA as [EA|H2]; [apply RazorRefMain.Lit_eats in EA; discriminate EA|].
    apply (head_eats (Ascii.eqb "e")) in H2; [|reflexivity]. destruct H2 as (c & y & E1 & E2). injection E1 as <- _. discriminate E2.
  - apply right_lands; [|apply word_lands; exact K]. intros x EA. cbn [snd] in EA.
    repeat match goal with
    | H : eats (RAlt _ _) _ _ |- _ => apply alt_inv in H; destruct H as [H|H]
    | H : eats (RazorRefMain.Lit _) _ _ |- _ => apply RazorRefMain.Lit_eats in H; discriminate H
    end. apply (head_eats (Ascii.eqb "e")) in EA; [|reflexivity]. destruct EA as (c & y & E1 & E2). injection E1 as <- _. discriminate E2.
Qed.
Lemma value_end_missing : forall v u, ~ In ")" v -> ends u -> forall t, ~ eats value_end (v ++ u) t.
Proof.
  intros v u N EN t E. unfold value_end in E. inversion E as [| | |x y s0 s1 s2 H1 H2| | | | | | | | | |]; subst. apply star_blanks in H1. destruct H1 as (b & FB & EQ).
  inversion H2 as [| | |x y s0 s3 s4 H3 H4| | | | | | | | | |]; subst. apply (head_eats (Ascii.eqb ")")) in H3; [|reflexivity]. destruct H3 as (c & x & -> & X). apply Ascii.eqb_eq in X. subst c.
  apply app_split in EQ. destruct EQ as [(k & E1 & E2)|(k & E1 & E2)].
  - subst v. destruct k as [|c k]; cbn [app] in E2; [|injection E2 as E3 _; subst c; apply N; apply in_or_app; right; left; reflexivity].
    destruct EN as [->|(r & ->)]; discriminate E2.
  - destruct EN as [->|(r & ->)].
    + symmetry in E2. apply app_eq_nil in E2. destruct E2 as [_ E2]. discriminate E2.
    + destruct k as [|c k]; cbn [app] in E2; [discriminate E2|]. injection E2 as E3 _. subst c. rewrite E1 in FB. apply Forall_app in FB. destruct FB as [_ FB]. inversion FB as [|? ? X]; subst. destruct X as [X|X]; discriminate X.
Qed.
Lemma line_chars : forall s, lows s -> ~ In "010" s -> Forall (fun c => low c = true /\ in_class line2 (N_of_ascii c) = true) s.
Proof.
  intros s L N. apply Forall_forall. intros d D. unfold lows in L. rewrite Forall_forall in L. split; [exact (L d D)|]. rewrite line2_in. destruct (Ascii.eqb_spec d "010") as [->|_]; [contradiction | reflexivity].
Qed.
Lemma ascii_low : forall c, ascii_char c -> low c = true.
Proof. intros c A. unfold ascii_char in A. revert A. destruct c as [[] [] [] [] [] [] [] []]; vm_compute; intros; try reflexivity; try discriminate; contradiction. Qed.
Lemma after_facts : forall z, text_after z -> lows z /\ ~ In "010" z /\ ~ In ")" z /\ (forall c r, z = c :: r -> outside c).
Proof.
  intros z (H & F). rewrite Forall_forall in F. split; [|split; [|split]].
  - apply Forall_forall. intros c I. apply ascii_low. apply (F c I).
  - intros I. apply F in I. destruct I as [_ I]. apply I. cbn. tauto.
  - intros I. apply F in I. destruct I as [_ I]. apply I. cbn. tauto.
  - intros c r E. split; [apply ascii_low; apply (F c); subst; left; reflexivity | exact (H c r E)].
Qed.
Lemma ends_outside : forall z u, (forall c r, z = c :: r -> outside c) -> ends u -> forall c r, z ++ u = c :: r -> outside c.
Proof.
  intros z u Z EN c r E. destruct z as [|d z]; cbn [app] in E; [|injection E as E1 E2; subst d; exact (Z c z eq_refl)]. destruct EN as [->|(x & ->)]; [discriminate E|]. injection E as <- _. split; [reflexivity | intros [H|H]; discriminate H].
Qed.
Lemma blank_lows : forall b, Forall blank_char b -> lows b /\ ~ In "010" b /\ ~ In ")" b.
Proof.
  intros b F. split; [eapply Forall_impl; [|exact F]; exact blank_low|]. rewrite Forall_forall in F. split; intros I; apply F in I; destruct I as [I|I]; discriminate I.
Qed.
Definition command_groups (m : mark) (w : opener) (E : str) : groups := (7, E) :: (5, opener_text w) :: mark_groups m.
Lemma command_lands : forall a m w b1 b2 E b3 z u pv, (forall s t, eats a s t -> exists r, s = "$" :: r) -> plain_opener w -> opener_ok w -> Forall blank_char b1 -> Forall blank_char b2 ->
  value_line E -> hd "a" E <> "$" -> Forall blank_char b3 -> text_after z -> ends u ->
  lands (match_at (command_re a) (pv, command_text m w b1 b2 E b3 ++ z ++ u)) (z ++ u) (command_groups m w E).
Proof.
  intros a m w b1 b2 E b3 z u pv HA PW OK F1 F2 (LE & NE & (c & r & -> & NB)) HD F3 Z EN. unfold match_at. change (fun q g => Some (q, g)) with finish. unfold command_re, command_text.
  apply seq_lands. cbn [app]. apply byte_lands. intro p1. apply seq_lands. rewrite <- !app_assoc. destruct (opener_alpha w) as (wc & wr & WE & WA).
  assert (Q : forall X, lands (rmatch marks (p1, mark_text m ++ opener_text w ++ X) [] (fun p g => rmatch (RSeq (RGroup 5 commands_re) (RSeq blanks (RSeq (B "(") (RSeq blanks (RSeq (ROpt (RGroup 6 a)) (RSeq blanks (RSeq value_re value_end))))))) p g finish)) (z ++ u) (command_groups m w (c :: r)) ->
     lands (rmatch marks (p1, mark_text m ++ opener_text w ++ X) [] (fun p g => rmatch (RSeq (RGroup 5 commands_re) (RSeq blanks (RSeq (B "(") (RSeq blanks (RSeq (ROpt (RGroup 6 a)) (RSeq blanks (RSeq value_re value_end))))))) p g finish)) (z ++ u) (command_groups m w (c :: r))) by (intros; assumption).
  apply Q. clear Q. rewrite WE. cbn [app]. apply marks_lands; [exact WA|]. intro p2. change (wc :: wr ++ ?X) with ((wc :: wr) ++ X). rewrite <- WE. apply seq_lands.
  apply group_lands; [intros k' K'; apply commands_lands; assumption|]. intro p3.
  apply seq_lands. change ("(" :: ?X) with ($"(" ++ X). apply blanks_lands; [exact F1 | intros x y X; injection X as <- _; exact paren_outside|]. intro p4. apply seq_lands. apply byte_lands. intro p5. apply seq_lands.
  assert (OC : outside c) by (inversion LE; subst; split; assumption).
  apply blanks_lands; [exact F2 | intros x y X; injection X as <- _; exact OC|]. intro p6. apply seq_lands. unfold ROpt. apply right_lands.
  { intros t EA. inversion EA as [| | | | | | | |n0 a0 s0 s1 H1| | | | |]; subst. apply HA in H1. destruct H1 as (x & H1). cbn [snd app] in H1. injection H1 as H1 _. exact (HD H1). }
  replace (c :: (r ++ $")" ++ b3) ++ z ++ u) with ((c :: r) ++ $")" ++ b3 ++ z ++ u) by (rewrite <- !app_assoc; reflexivity). change (lands (rmatch (RSeq blanks (RSeq value_re value_end)) (p6, (c :: r) ++ $")" ++ b3 ++ z ++ u) ((5, opener_text w) :: mark_groups m) finish) (z ++ u) (command_groups m w (c :: r))).
  apply seq_lands. apply (blanks_lands []); [constructor | intros x y X; injection X as <- _; exact OC|]. intro p7. apply seq_lands. unfold value_re.
  assert (CE : Forall (fun c => low c = true /\ in_class line2 (N_of_ascii c) = true) (c :: r)) by (apply line_chars; assumption). inversion CE as [|? ? [LC IC] CR]; subst.
  destruct (after_facts z Z) as (LZ & NZ & PZ & OZ). destruct (blank_lows b3 F3) as (L3 & N3 & P3).
  assert (C2 : Forall (fun c => low c = true /\ in_class line2 (N_of_ascii c) = true) ($")" ++ b3 ++ z)).
  { apply Forall_app. split; [repeat constructor|]. apply Forall_app. split; apply line_chars; assumption. }
  change (lands (rmatch (RSeq (RRune line2) (RStar true (RRune line2))) (p7, (c :: r) ++ $")" ++ b3 ++ z ++ u) ((5, opener_text w) :: mark_groups m)
    (fun p' g' => rmatch value_end p' ((7, taken (p7, (c :: r) ++ $")" ++ b3 ++ z ++ u) p') :: g') finish)) (z ++ u) (command_groups m w (c :: r))).
  apply seq_lands. cbn [app]. apply rune_lands; [exact LC | exact IC|]. intro p8. 
  assert (EQ : $")" ++ b3 ++ z ++ u = ($")" ++ b3 ++ z) ++ u) by (rewrite <- !app_assoc; reflexivity). rewrite EQ.
  cbn [rmatch snd]. apply star_back.
  - exact (ends_stops u EN).
  - exact C2.
  - intros x y pv' EXY NX. assert (NP : ~ In ")" y).
    { destruct x as [|d x]; [contradiction|]. cbn [app] in EXY. change ($")" ++ b3 ++ z) with (")" :: b3 ++ z) in EXY. injection EXY as _ EXY. intros I. assert (J : In ")" (b3 ++ z)) by (rewrite EXY; apply in_or_app; right; exact I).
      apply in_app_or in J. destruct J as [J|J]; contradiction. }
    match goal with |- ?X = None => destruct X as [v|] eqn:M; [|reflexivity] end. exfalso. apply rmatch_eats in M. destruct M as (p' & g' & EA & _). cbn [snd] in EA. exact (value_end_missing y u NP EN _ EA).
  - intro p9. replace (taken (p7, c :: r ++ ($")" ++ b3 ++ z) ++ u) (p9, ($")" ++ b3 ++ z) ++ u)) with (c :: r) by (symmetry; exact (taken_app p7 p9 (c :: r) (($")" ++ b3 ++ z) ++ u))).
    rewrite <- !app_assoc. unfold value_end. apply seq_lands. apply (blanks_lands []); [constructor | intros x y X; injection X as <- _; split; [reflexivity | intros [H|H]; discriminate H]|]. intro p10.
    apply seq_lands. apply byte_lands. intro p11. change (lands (rmatch blanks (p11, b3 ++ z ++ u) ((7, c :: r) :: (5, opener_text w) :: mark_groups m) finish) (z ++ u) (command_groups m w (c :: r))).
    apply blanks_lands; [exact F3 | exact (ends_outside z u OZ EN)|]. intro p12. eexists. reflexivity.
  - exact CR.
  - rewrite !app_length. cbn [length]. lia.
Qed.
