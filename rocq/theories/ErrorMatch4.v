(** What the expressions find in each message. *)
From Coq Require Import String Ascii List ZArith NArith Bool Lia ZifyBool ZifyN.
From Verif Require Import GoStr GoStrFacts Utf8 TemplateModel TemplateSpec TemplateProofs ProcessModel TextModel ReModel ReSyntaxModel RazorTableModel RazorAssignModel ReSound RazorRefMain RazorAsgGo RazorAsgMatch ErrorModel ErrorSpec ErrorMatch ErrorMatch2 ErrorMatch3.
Import ListNotations.
Local Open Scope char_scope.

Record seen := Seen { s_location : str; s_file : str; s_line : str; s_column : str; s_code : str; s_key : str; s_message : str; s_error : str; s_value : str; s_actual : str }.
Definition reads (m : str -> str) (x : seen) : Prop :=
  m $"location" = s_location x /\ m $"file" = s_file x /\ m $"line" = s_line x /\ m $"column" = s_column x /\ m $"code" = s_code x /\ m $"key" = s_key x /\
  m $"message" = s_message x /\ m $"error" = s_error x /\ m $"value" = s_value x /\ m $"actual_line" = s_actual x.
Ltac reading := unfold reads; repeat split; reflexivity.
Lemma whole_lands : forall n cl u pv g, all_in cl u -> lands (rmatch (RGroup n (star_of cl)) (pv, u) g finish) [] ((n, u) :: g).
Proof.
  intros n cl u pv g A. unfold star_of. rewrite <- (app_nil_r u) at 1. apply group_greedy; [exact A | constructor | | intros p; exists p; reflexivity].
  intros x y pv' g' E NE. destruct x; [contradiction | discriminate].
Qed.
(** A text up to the quote that ends the message *)
Lemma quoted_lands : forall n cl u pv g k T G0, all_in cl u -> (forall pv', lands (k (pv', []) ((n, u) :: g)) T G0) ->
  lands (rmatch (RSeq (RGroup n (star_of cl)) (lit $"""")) (pv, u ++ $"""") g k) T G0.
Proof.
  intros n cl u pv g k T G0 A K. apply seq_lands. unfold star_of. apply group_greedy; [exact A | repeat constructor | |].
  - intros x y pv' g' E NE. destruct x as [|c x]; [contradiction|]. destruct x; [injection E as <- E|discriminate]. subst y. reflexivity.
  - intros p1. apply (lit_lands $"""" []); [discriminate | exact K].
Qed.
Section Kinds.
Variable beyond : N -> bool.
Notation errors := (map (compiled_of beyond) template_errors).
Lemma raise_eats : forall s s', eats (Lits $"error calling " (RSeq (RGroup 7 (RAlt (lit $"raise") (lit $"assert"))) (Lits $": " (RGroup 8 (star_of anyc))))) s s' -> raised s.
Proof.
  intros s s' H. apply eats_lits in H. destruct H as (s1 & -> & H). apply eats_seq in H. destruct H as (u & s2 & EU & E1 & E2). apply eats_lits in E2. destruct E2 as (s3 & -> & _). clear EU.
  inversion E1 as [| | | | | | | |? ? ? ? X1| | | | |]; subst. inversion X1 as [| | | |? ? ? ? X2|? ? ? ? X2| | | | | | | |]; subst; [left; apply (eats_lit $"raise") in X2 | right; apply (eats_lit $"assert") in X2]; try discriminate; subst s1; reflexivity.
Qed.
Lemma key_eats : forall r s s', eats (Lits $"map has no entry for key """ r) s s' -> keyed s.
Proof. intros r s s' H. apply eats_lits in H. destruct H as (s1 & -> & _). apply has_prefix_app. Qed.
Lemma exec_split : forall file line column name code text, exec_message file line column name code text =
  ($"template: " ++ location file line (Some column) ++ $"executing """ ++ name ++ $""" at <" ++ code) ++ $">: " ++ text.
Proof. intros. unfold exec_message. rewrite <- !app_assoc. reflexivity. Qed.
Lemma exec_key_none : forall r file line column name code text n, exec_ok file line column name code text -> ~ keyed text ->
  search n (exec_re (Lits $"map has no entry for key """ r)) (None, exec_message file line column name code text) = None.
Proof.
  intros r file line column name code text n (_ & _ & _ & _ & _ & _ & HP & HT) NK. rewrite exec_split. exact (exec_none keyed _ n None _ _ HP HT NK (key_eats r)).
Qed.
Lemma exec_raise_none : forall file line column name code text n, exec_ok file line column name code text -> ~ raised text ->
  search n (exec_re (Lits $"error calling " (RSeq (RGroup 7 (RAlt (lit $"raise") (lit $"assert"))) (Lits $": " (RGroup 8 (star_of anyc)))))) (None, exec_message file line column name code text) = None.
Proof.
  intros file line column name code text n (_ & _ & _ & _ & _ & _ & HP & HT) NK. rewrite exec_split. exact (exec_none raised _ n None _ _ HP HT NK raise_eats).
Qed.
Lemma exec_other : forall file line column name code text, exec_ok file line column name code text -> ~ keyed text -> ~ raised text ->
  exists m, multi 0 errors (exec_message file line column name code text) = Some (2, m) /\
    reads m {| s_location := location file line (Some column); s_file := file; s_line := line; s_column := column; s_code := code; s_key := []; s_message := []; s_error := text; s_value := []; s_actual := [] |}.
Proof.
  intros file line column name code text OK NK NR. rewrite errors_are. rewrite multi_none by (apply exec_key_none; assumption). rewrite multi_none by (apply exec_raise_none; assumption).
  assert (L : lands (match_at (exec_re (RGroup 7 (star_of anyc))) (None, exec_message file line column name code text)) [] ((7, text) :: exec_groups file line column code)).
  { apply exec_lands; [exact OK|]. intros p. apply whole_lands. apply any_in. destruct OK as (_ & _ & _ & AT & _). exact AT. }
  eapply multi_some in L. destruct L as (w & E). eexists. split; [exact E|]. reading.
Qed.
Lemma exec_key : forall file line column name code key, exec_ok file line column name code ($"map has no entry for key """ ++ key ++ $"""") ->
  exists m, multi 0 errors (exec_message file line column name code ($"map has no entry for key """ ++ key ++ $"""")) = Some (0, m) /\
    reads m {| s_location := location file line (Some column); s_file := file; s_line := line; s_column := column; s_code := code; s_key := key; s_message := []; s_error := []; s_value := []; s_actual := [] |}.
Proof.
  intros file line column name code key OK. rewrite errors_are.
  assert (L : lands (match_at (exec_re (Lits $"map has no entry for key """ (RSeq (RGroup 7 (star_of anyc)) (lit $"""")))) (None, exec_message file line column name code ($"map has no entry for key """ ++ key ++ $""""))) [] ((7, key) :: exec_groups file line column code)).
  { apply exec_lands; [exact OK|]. intros p. apply lits_lands. intros p2. apply quoted_lands; [|intros q; exists q; reflexivity]. apply any_in. destruct OK as (_ & _ & _ & AT & _). apply Forall_app in AT. destruct AT as [_ AT]. apply Forall_app in AT. exact (proj1 AT). }
  eapply multi_some in L. destruct L as (w & E). eexists. split; [exact E|]. reading.
Qed.
Lemma exec_raised : forall word file line column name code message, word = $"raise" \/ word = $"assert" -> exec_ok file line column name code ($"error calling " ++ word ++ $": " ++ message) ->
  exists m, multi 0 errors (exec_message file line column name code ($"error calling " ++ word ++ $": " ++ message)) = Some (1, m) /\
    reads m {| s_location := location file line (Some column); s_file := file; s_line := line; s_column := column; s_code := code; s_key := []; s_message := message; s_error := []; s_value := []; s_actual := [] |}.
Proof.
  intros word file line column name code message WD OK. rewrite errors_are. rewrite multi_none; [|apply exec_key_none; [exact OK | intros K; destruct WD as [-> | ->]; discriminate]].
  assert (L : lands (match_at (exec_re (Lits $"error calling " (RSeq (RGroup 7 (RAlt (lit $"raise") (lit $"assert"))) (Lits $": " (RGroup 8 (star_of anyc)))))) (None, exec_message file line column name code ($"error calling " ++ word ++ $": " ++ message))) [] ((8, message) :: (7, word) :: exec_groups file line column code)).
  { apply exec_lands; [exact OK|]. intros p. apply lits_lands. intros p2. apply seq_lands. eapply group_inner.
    - intros k' K'. destruct WD as [-> | ->].
      + destruct (lit_lands $"raise" ($": " ++ message) k' (exec_groups file line column code) [] ((8, message) :: (7, $"raise") :: exec_groups file line column code) p2 ltac:(discriminate) K') as (q & Q). exists q. cbn [rmatch]. rewrite Q. reflexivity.
      + destruct (lit_lands $"assert" ($": " ++ message) k' (exec_groups file line column code) [] ((8, message) :: (7, $"assert") :: exec_groups file line column code) p2 ltac:(discriminate) K') as (q & Q). exists q. cbn [rmatch]. rewrite Q. reflexivity.
    - intros p3. apply lits_lands. intros p4. apply whole_lands. apply any_in. destruct OK as (_ & _ & _ & AT & _). apply Forall_app in AT. destruct AT as [_ AT]. apply Forall_app in AT. destruct AT as [_ AT]. apply Forall_app in AT. exact (proj2 AT). }
  eapply multi_some in L. destruct L as (w & E). eexists. split; [exact E|]. reading.
Qed.
(** ** Failed readings *)
Lemma parse_undefined : forall file line value, let text := $"undefined variable """ ++ value ++ $"""" in parse_ok file line text ->
  exists m, multi 0 errors (parse_message file line text) = Some (3, m) /\
    reads m {| s_location := location file line None; s_file := file; s_line := line; s_column := []; s_code := []; s_key := []; s_message := []; s_error := text; s_value := value; s_actual := [] |}.
Proof.
  intros file line value text OK. rewrite errors_are. pose proof OK as (_ & AT & NT & HX). rewrite !multi_none by (apply exec_none_parse; exact HX).
  assert (L : lands (match_at (prefix_re dot (RGroup 6 (Lits $"undefined variable """ (RSeq (RGroup 7 (star_of dot)) (lit $""""))))) (None, parse_message file line text)) [] ((6, text) :: (7, value) :: place_groups file line None)).
  { apply parse_lands; [exact OK|]. intros p. rewrite <- (app_nil_r text) at 1. eapply group_inner; [|intros q; exists q; reflexivity].
    intros k' K'. rewrite app_nil_r. apply lits_lands. intros p2. apply quoted_lands; [|exact K'].
    apply dot_in; [apply Forall_app in AT; destruct AT as [_ AT]; apply Forall_app in AT; exact (proj1 AT) | intros I; apply NT; unfold text; apply in_or_app; right; apply in_or_app; left; exact I]. }
  eapply multi_some in L. destruct L as (w & E). eexists. split; [exact E|]. reading.
Qed.
Lemma parse_unclosed : forall file line place actual, let text := $"unclosed action started at " ++ place ++ $":" ++ actual in parse_ok file line text -> number_text actual ->
  ~ holds (parse_message file line text) $"undefined variable """ ->
  exists m, multi 0 errors (parse_message file line text) = Some (4, m) /\
    reads m {| s_location := location file line None; s_file := file; s_line := line; s_column := []; s_code := []; s_key := []; s_message := []; s_error := text; s_value := []; s_actual := actual |}.
Proof.
  intros file line place actual text OK NA HU. rewrite errors_are. pose proof OK as (_ & AT & NT & HX). rewrite !multi_none by ((apply exec_none_parse; exact HX) || (apply parse_none; exact HU)).
  assert (L : lands (match_at (prefix_re dot (RGroup 6 (Lits $"unclosed action started at " (RSeq (star_of dot) (Lits $":" (RGroup 7 digits1)))))) (None, parse_message file line text)) [] ((6, text) :: (7, actual) :: place_groups file line None)).
  { apply parse_lands; [exact OK|]. intros p. rewrite <- (app_nil_r text) at 1. eapply group_inner; [|intros q; exists q; reflexivity].
    intros k' K'. rewrite app_nil_r. apply lits_lands. intros p2. apply seq_lands. apply Forall_app in AT. destruct AT as [_ AT]. pose proof AT as AT2. apply Forall_app in AT. apply Forall_app in AT2. apply greedy_lands.
    - apply dot_in; [exact (proj1 AT) | intros I; apply NT; unfold text; apply in_or_app; right; apply in_or_app; left; exact I].
    - apply ascii_lows. exact (proj2 AT).
    - intros x y pv' E NE. apply lits_none. apply (sep_once $":" actual x y); [reflexivity | | exact E | exact NE].
      intros (a & b & ->). destruct NA as [_ NA]. apply Forall_app in NA. destruct NA as [_ NA]. inversion NA as [|? ? H _]; subst. cbn in H. lia.
    - intros p3. apply lits_lands. intros p4. rewrite <- (app_nil_r actual) at 1. eapply group_inner; [|exact K']. intros k2 K2. apply number_lands; [exact NA | exact I | exact K2]. }
  eapply multi_some in L. destruct L as (w & E). eexists. split; [exact E|]. reading.
Qed.
Lemma parse_other : forall file line text, parse_ok file line text -> ~ holds (parse_message file line text) $"undefined variable """ -> ~ holds (parse_message file line text) $"unclosed action started at " ->
  exists m, multi 0 errors (parse_message file line text) = Some (5, m) /\
    reads m {| s_location := location file line None; s_file := file; s_line := line; s_column := []; s_code := []; s_key := []; s_message := []; s_error := text; s_value := []; s_actual := [] |}.
Proof.
  intros file line text OK HU HC. rewrite errors_are. pose proof OK as (_ & AT & NT & HX). rewrite !multi_none by ((apply exec_none_parse; exact HX) || (apply parse_none; exact HU) || (apply parse_none; exact HC)).
  assert (L : lands (match_at (prefix_re dot (RGroup 6 (star_of dot))) (None, parse_message file line text)) [] ((6, text) :: place_groups file line None)).
  { apply parse_lands; [exact OK|]. intros p. apply whole_lands. apply dot_in; assumption. }
  eapply multi_some in L. destruct L as (w & E). eexists. split; [exact E|]. reading.
Qed.
End Kinds.
