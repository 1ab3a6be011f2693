(** Messages of errors are read as they are written: failed runs, failed readings, messages inside messages. *)
From Coq Require Import String Ascii List ZArith NArith Bool Lia ZifyBool ZifyN.
From Verif Require Import GoStr GoStrFacts Utf8 TemplateModel TemplateSpec TemplateProofs ProcessModel TextModel ReModel ReSyntaxModel RazorTableModel RazorAssignModel ReSound RazorRefMain RazorAsgGo RazorAsgMatch ErrorModel ErrorSpec ErrorMatch ErrorMatch2.
Import ListNotations.
Local Open Scope char_scope.

Definition exec_groups (file line column code : str) : groups := (6, code) :: place_groups file line (Some column).
Lemma exec_lands : forall r file line column name code text T G0, exec_ok file line column name code text ->
  (forall pv', lands (rmatch r (pv', text) (exec_groups file line column code) finish) T G0) ->
  lands (match_at (exec_re r) (None, exec_message file line column name code text)) T G0.
Proof.
  intros r file line column name code text T G0 (((AF & CF & NF) & NL0 & NC & _) & AN & AC & AT & _ & HA & _ & HT) K.
  change (lands (rmatch (exec_re r) (None, exec_message file line column name code text) [] finish) T G0). unfold exec_re. apply seq_lands.
  change (lands (rmatch (prefix_re anyc (Lits $"executing """ (RSeq (RStar true (RRune anyc)) (Lits $""" at <" (RSeq (RGroup 6 (RStar true (RRune anyc))) (Lits $">: " r)))))) (None, exec_message file line column name code text) [] finish) T G0).
  unfold exec_message. apply prefix_lands; [apply any_in; exact AF | exact CF | exact NL0 | exact NC|]. intros p1. apply lits_lands. intros p2. apply seq_lands.
  assert (LL : forall s, ascii_text s -> lows s) by exact ascii_lows.
  assert (A2 : ascii_text (code ++ $">: " ++ text)). { apply Forall_app. split; [exact AC|]. apply Forall_app. split; [repeat constructor | exact AT]. }
  apply greedy_lands.
  - apply any_in. exact AN.
  - apply LL. apply Forall_app. split; [repeat constructor | exact A2].
  - intros x y pv' E NE. apply lits_none. apply (sep_once $""" at <" (code ++ $">: " ++ text) x y); [reflexivity | exact HA | exact E | exact NE].
  - intros p3. apply lits_lands. intros p4. apply seq_lands. apply group_greedy.
    + apply any_in. exact AC.
    + apply LL. apply Forall_app. split; [repeat constructor | exact AT].
    + intros x y pv' g' E NE. apply lits_none. apply (sep_once $">: " text x y); [reflexivity | exact HT | exact E | exact NE].
    + intros p5. apply lits_lands. exact K.
Qed.
Lemma parse_lands : forall r file line text T G0, parse_ok file line text ->
  (forall pv', lands (rmatch r (pv', text) (place_groups file line None) finish) T G0) ->
  lands (match_at (prefix_re dot r) (None, parse_message file line text)) T G0.
Proof.
  intros r file line text T G0 (((AF & CF & NF) & NL0 & _ & _) & _ & _ & _) K. change (lands (rmatch (prefix_re dot r) (None, parse_message file line text) [] finish) T G0).
  unfold parse_message. apply prefix_lands; [apply dot_in; assumption | exact CF | exact NL0 | exact I | exact K].
Qed.

(** ** The last message *)
Lemma mark_none : forall n r u pv, ~ holds u $"template: " -> search n (Lits $"template: " r) (pv, u) = None.
Proof.
  intros n r u pv H. apply search_none. intros a t E t' X. cbn [snd] in E. apply eats_lits in X. destruct X as (s1 & -> & _). apply H. exists a, s1. exact E.
Qed.
Lemma mark_here : forall n file line column rest pv, told file line column rest ->
  exists pv' g, search n (Lits $"template: " (place_re dot)) (pv, $"template: " ++ location file line column ++ rest) = Some ([], (pv, $"template: " ++ location file line column ++ rest), (pv', rest), g).
Proof.
  intros n file line column rest pv ((AF & CF & NF) & NL0 & CO & _).
  assert (H : lands (rmatch (Lits $"template: " (place_re dot)) (pv, $"template: " ++ location file line column ++ rest) [] finish) rest (place_groups file line column)).
  { apply lits_lands. intros p1. apply place_lands; [apply dot_in; assumption | exact CF | exact NL0 | destruct column; [exact CO | exact I] | intros p2; exists p2; reflexivity]. }
  destruct H as (pv' & H). exists pv', (place_groups file line column). exact (search_here n _ _ _ _ H).
Qed.
Lemma told_rest : forall file line column rest, told file line column rest -> ~ holds rest $"template: ".
Proof. intros file line column rest (_ & _ & _ & H) X. apply H. apply holds_suffix. exact X. Qed.
Lemma mark_skip : forall u s z, ~ holds u $"template: " -> s = $"template: " ++ z ->
  forall v w, u = v ++ w -> w <> [] -> forall r t', ~ eats (Lits $"template: " r) (w ++ s) t'.
Proof.
  intros u s z H -> v w -> NE r t' X. apply eats_lits in X. destruct X as (s1 & E & _). destruct (app_cut _ _ _ _ _ E) as [(x & E1 & E2)|(x & E1 & E2)].
  - destruct x as [|c x]; [apply H; exists v, []; rewrite app_nil_r in E1; rewrite E1; rewrite app_nil_r; reflexivity|].
    exact (sep_inside $"template: " w (c :: x) s1 z eq_refl E1 NE ltac:(discriminate) (eq_sym E2)).
  - apply H. exists v, x. rewrite E1. reflexivity.
Qed.
Lemma mark_next : forall n file line column u rest pv, ~ holds u $"template: " -> told file line column rest -> (length u <= n)%nat -> forall tail,
  exists pv1 pv2 g, search n (Lits $"template: " (place_re dot)) (pv, u ++ $"template: " ++ location file line column ++ rest ++ tail) =
    Some (u, (pv1, $"template: " ++ location file line column ++ rest ++ tail), (pv2, rest ++ tail), g).
Proof.
  intros n file line column u rest pv HU ((AF & CF & NF) & NL0 & CO & _) LN tail.
  assert (H : lands (rmatch (Lits $"template: " (place_re dot)) (after_text pv u, $"template: " ++ location file line column ++ rest ++ tail) [] finish) (rest ++ tail) (place_groups file line column)).
  { apply lits_lands. intros p1. apply place_lands; [apply dot_in; assumption | exact CF | exact NL0 | destruct column; [exact CO | exact I] | intros p2; exists p2; reflexivity]. }
  destruct H as (pv' & H). exists (after_text pv u), pv', (place_groups file line column). apply search_skip; [exact LN | reflexivity | | exact H].
  intros v w E NE t' X. exact (mark_skip u _ _ HU eq_refl v w E NE _ t' X).
Qed.
Lemma last_steps : forall file line column rest, told file line column rest -> forall o u found pv fuel, outer_ok o -> ~ holds u $"template: " -> (length o < fuel)%nat ->
  last_error fuel (Lits $"template: " (place_re dot)) found (pv, u ++ outer_text o ++ $"template: " ++ location file line column ++ rest) = $"template: " ++ location file line column ++ rest.
Proof.
  intros file line column rest T0. induction o as [|[[[f l] c] t] o IH]; intros u found pv fuel OK HU LF; (destruct fuel as [|fuel]; [cbn in LF; lia|]); cbn [last_error snd].
  - change (outer_text []) with (@nil ascii). rewrite app_nil_l.
    destruct (mark_next (length (u ++ $"template: " ++ location file line column ++ rest)) file line column u rest pv HU T0 ltac:(rewrite app_length; lia) []) as (pv1 & pv2 & g & E). rewrite app_nil_r in E. rewrite E. cbn [snd].
    destruct fuel; [reflexivity|]. cbn [last_error snd]. rewrite mark_none; [reflexivity|]. exact (told_rest _ _ _ _ T0).
  - inversion OK as [|? ? T1 OK']; subst.
    change (outer_text ((f, l, c, t) :: o)) with (($"template: " ++ location f l c ++ t) ++ outer_text o). rewrite <- !app_assoc.
    set (tail := outer_text o ++ $"template: " ++ location file line column ++ rest).
    destruct (mark_next (length (u ++ $"template: " ++ location f l c ++ t ++ tail)) f l c u t pv HU T1 ltac:(rewrite app_length; lia) tail) as (pv1 & pv2 & g & E). rewrite E. cbn [snd].
    apply IH; [exact OK' | exact (told_rest _ _ _ _ T1) | cbn in LF; lia].
Qed.
Lemma outer_length : forall o, (length o <= length (outer_text o))%nat.
Proof.
  induction o as [|[[[f l] c] t] o IH]; [apply Nat.le_0_l|]. change (outer_text ((f, l, c, t) :: o)) with (($"template: " ++ location f l c ++ t) ++ outer_text o). rewrite !app_length. change (length $"template: ") with 10. cbn [length]. lia.
Qed.
Section Reads.
Variable beyond : N -> bool.
Lemma error_text_last : forall file line column rest o, told file line column rest -> outer_ok o ->
  error_text beyond (outer_text o ++ $"template: " ++ location file line column ++ rest) = $"template: " ++ location file line column ++ rest.
Proof.
  intros file line column rest o T OK. unfold error_text. rewrite line_re. apply (last_steps file line column rest T o [] _ None _ OK).
  - intros (a & b & E). destruct a; discriminate.
  - pose proof (outer_length o). rewrite app_length. lia.
Qed.

(** ** The expressions *)
Notation errors := (map (compiled_of beyond) template_errors).
Lemma multi_none : forall i r names l s, search (length s) r (None, s) = None -> multi i ({| c_re := r; c_names := names |} :: l) s = multi (S i) l s.
Proof. intros i r names l s H. cbn [multi c_re]. match goal with |- context [match ?x with Some _ => _ | None => _ end] => assert (X : x = None) by exact H; rewrite X end. reflexivity. Qed.
Lemma multi_some : forall i r names l s T g, lands (match_at r (None, s)) T g -> exists w, multi i ({| c_re := r; c_names := names |} :: l) s = Some (i, named_group names w g).
Proof. intros i r names l s T g (pv & H). cbn [multi c_re c_names]. match goal with |- context [match ?x with Some _ => _ | None => _ end] => assert (X : x = Some ([], (None, s), (pv, T), g)) by exact (search_here _ _ _ _ _ H); rewrite X end. eexists. reflexivity. Qed.
Definition base_names : list (str * nat) := [($"column", 5); ($"line", 3); ($"file", 2); ($"location", 1)].
Lemma errors_are : errors =
  [{| c_re := exec_re (Lits $"map has no entry for key """ (RSeq (RGroup 7 (star_of anyc)) (lit $""""))); c_names := ($"key", 7) :: ($"code", 6) :: base_names |};
   {| c_re := exec_re (Lits $"error calling " (RSeq (RGroup 7 (RAlt (lit $"raise") (lit $"assert"))) (Lits $": " (RGroup 8 (star_of anyc))))); c_names := ($"message", 8) :: ($"code", 6) :: base_names |};
   {| c_re := exec_re (RGroup 7 (star_of anyc)); c_names := ($"error", 7) :: ($"code", 6) :: base_names |};
   {| c_re := prefix_re dot (RGroup 6 (Lits $"undefined variable """ (RSeq (RGroup 7 (star_of dot)) (lit $"""")))); c_names := ($"value", 7) :: ($"error", 6) :: base_names |};
   {| c_re := prefix_re dot (RGroup 6 (Lits $"unclosed action started at " (RSeq (star_of dot) (Lits $":" (RGroup 7 digits1))))); c_names := ($"actual_line", 7) :: ($"error", 6) :: base_names |};
   {| c_re := prefix_re dot (RGroup 6 (star_of dot)); c_names := ($"error", 6) :: base_names |}].
Proof. vm_compute. reflexivity. Qed.
End Reads.
