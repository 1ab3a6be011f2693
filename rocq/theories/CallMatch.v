(** Razor documents with calls: the matches of the rows for calls, names and expressions. *)
From Coq Require Import String Ascii List ZArith NArith Bool Lia ZifyBool ZifyN.
From Verif Require Import GoStr GoStrFacts Utf8 TemplateModel TemplateSpec TemplateProofs RazorExprModel RazorWordsSpec
  ReModel ReSyntaxModel RazorTableModel RazorAssignModel ReSound RazorRefSpec RazorRefAuto RazorRefProofs RazorRefMain RazorAsgSpec RazorAsgAuto RazorAsgGo RazorAsgMatch RazorAsgFits RazorAsgDoc BlockSpec BlockMatch BlockMatch2 CallSpec CallAuto CallFits.
Import ListNotations.
Local Open Scope char_scope.

(** ** The expressions *)
Definition id_class (beyond : N -> bool) : rclass := COr (COr (COr CNone (CTest (letter beyond))) c_digit) (c_char 95).
Definition args_re : re := RSeq (B "(") (RSeq blanks (RSeq (RStar true (RRune line2)) (RSeq blanks (B ")")))).
Definition call_re (beyond : N -> bool) : re :=
  RSeq (B "@") (RSeq marks (RSeq (RGroup 5 (RSeq (RSeq (RRune (id_class beyond)) (RStar true (RRune (id_class beyond)))) args_re)) (ROpt closing))).
Definition name_re (beyond : N -> bool) : re :=
  RSeq (B "@") (RSeq marks (RSeq (B "(") (RSeq blanks (RSeq (RGroup 5 (RSeq (RRune (first_class beyond)) (RStar true (RRune (next_class beyond))))) (RSeq blanks (RSeq (B ")") (ROpt closing))))))).
Definition rest_of_value : re := RSeq blanks (RSeq (RGroup 6 (RSeq (RRune line2) (RStar true (RRune line2)))) (RSeq blanks (RSeq (B ")") (ROpt closing)))).
Definition shown_re (a : re) : re := RSeq (B "@") (RSeq marks (RSeq (B "(") (RSeq blanks (RSeq (ROpt (RGroup 5 a)) rest_of_value)))).
Definition assign_of (r : re) : re := match r with RSeq _ (RSeq _ (RSeq _ (RSeq _ (RSeq (RAlt (RGroup _ a) _) _)))) => a | _ => RNil end.
Definition row80 (beyond : N -> bool) : replacement := nth 80 (table beyond) no_row.
Definition row142 (beyond : N -> bool) : replacement := nth 142 (table beyond) no_row.
Definition row150 (beyond : N -> bool) : replacement := nth 150 (table beyond) no_row.
Definition short_names : list (str * nat) := [($"expr", 5); ($"reduce2", 4); ($"reduce1", 3); ($"reduce", 1)].
Definition long_names : list (str * nat) := [($"expr", 6); ($"assign", 5); ($"reduce2", 4); ($"reduce1", 3); ($"reduce", 1)].
Definition short_repl : str := $"{{${reduce1} ${expr} ${reduce2}}}".
Definition long_repl : str := $"{{${reduce1} ${assign}${expr} ${reduce2}}}".
Lemma row80_eq : forall beyond, c_re (r_re (row80 beyond)) = call_re beyond /\ c_names (r_re (row80 beyond)) = short_names /\ r_parser (row80 beyond) = Some PExprSkip /\ r_replace (row80 beyond) = short_repl.
Proof. intro beyond. vm_compute. repeat split. Qed.
Lemma row142_eq : forall beyond, c_re (r_re (row142 beyond)) = name_re beyond /\ c_names (r_re (row142 beyond)) = short_names /\ r_parser (row142 beyond) = Some PExprSkip /\ r_replace (row142 beyond) = short_repl.
Proof. intro beyond. vm_compute. repeat split. Qed.
Lemma row150_eq : forall beyond, c_re (r_re (row150 beyond)) = shown_re (assign_of (c_re (r_re (row150 beyond)))) /\ c_names (r_re (row150 beyond)) = long_names /\ r_parser (row150 beyond) = Some PExprSkip /\ r_replace (row150 beyond) = long_repl.
Proof. intro beyond. vm_compute. repeat split. Qed.

(** ** No assignment in front of an expression: there is no parenthesis after its sign *)
Definition adelta2 (q : str) (c : ascii) : list str :=
  if str_eqb q $"E" then (if is_value c then (if Ascii.eqb c ")" then [$"E"; $"N"] else [$"E"]) else [])
  else if str_eqb q $"N" then (if Ascii.eqb c "010" then [$"*"] else if Ascii.eqb c ")" then [] else [$"N"])
  else [$"*"].
Lemma assign_dead : forall beyond, dead all_bytes adelta2 [$"E"] (RSeq (RGroup 5 (assign_of (c_re (r_re (row150 beyond))))) rest_of_value) = true.
Proof. intro beyond. vm_compute. reflexivity. Qed.
Lemma any_fits : forall t, fits adelta2 $"*" t.
Proof. induction t as [|c t IH]; [exact I|]. exists $"*". split; [left; reflexivity | exact IH]. Qed.
Lemma N_fits : forall v u, ~ In ")" v -> ~ In "010" v -> ends u -> fits adelta2 $"N" (v ++ u).
Proof.
  induction v as [|c v IH]; intros u NP NN EN.
  - destruct EN as [->|(r & ->)]; [exact I|]. exists $"*". split; [left; reflexivity | apply any_fits].
  - exists $"N". split; [|apply IH; [intro; apply NP; right; assumption | intro; apply NN; right; assumption | exact EN]].
    change (In $"N" (if Ascii.eqb c "010" then [$"*"] else if Ascii.eqb c ")" then [] else [$"N"])). rewrite (proj2 (Ascii.eqb_neq c "010")), (proj2 (Ascii.eqb_neq c ")")); [left; reflexivity | intros ->; apply NP; left; reflexivity | intros ->; apply NN; left; reflexivity].
Qed.
Lemma E_fits : forall E v u, Forall value_char E -> ~ In ")" v -> ~ In "010" v -> ends u -> fits adelta2 $"E" (E ++ $")" ++ v ++ u).
Proof.
  induction E as [|c E IH]; intros v u F NP NN EN.
  - exists $"N". split; [right; left; reflexivity | exact (N_fits v u NP NN EN)].
  - inversion F as [|? ? C F']; subst. exists $"E". split; [|exact (IH v u F' NP NN EN)]. change (In $"E" (if is_value c then (if Ascii.eqb c ")" then [$"E"; $"N"] else [$"E"]) else [])). rewrite (value_iff c C). destruct (Ascii.eqb c ")"); left; reflexivity.
Qed.

(** ** Where the parts end *)
Lemma marks_lands2 : forall m c t pv k T G0, Ascii.eqb "-" c = false -> Ascii.eqb "_" c = false -> (forall pv', lands (k (pv', c :: t) (mark_groups m)) T G0) -> lands (rmatch marks (pv, mark_text m ++ c :: t) [] k) T G0.
Proof.
  intros m c t pv k T G0 D1 D2 K.
  assert (T1 : forall a b, taken (a, c :: t) (b, c :: t) = []) by (intros; exact (taken_app a b [] (c :: t))).
  assert (T2 : forall a b d, taken (a, d :: c :: t) (b, c :: t) = [d]) by (intros a b d; exact (taken_app a b [d] (c :: t))).
  assert (T3 : forall a b d e, taken (a, d :: e :: c :: t) (b, c :: t) = [d; e]) by (intros a b d e; exact (taken_app a b [d; e] (c :: t))).
  assert (T4 : forall a b d e, taken (a, d :: e :: c :: t) (b, e :: c :: t) = [d]) by (intros a b d e; exact (taken_app a b [d] (e :: c :: t))).
  unfold marks, ROpt. destruct m;
    [> change (mark_text Plain ++ c :: t) with (c :: t); destruct (K pv) as (q & Q) | change (mark_text Under ++ c :: t) with ("_" :: c :: t); destruct (K (Some "_")) as (q & Q)
     | change (mark_text Dash ++ c :: t) with ("-" :: c :: t); destruct (K (Some "-")) as (q & Q) | change (mark_text DashDash ++ c :: t) with ("-" :: "-" :: c :: t); destruct (K (Some "-")) as (q & Q)
     | change (mark_text UnderDash ++ c :: t) with ("_" :: "-" :: c :: t); destruct (K (Some "-")) as (q & Q) ]; exists q; cbn [rmatch snd];
    change (Ascii.eqb "-" "-") with true; change (Ascii.eqb "_" "_") with true; change (Ascii.eqb "-" "_") with false; cbn iota;
    rewrite ?D1, ?D2, ?T1, ?T2, ?T3, ?T4; repeat apply first_wins; exact Q.
Qed.
Lemma close_lands : forall c bad z u g p, text_behind c bad z -> ends u -> lands (rmatch (ROpt closing) (p, close_text c ++ z ++ u) g finish) (z ++ u) g.
Proof.
  intros c bad z u g p (Z & H) EN. destruct c as [b|]; cbn [close_text].
  - rewrite <- app_assoc. exists (Some ";"). apply (closing_match (place * groups) b (z ++ u) p g finish _ H). reflexivity.
  - destruct H as [H _]. cbn [app]. rewrite closing_open; [eexists; reflexivity|]. intros b r B E. apply app_split in E. destruct E as [(k & E1 & E2)|(k & E1 & E2)].
    + subst z. destruct k as [|x k]; cbn [app] in E2; [exact (ends_open u [] r EN ltac:(constructor) (eq_sym E2))|]. injection E2 as <- E3. exact (H b k B eq_refl).
    + apply (ends_open u k r EN); [|exact E2]. rewrite E1 in B. apply Forall_app in B. apply B.
Qed.
Lemma paren_missing : forall r v u, head_re r = B ")" -> ~ In ")" v -> ends u -> forall t, ~ eats (RSeq blanks r) (v ++ u) t.
Proof.
  intros r v u HR N EN t E. apply seq_inv in E. destruct E as (s1 & H1 & H2). apply star_blanks in H1. destruct H1 as (b & FB & EQ).
  apply (head_eats (Ascii.eqb ")")) in H2; [|exact HR]. destruct H2 as (c & x & -> & X). apply Ascii.eqb_eq in X. subst c.
  apply app_split in EQ. destruct EQ as [(k & E1 & E2)|(k & E1 & E2)].
  - subst v. destruct k as [|c k]; cbn [app] in E2; [|injection E2 as E3 _; subst c; apply N; apply in_or_app; right; left; reflexivity].
    destruct EN as [->|(r0 & ->)]; discriminate E2.
  - destruct EN as [->|(r0 & ->)].
    + symmetry in E2. apply app_eq_nil in E2. destruct E2 as [_ E2]. discriminate E2.
    + destruct k as [|c k]; cbn [app] in E2; [discriminate E2|]. injection E2 as E3 _. subst c. rewrite E1 in FB. apply Forall_app in FB. destruct FB as [_ FB]. inversion FB as [|? ? X]; subst. destruct X as [X|X]; discriminate X.
Qed.
Lemma paren_out : outside ")".
Proof. split; [reflexivity | intros [H|H]; discriminate H]. Qed.
(** A value up to the last parenthesis of the line *)
Lemma value_lands : forall r w v u k g T G0 pv, head_re r = B ")" -> Forall (fun c => low c = true /\ in_class line2 (N_of_ascii c) = true) w -> Forall (fun c => low c = true /\ in_class line2 (N_of_ascii c) = true) v ->
  ~ In ")" v -> ends u -> (forall p, lands (rmatch r (p, $")" ++ v ++ u) g k) T G0) ->
  lands (rmatch (RStar true (RRune line2)) (pv, w ++ $")" ++ v ++ u) g (fun p g => rmatch (RSeq blanks r) p g k)) T G0.
Proof.
  intros r w v u k g T G0 pv HR W V NP EN K. assert (EQ : $")" ++ v ++ u = ($")" ++ v) ++ u) by (rewrite <- app_assoc; reflexivity). rewrite EQ in *. cbn [rmatch snd]. apply star_back.
  - exact (ends_stops u EN).
  - change ($")" ++ v) with (")" :: v). constructor; [split; reflexivity | exact V].
  - intros x y p EXY NX. assert (NY : ~ In ")" y).
    { destruct x as [|d x]; [contradiction|]. cbn [app] in EXY. change ($")" ++ v) with (")" :: v) in EXY. injection EXY as _ EXY. intros I. apply NP. rewrite EXY. apply in_or_app. right. exact I. }
    match goal with |- ?X = None => destruct X as [z|] eqn:M; [|reflexivity] end. exfalso. change (rmatch (RSeq blanks r) (p, y ++ u) g k = Some z) in M. apply rmatch_eats in M. destruct M as (p' & g' & EA & _). cbn [snd] in EA. exact (paren_missing r y u HR NY EN _ EA).
  - intro p. change (lands (rmatch (RSeq blanks r) (p, ($")" ++ v) ++ u) g k) T G0). apply seq_lands. apply (blanks_lands []); [constructor | intros x y X; injection X as <- _; exact paren_out | exact K].
  - exact W.
  - rewrite !app_length. cbn [length]. lia.
Qed.
Lemma behind_facts : forall c bad z, text_behind c bad z -> Forall (fun c => low c = true /\ in_class line2 (N_of_ascii c) = true) (close_text c ++ z) /\ ~ In ")" (close_text c ++ z) /\ ~ In "010" (close_text c ++ z) /\ ~ In "@" (close_text c ++ z).
Proof.
  intros c bad z H. destruct (close_chars c bad z H) as [F _]. rewrite Forall_forall in F. assert (NN : ~ In "010" (close_text c ++ z)) by (intros I; apply (F _ I); cbn; tauto).
  split; [|split; [intros I; apply (F _ I); cbn; tauto | split; [exact NN | intros I; apply (F _ I); cbn; tauto]]].
  apply line_chars; [|exact NN]. destruct H as (Z & H). apply Forall_app. split.
  - destruct c as [b|]; [|constructor]. cbn [close_text]. apply Forall_app. split; [eapply Forall_impl; [|exact H]; exact blank_low | repeat constructor].
  - eapply Forall_impl; [|exact Z]. intros x [X _]. exact (ascii_low x X).
Qed.
Lemma blank_split : forall s, exists b t, s = b ++ t /\ Forall blank_char b /\ forall c r, t = c :: r -> ~ blank_char c.
Proof.
  induction s as [|c s (b & t & -> & B & N)]; [exists [], []; split; [reflexivity | split; [constructor | discriminate]]|]. destruct (is_blank c) eqn:C.
  - apply is_blank_iff in C. exists (c :: b), t. split; [reflexivity|]. split; [constructor; assumption | exact N].
  - exists [], (c :: b ++ t). split; [reflexivity|]. split; [constructor|]. intros d r E X. injection E as -> _. apply is_blank_iff in X. congruence.
Qed.
Lemma values_class : forall s, Forall value_char s -> Forall (fun c => low c = true /\ in_class line2 (N_of_ascii c) = true) s.
Proof. intros s V. destruct (values_no_at s V) as (_ & N & L). apply line_chars; assumption. Qed.

(** ** Calls *)
Lemma id_word : forall beyond c, word_char c -> low c = true /\ in_class (id_class beyond) (N_of_ascii c) = true.
Proof.
  intros beyond c W. apply is_word_iff in W. revert W. destruct c as [[] [] [] [] [] [] [] []]; vm_compute; intros; try discriminate; split; reflexivity.
Qed.
Lemma id_paren : forall beyond s, stops (id_class beyond) ("(" :: s).
Proof. intros beyond s. split; [reflexivity|]. vm_compute. reflexivity. Qed.
Definition call_match (m : mark) (f A : str) (c : option str) : str := "@" :: mark_text m ++ call_text f A ++ close_text c.
Definition call_groups (m : mark) (f A : str) : groups := (5, call_text f A) :: mark_groups m.
Lemma call_lands : forall beyond m f A c bad z u pv, function_ok f -> Forall value_char A -> text_behind c bad z -> ends u ->
  lands (match_at (call_re beyond) (pv, call_match m f A c ++ z ++ u)) (z ++ u) (call_groups m f A).
Proof.
  intros beyond m f A c bad z u pv [((fc & fr & -> & AL & W) & _) _] VA Z EN. unfold match_at. change (fun q g => Some (q, g)) with finish. unfold call_re, call_match. apply seq_lands. cbn [app]. apply byte_lands. intro p1. apply seq_lands.
  destruct (behind_facts c bad z Z) as (CZ & PZ & NZ & _). destruct (alpha_facts (fun _ => true) fc (proj2 (is_alpha_iff fc) AL)) as (_ & _ & D1 & D2).
  assert (EQ : (mark_text m ++ call_text (fc :: fr) A ++ close_text c) ++ z ++ u = mark_text m ++ fc :: (fr ++ $"(" ++ A ++ $")") ++ (close_text c ++ z ++ u)) by (unfold call_text; rewrite <- !app_assoc; reflexivity).
  refine (eq_ind_r (fun s => lands (rmatch marks (p1, s) [] _) (z ++ u) _) _ EQ). apply marks_lands2; [exact D1 | exact D2|]. intro p2. apply seq_lands.
  change (fc :: (fr ++ $"(" ++ A ++ $")") ++ close_text c ++ z ++ u) with ((call_text (fc :: fr) A) ++ close_text c ++ z ++ u).
  apply group_lands; [|intro p3; apply (close_lands c bad z u (call_groups m (fc :: fr) A) p3 Z EN)]. intros k K. apply seq_lands.
  unfold call_text. rewrite <- !app_assoc. change ((fc :: fr) ++ $"(" ++ A ++ $")" ++ close_text c ++ z ++ u) with (fc :: fr ++ "(" :: A ++ $")" ++ close_text c ++ z ++ u).
  destruct (id_word beyond fc) as [L1 I1]; [left; exact AL|]. apply plus_lands; [apply id_paren | exact L1 | exact I1 | eapply Forall_impl; [|exact W]; exact (id_word beyond)|]. intro p4.
  unfold args_re. apply seq_lands, byte_lands. intro p5. apply seq_lands. destruct (blank_split A) as (b & t & EA & FB & NB). subst A. apply Forall_app in VA. destruct VA as [_ VT]. rewrite <- app_assoc.
  apply blanks_lands; [exact FB | |].
  - intros x y X. destruct t as [|d t]; [injection X as <- _; exact paren_out|]. injection X as -> _. split; [|exact (NB x t eq_refl)]. pose proof (values_class _ VT) as Y. inversion Y as [|? ? [Y1 _] _]; subst. exact Y1.
  - intro p6. apply seq_lands. rewrite (app_assoc (close_text c)). apply value_lands; [reflexivity | exact (values_class t VT) | exact CZ | exact PZ | exact EN|]. intro p7. rewrite <- app_assoc. apply byte_lands. exact K.
Qed.

(** ** Names *)
Definition shown_match (m : mark) (b E : str) (c : option str) : str := "@" :: mark_text m ++ $"(" ++ b ++ E ++ $")" ++ close_text c.
Definition name_groups (m : mark) (E : str) : groups := (5, E) :: mark_groups m.
Lemma idc_next : forall beyond c, is_idc c = true -> low c = true /\ in_class (next_class beyond) (N_of_ascii c) = true.
Proof. intros beyond c. destruct c as [[] [] [] [] [] [] [] []]; vm_compute; intros; try discriminate; split; reflexivity. Qed.
Lemma first_in : forall beyond c, is_alpha c || Ascii.eqb c "_" = true -> low c = true /\ in_class (first_class beyond) (N_of_ascii c) = true.
Proof. intros beyond c. destruct c as [[] [] [] [] [] [] [] []]; vm_compute; intros; try discriminate; split; reflexivity. Qed.
Lemma named_lands : forall beyond m b E c bad z u pv, Forall blank_char b -> is_name E = true -> text_behind c bad z -> ends u ->
  lands (match_at (name_re beyond) (pv, shown_match m b E c ++ z ++ u)) (z ++ u) (name_groups m E).
Proof.
  intros beyond m b E c bad z u pv FB NM Z EN. destruct E as [|ec er]; [discriminate NM|]. cbn [is_name] in NM. apply andb_true_iff in NM. destruct NM as [A W]. destruct (first_in beyond ec A) as [L1 I1].
  unfold match_at. change (fun q g => Some (q, g)) with finish. unfold name_re, shown_match. apply seq_lands. cbn [app]. apply byte_lands. intro p1. apply seq_lands.
  assert (EQ : (mark_text m ++ $"(" ++ b ++ (ec :: er) ++ $")" ++ close_text c) ++ z ++ u = mark_text m ++ "(" :: b ++ (ec :: er) ++ $")" ++ close_text c ++ z ++ u) by (rewrite <- !app_assoc; reflexivity).
  refine (eq_ind_r (fun s => lands (rmatch marks (p1, s) [] _) (z ++ u) _) _ EQ). apply marks_lands2; [reflexivity | reflexivity|]. intro p2. apply seq_lands, byte_lands. intro p3. apply seq_lands.
  apply blanks_lands; [exact FB | intros x y X; injection X as <- _; split; [exact L1 | intros [->| ->]; discriminate A]|]. intro p4. apply seq_lands. apply group_lands.
  - intros k K. change ((ec :: er) ++ $")" ++ close_text c ++ z ++ u) with (ec :: er ++ $")" ++ close_text c ++ z ++ u). apply plus_lands; [split; vm_compute; reflexivity | exact L1 | exact I1 | | exact K].
    apply Forall_forall. intros x X. rewrite forallb_forall in W. exact (idc_next beyond x (W x X)).
  - intro p5. apply seq_lands. apply (blanks_lands []); [constructor | intros x y X; injection X as <- _; exact paren_out|]. intro p6. apply seq_lands, byte_lands. intro p7. apply (close_lands c bad z u (name_groups m (ec :: er)) p7 Z EN).
Qed.

(** ** Expressions *)
Definition shown_groups (m : mark) (E : str) : groups := (6, E) :: mark_groups m.
Lemma shown_lands : forall a m b E c bad z u pv, (forall v u t, ~ In ")" v -> ~ In "010" v -> ends u -> ~ eats (RSeq (RGroup 5 a) rest_of_value) (E ++ $")" ++ v ++ u) t) ->
  Forall blank_char b -> text_ok E -> text_behind c bad z -> ends u ->
  lands (match_at (shown_re a) (pv, shown_match m b E c ++ z ++ u)) (z ++ u) (shown_groups m E).
Proof.
  intros a m b E c bad z u pv HA FB T Z EN. pose proof T as (V & (ec & er & -> & NB) & _). destruct (behind_facts c bad z Z) as (CZ & PZ & NZ & _).
  pose proof (values_class _ V) as CE. inversion CE as [|? ? [L1 I1] CR]; subst.
  unfold match_at. change (fun q g => Some (q, g)) with finish. unfold shown_re, shown_match. apply seq_lands. cbn [app]. apply byte_lands. intro p1. apply seq_lands.
  assert (EQ : (mark_text m ++ $"(" ++ b ++ (ec :: er) ++ $")" ++ close_text c) ++ z ++ u = mark_text m ++ "(" :: b ++ (ec :: er) ++ $")" ++ (close_text c ++ z) ++ u) by (rewrite <- !app_assoc; reflexivity).
  refine (eq_ind_r (fun s => lands (rmatch marks (p1, s) [] _) (z ++ u) _) _ EQ). apply marks_lands2; [reflexivity | reflexivity|]. intro p2. apply seq_lands, byte_lands. intro p3. apply seq_lands.
  apply blanks_lands; [exact FB | intros x y X; injection X as <- _; split; [exact L1 | exact NB]|]. intro p4.
  assert (NONE : forall g, rmatch (RGroup 5 a) (p4, (ec :: er) ++ $")" ++ (close_text c ++ z) ++ u) g (fun p g => rmatch rest_of_value p g finish) = None).
  { intro g. match goal with |- ?X = None => destruct X as [y|] eqn:M; [|reflexivity] end. exfalso. change (rmatch (RSeq (RGroup 5 a) rest_of_value) (p4, (ec :: er) ++ $")" ++ (close_text c ++ z) ++ u) g finish = Some y) in M.
    apply rmatch_eats in M. destruct M as (p' & g' & EA & _). exact (HA _ _ _ PZ NZ EN EA). }
  assert (S : lands (rmatch rest_of_value (p4, (ec :: er) ++ $")" ++ (close_text c ++ z) ++ u) (mark_groups m) finish) (z ++ u) (shown_groups m (ec :: er))).
  { unfold rest_of_value. apply seq_lands. apply (blanks_lands []); [constructor | intros x y X; injection X as <- _; split; [exact L1 | exact NB]|]. intro p5. apply seq_lands.
    change (lands (rmatch (RSeq (RRune line2) (RStar true (RRune line2))) (p5, (ec :: er) ++ $")" ++ (close_text c ++ z) ++ u) (mark_groups m)
      (fun p' g' => rmatch (RSeq blanks (RSeq (B ")") (ROpt closing))) p' ((6, taken (p5, (ec :: er) ++ $")" ++ (close_text c ++ z) ++ u) p') :: g') finish)) (z ++ u) (shown_groups m (ec :: er))).
    apply seq_lands. apply rune_lands; [exact L1 | exact I1|]. intro p6.
    assert (EQ2 : $")" ++ (close_text c ++ z) ++ u = ($")" ++ close_text c ++ z) ++ u) by reflexivity.
    change (lands (rmatch (RStar true (RRune line2)) (p6, er ++ $")" ++ (close_text c ++ z) ++ u) (mark_groups m)
      (fun p' g' => rmatch (RSeq blanks (RSeq (B ")") (ROpt closing))) p' ((6, taken (p5, (ec :: er) ++ $")" ++ (close_text c ++ z) ++ u) p') :: g') finish)) (z ++ u) (shown_groups m (ec :: er))).
    rewrite EQ2. cbn [rmatch snd]. apply star_back.
    - exact (ends_stops u EN).
    - change ($")" ++ close_text c ++ z) with (")" :: close_text c ++ z). constructor; [split; reflexivity | exact CZ].
    - intros x y p EXY NX. assert (NY : ~ In ")" y).
      { destruct x as [|d x]; [contradiction|]. cbn [app] in EXY. change ($")" ++ close_text c ++ z) with (")" :: close_text c ++ z) in EXY. injection EXY as _ EXY. intros I. apply PZ. rewrite EXY. apply in_or_app. right. exact I. }
      match goal with |- ?X = None => destruct X as [w|] eqn:M; [|reflexivity] end. exfalso. 
      change (rmatch (RSeq blanks (RSeq (B ")") (ROpt closing))) (p, y ++ u) ((6, taken (p5, (ec :: er) ++ ($")" ++ close_text c ++ z) ++ u) (p, y ++ u)) :: mark_groups m) finish = Some w) in M.
      apply rmatch_eats in M. destruct M as (p' & g' & EA & _). cbn [snd] in EA. exact (paren_missing (RSeq (B ")") (ROpt closing)) y u eq_refl NY EN _ EA).
    - intro p. change (lands (rmatch (RSeq blanks (RSeq (B ")") (ROpt closing))) (p, ($")" ++ close_text c ++ z) ++ u) ((6, taken (p5, (ec :: er) ++ ($")" ++ close_text c ++ z) ++ u) (p, ($")" ++ close_text c ++ z) ++ u)) :: mark_groups m) finish) (z ++ u) (shown_groups m (ec :: er))).
      rewrite taken_app. apply seq_lands. apply (blanks_lands []); [constructor | intros x y X; injection X as <- _; exact paren_out|]. intro p7. apply seq_lands.
      assert (EQ3 : ($")" ++ close_text c ++ z) ++ u = ")" :: close_text c ++ z ++ u) by (change (($")" ++ close_text c ++ z) ++ u) with (")" :: (close_text c ++ z) ++ u); f_equal; symmetry; apply app_assoc).
      refine (eq_ind_r (fun s => lands (rmatch (B ")") (p7, s) _ _) (z ++ u) _) _ EQ3). apply byte_lands. intro p8. apply (close_lands c bad z u (shown_groups m (ec :: er)) p8 Z EN).
    - exact CR.
    - rewrite !app_length. cbn [length]. lia. }
  destruct S as (q & S). exists q. unfold ROpt.
  change (match rmatch (RGroup 5 a) (p4, (ec :: er) ++ $")" ++ (close_text c ++ z) ++ u) (mark_groups m) (fun p g => rmatch rest_of_value p g finish) with Some x => Some x | None => rmatch rest_of_value (p4, (ec :: er) ++ $")" ++ (close_text c ++ z) ++ u) (mark_groups m) finish end = Some ((q, z ++ u), shown_groups m (ec :: er))).
  rewrite NONE. exact S.
Qed.
