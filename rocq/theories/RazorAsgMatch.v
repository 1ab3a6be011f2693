(** The expressions of the rows of assignments, and what they match. *)
From Coq Require Import String Ascii List ZArith NArith Bool Lia ZifyBool ZifyN Permutation.
From Verif Require Import GoStr GoStrFacts Utf8 QuoteModel TemplateModel TemplateSpec TemplateProofs TextModel TextProofs3 RazorExprModel RazorExprProofs RazorWordsModel RazorWordsSpec RazorWordsProofs
  ReModel ReSyntaxModel RazorTableModel RazorAssignModel ReSound RazorRefSpec RazorRefAuto RazorRefProofs RazorRefMain RazorAsgSpec RazorAsgText RazorAsgExpr RazorAsgExpr2 RazorAsgGo RazorAsgGo2 RazorAsgVal RazorAsgVal2 RazorAsgVal3 RazorAsgWrite RazorAsgWrite2.
Import ListNotations.
Local Open Scope char_scope.

Notation lit := RazorRefMain.Lit.
Fixpoint classes (r : re) : list rclass :=
  match r with
  | RRune c => [c]
  | RSeq a b | RAlt a b => classes a ++ classes b
  | RStar _ a | RGroup _ a => classes a
  | _ => []
  end.
Definition class_at (r : re) (i : nat) : rclass := nth i (classes r) CNone.
Section Match.
Variable beyond : N -> bool.
Definition row45 : replacement := nth 45 (table beyond) no_row.
Definition row52 : replacement := nth 52 (table beyond) no_row.
Definition first1 : rclass := class_at (c_re (r_re row45)) 0.
Definition next1 : rclass := class_at (c_re (r_re row45)) 1.
Definition id2 : rclass := class_at (c_re (r_re row52)) 0.
Definition blanks : re := RStar true (RRune (COr CNone c_blank)).
Definition signs_re : re :=
  fold_left RAlt (map lit [$"~="; $"="; $"+="; $"-="; $"*="; $"/="; ["195"; "183"; "="]; $"%="; $"&="; $"|="; $"^="; $"<<="; ["194"; "171"; "="]; $">>="; ["194"; "187"; "="]; $"&^="]) (lit $":=").
Definition line2 : rclass := CNot (COr CNone (c_char 10)).
Definition rest_re (n : nat) : re :=
  RSeq blanks (RSeq (RGroup n signs_re) (RSeq blanks (RSeq (RGroup (S n) (RSeq (RRune line2) (RStar true (RRune line2)))) (ROpt closing)))).
Definition kind_re : re := RGroup 1 (RSeq (lit $"@") (ROpt (RGroup 2 (RAlt (RAlt (lit $"$") (lit $".")) (lit $"$."))))).
Definition assign1_re : re := RSeq kind_re (RSeq (RGroup 3 (RSeq (RRune first1) (RStar true (RRune next1)))) (rest_re 4)).
Definition assign2_re : re := RSeq (RGroup 1 (lit $"@{")) (RSeq (RGroup 2 (RSeq (RRune id2) (RStar true (RRune id2)))) (RSeq (lit $"}") (rest_re 3))).
Lemma row45_re : c_re (r_re row45) = assign1_re /\ c_names (r_re row45) = [($"expr", 5); ($"assign", 4); ($"id", 3); ($"type", 1)] /\ r_parser row45 = Some PAssign.
Proof. vm_compute. repeat split; reflexivity. Qed.
Lemma row52_re : c_re (r_re row52) = assign2_re /\ c_names (r_re row52) = [($"expr", 4); ($"assign", 3); ($"id", 2); ($"type", 1)] /\ r_parser row52 = Some PAssign.
Proof. vm_compute. repeat split; reflexivity. Qed.
Lemma first1_eq : first1 = fold_left COr [CTest (letter beyond); c_digit; c_char 95; c_char 43; c_char 42; c_char 37; c_char 35; c_char 33; c_char 126] CNone.
Proof. vm_compute. reflexivity. Qed.
Lemma next1_eq : next1 = fold_left COr [CTest (letter beyond); c_digit; c_char 95; c_char 43; c_char 42; c_char 37; c_char 35; c_char 33; c_char 126; c_char 46; c_char 45] CNone.
Proof. vm_compute. reflexivity. Qed.
Lemma id2_eq : id2 = fold_left COr [CTest (letter beyond); c_digit; c_char 95; c_char 46] CNone.
Proof. vm_compute. reflexivity. Qed.

(** ** Where a match ends, whatever the byte before it *)
Definition lands (x : option (place * groups)) (t : str) (g : groups) : Prop := exists pv, x = Some ((pv, t), g).
Definition finish (p : place) (g : groups) : option (place * groups) := Some (p, g).
Lemma star_lands : forall cl k g t T G0, stops cl t -> forall w pv, Forall (fun c => low c = true /\ in_class cl (N_of_ascii c) = true) w ->
  (forall pv, lands (k (pv, t) g) T G0) -> lands (rmatch (RStar true (RRune cl)) (pv, w ++ t) g k) T G0.
Proof.
  intros cl k g t T G0 ST w pv W K. destruct (K (after_text pv w)) as [q Q]. exists q. 
  change (star_loop true (fun p g k => rmatch (RRune cl) p g k) k (length (w ++ t)) (pv, w ++ t) g = Some ((q, T), G0)).
  apply (star_class _ cl k g _ t ST w); [exact W | rewrite app_length; lia | exact Q].
Qed.
Lemma rune_lands : forall cl c s k g pv T G0, low c = true -> in_class cl (N_of_ascii c) = true -> (forall pv, lands (k (pv, s) g) T G0) ->
  lands (rmatch (RRune cl) (pv, c :: s) g k) T G0.
Proof. intros cl c s k g pv T G0 L I K. rewrite rune_low by exact L. rewrite I. apply K. Qed.
Lemma plus_lands : forall c1 cl k g t T G0 c w pv, stops cl t -> low c = true -> in_class c1 (N_of_ascii c) = true ->
  Forall (fun c => low c = true /\ in_class cl (N_of_ascii c) = true) w ->
  (forall pv, lands (k (pv, t) g) T G0) -> lands (rmatch (RSeq (RRune c1) (RStar true (RRune cl))) (pv, c :: w ++ t) g k) T G0.
Proof.
  intros c1 cl k g t T G0 c w pv ST L I W K.
  change (lands (rmatch (RRune c1) (pv, c :: w ++ t) g (fun p g => rmatch (RStar true (RRune cl)) p g k)) T G0).
  apply rune_lands; [exact L | exact I|]. intro pv'. apply star_lands; [exact ST | exact W | exact K].
Qed.
Lemma group_lands : forall n r w t k g pv T G0, 
  (forall k', (forall pv', lands (k' (pv', t) g) T G0) -> lands (rmatch r (pv, w ++ t) g k') T G0) ->
  (forall pv', lands (k (pv', t) ((n, w) :: g)) T G0) -> lands (rmatch (RGroup n r) (pv, w ++ t) g k) T G0.
Proof.
  intros n r w t k g pv T G0 H K. change (lands (rmatch r (pv, w ++ t) g (fun p' g' => k p' ((n, taken (pv, w ++ t) p') :: g'))) T G0).
  apply H. intro pv'. rewrite taken_app. apply K.
Qed.
Lemma seq_lands : forall a b p g k T G0, lands (rmatch a p g (fun p g => rmatch b p g k)) T G0 -> lands (rmatch (RSeq a b) p g k) T G0.
Proof. intros a b p g k T G0 H. exact H. Qed.
Lemma blank_low : forall c, blank_char c -> low c = true.
Proof. intros c H. apply blank_facts in H. apply H. Qed.
Lemma blanks_lands : forall b t k g pv T G0, Forall blank_char b -> (forall c r, t = c :: r -> low c = true /\ ~ blank_char c) ->
  (forall pv', lands (k (pv', t) g) T G0) -> lands (rmatch blanks (pv, b ++ t) g k) T G0.
Proof.
  intros b t k g pv T G0 B ST K. unfold blanks. apply star_lands; [|eapply Forall_impl; [|exact B]; intros c; exact (blank_facts c) | exact K].
  destruct t as [|c t]; [exact I|]. destruct (ST c t eq_refl) as [L NB]. split; [exact L|]. destruct (in_class (COr CNone c_blank) (N_of_ascii c)) eqn:IC; [|reflexivity].
  exfalso. apply NB. unfold blank_char. revert IC L. clear. destruct c as [[] [] [] [] [] [] [] []]; vm_compute; intros; try discriminate; auto.
Qed.
Definition op_ok (o : assign_op) : Prop := forall op, o = Update op -> In op update_ops.
Lemma signs_lands : forall o t k g pv T G0, op_ok o -> (forall pv', lands (k (pv', t) g) T G0) -> lands (rmatch signs_re (pv, op_text o ++ t) g k) T G0.
Proof.
  intros o t k g pv T G0 O K. destruct (K (Some "=")) as [q Q]. exists q.
  destruct o as [| |op].
  - cbn. rewrite Q. reflexivity.
  - cbn. rewrite Q. reflexivity.
  - specialize (O op eq_refl). cbn in O. repeat (destruct O as [<-|O]; [cbn; rewrite Q; reflexivity|]). destruct O.
Qed.
Lemma op_head : forall o, op_ok o -> exists c r, op_text o = c :: r /\ low c = true /\ ~ blank_char c.
Proof.
  intros [| |op] O; [exists ":", $"=" | exists "=", []|]; try (repeat split; cbv; intuition discriminate).
  specialize (O op eq_refl). cbn in O. repeat (destruct O as [<-|O]; [eexists; eexists; repeat split; cbv; intuition discriminate|]). destruct O.
Qed.
Definition ends (t : str) : Prop := t = [] \/ exists r, t = "010" :: r.
Definition value_line (E : str) : Prop := lows E /\ ~ In "010" E /\ (exists c r, E = c :: r /\ ~ blank_char c).
Lemma line2_in : forall c, in_class line2 (N_of_ascii c) = negb (Ascii.eqb c "010").
Proof. destruct c as [[] [] [] [] [] [] [] []]; reflexivity. Qed.
Lemma ends_stops : forall t, ends t -> stops line2 t.
Proof. intros t [->|(r & ->)]; [exact I | split; reflexivity]. Qed.
Lemma ends_open : forall t b r, ends t -> Forall blank_char b -> t <> b ++ ";" :: r.
Proof. intros t b r [->|(s & ->)] B E; destruct b as [|c b]; try discriminate; cbn [app] in E; injection E as E _; try discriminate. subst c. inversion B as [|? ? H]; subst. cbv in H. intuition discriminate. Qed.
Lemma rest_lands : forall n b1 o b2 E t pv g, Forall blank_char b1 -> op_ok o -> Forall blank_char b2 -> value_line E -> ends t ->
  lands (rmatch (rest_re n) (pv, b1 ++ op_text o ++ b2 ++ E ++ t) g finish) t ((S n, E) :: (n, op_text o) :: g).
Proof.
  intros n b1 o b2 E t pv g B1 O B2 (L & N & (c & r & -> & NB)) EN. unfold rest_re. apply seq_lands. destruct (op_head o O) as (oc & orr & OE & OL & ONB).
  apply blanks_lands; [exact B1 | intros x y X; rewrite OE in X; injection X as <- _; split; assumption|]. intro p1. apply seq_lands.
  apply group_lands; [intros k' K'; apply signs_lands; assumption|]. intro p2. apply seq_lands. inversion L as [|? ? LC LR]; subst.
  apply blanks_lands; [exact B2 | intros x y X; injection X as <- _; split; assumption|]. intro p3. apply seq_lands.
  assert (NIN : Forall (fun d => low d = true /\ in_class line2 (N_of_ascii d) = true) r).
  { apply Forall_forall. intros d D. unfold lows in LR. rewrite Forall_forall in LR. split; [exact (LR d D)|]. rewrite line2_in. destruct (Ascii.eqb_spec d "010") as [->|_]; [|reflexivity]. exfalso. apply N. right. exact D. }
  assert (IC : in_class line2 (N_of_ascii c) = true) by (rewrite line2_in; destruct (Ascii.eqb_spec c "010") as [->|_]; [exfalso; apply N; left; reflexivity | reflexivity]).
  apply group_lands.
  - intros k' K'. apply plus_lands; [apply ends_stops; exact EN | exact LC | exact IC | exact NIN | exact K'].
  - intro p4. rewrite closing_open by (intros b s B; apply ends_open; assumption). exists p4. reflexivity.
Qed.

(** ** The target *)
Definition kind_groups (t : target) : groups :=
  match t_kind t with Global => [(1, $"@")] | Root => [(1, $"@$."); (2, $"$.")] | Context => [(1, $"@."); (2, $".")] | Local => [(1, $"@$"); (2, $"$")] | Braced => [(1, $"@{")] end.
Lemma first_wins : forall A (x z : option A) y, x = Some y -> match x with Some a => Some a | None => z end = Some y.
Proof. intros A x z y ->. reflexivity. Qed.
Lemma kind_lands : forall t c r k pv T G0, t_kind t <> Braced -> Ascii.eqb "$" c = false -> Ascii.eqb "." c = false ->
  (forall pv g r, k (pv, "." :: r) g = @None (place * groups)) -> (forall pv', lands (k (pv', c :: r) (kind_groups t)) T G0) -> lands (rmatch kind_re (pv, type_text t ++ c :: r) [] k) T G0.
Proof.
  intros t c r k pv T G0 NB D1 D2 F K. change kind_re with (RGroup 1 (RSeq (RByte (Ascii.eqb "@")) (RAlt (RGroup 2 (RAlt (RAlt (RByte (Ascii.eqb "$")) (RByte (Ascii.eqb "."))) (RSeq (RByte (Ascii.eqb "$")) (RByte (Ascii.eqb "."))))) RNil))). unfold type_text, kind_groups in *. change ($"@") with ["@"] in *. change ($"@$.") with ["@"; "$"; "."] in *. change ($"@.") with ["@"; "."] in *. change ($"@$") with ["@"; "$"] in *. change ($"$.") with ["$"; "."] in *. change ($"$") with ["$"] in *. change ($".") with ["."] in *. destruct (t_kind t); [| | | |contradiction].
  - destruct (K (Some "@")) as [q Q]. exists q. cbn [rmatch lit app snd list_ascii_of_string]. change (Ascii.eqb "@" "@") with true. cbn iota. cbn [snd]. rewrite D1, D2. cbn iota.
    pose proof (taken_app pv (Some "@") ["@"] (c :: r)) as E. cbn [app] in E. exact (eq_trans (f_equal (fun z => k (Some "@", c :: r) [(1, z)]) E) Q).
  - destruct (K (Some ".")) as [q Q]. exists q. cbn [rmatch lit app snd list_ascii_of_string]. change (Ascii.eqb "@" "@") with true. cbn iota. cbn [snd]. change (Ascii.eqb "$" "$") with true. change (Ascii.eqb "." "$") with false. cbn iota. rewrite F.
    cbn [snd]. change (Ascii.eqb "." ".") with true. cbn iota. 
    pose proof (taken_app pv (Some ".") ["@"; "$"; "."] (c :: r)) as E. cbn [app] in E. 
    pose proof (taken_app (Some "@") (Some ".") ["$"; "."] (c :: r)) as E2. cbn [app] in E2. repeat apply first_wins. exact (eq_trans (f_equal2 (fun z w => k (Some ".", c :: r) [(1, z); (2, w)]) E E2) Q).
  - destruct (K (Some ".")) as [q Q]. exists q. cbn [rmatch lit app snd list_ascii_of_string]. change (Ascii.eqb "@" "@") with true. cbn iota. cbn [snd]. change (Ascii.eqb "$" ".") with false. change (Ascii.eqb "." ".") with true. cbn iota. 
    pose proof (taken_app pv (Some ".") ["@"; "."] (c :: r)) as E. cbn [app] in E. 
    pose proof (taken_app (Some "@") (Some ".") ["."] (c :: r)) as E2. cbn [app] in E2. repeat apply first_wins. exact (eq_trans (f_equal2 (fun z w => k (Some ".", c :: r) [(1, z); (2, w)]) E E2) Q).
  - destruct (K (Some "$")) as [q Q]. exists q. cbn [rmatch lit app snd list_ascii_of_string]. change (Ascii.eqb "@" "@") with true. cbn iota. cbn [snd]. change (Ascii.eqb "$" "$") with true. cbn iota. 
    pose proof (taken_app pv (Some "$") ["@"; "$"] (c :: r)) as E. cbn [app] in E. 
    pose proof (taken_app (Some "@") (Some "$") ["$"] (c :: r)) as E2. cbn [app] in E2. repeat apply first_wins. exact (eq_trans (f_equal2 (fun z w => k (Some "$", c :: r) [(1, z); (2, w)]) E E2) Q).
Qed.

Lemma low_word : forall c, word_char c -> low c = true.
Proof. intros c W. apply is_word_iff in W. apply word_facts with (beyond := beyond) in W. apply W. Qed.
Definition id_char (c : ascii) : Prop := word_char c \/ c = ".".
Lemma dotted_chars : forall l, l <> [] -> Forall name_ok l -> exists c r, dotted l = c :: r /\ alpha c /\ Forall id_char r.
Proof.
  intros [|n l] NE F; [contradiction|]. clear NE. rewrite dotted_fields. inversion F as [|? ? (c & r & -> & A & W & _) FL]; subst. exists c, (r ++ fields l). split; [reflexivity|]. split; [exact A|].
  apply Forall_app. split; [eapply Forall_impl; [|exact W]; intros x X; left; exact X|]. clear - FL. induction FL as [|n l (c & r & -> & A & W & _) FL IH]; [constructor|].
  change (fields ((c :: r) :: l)) with ("." :: c :: (r ++ fields l)). constructor; [right; reflexivity|]. constructor; [left; left; exact A|]. apply Forall_app. split; [|exact IH].
  eapply Forall_impl; [|exact W]; intros x X; left; exact X.
Qed.
Lemma names_not_nil : forall t, names t <> [].
Proof. intros t E. unfold names in E. apply app_eq_nil in E. destruct E as [_ E]. discriminate E. Qed.
Lemma first1_alpha : forall c, alpha c -> low c = true /\ in_class first1 (N_of_ascii c) = true /\ Ascii.eqb "$" c = false /\ Ascii.eqb "." c = false.
Proof.
  intros c A. split; [apply low_word; left; exact A|]. rewrite first1_eq. revert A. unfold alpha. destruct c as [[] [] [] [] [] [] [] []]; vm_compute; intros; repeat split; try reflexivity; intuition discriminate.
Qed.
Lemma word_classes : forall c, id_char c -> low c = true /\ in_class next1 (N_of_ascii c) = true /\ in_class id2 (N_of_ascii c) = true.
Proof.
  intros c [W| ->].
  - split; [apply low_word; exact W|]. rewrite next1_eq, id2_eq. revert W. unfold word_char, alpha. destruct c as [[] [] [] [] [] [] [] []]; vm_compute; intros; repeat split; try reflexivity; intuition discriminate.
  - rewrite next1_eq, id2_eq. repeat split; reflexivity.
Qed.
Lemma next1_blank : forall c, blank_char c -> low c = true /\ in_class next1 (N_of_ascii c) = false.
Proof. intros c [->| ->]; rewrite next1_eq; split; reflexivity. Qed.
Lemma next1_stops : forall t b o s, op_ok o -> spacing_ok t b o -> t_kind t <> Braced -> stops next1 (b ++ op_text o ++ s).
Proof.
  intros t b o s O (FB & NB) NK. destruct b as [|c b].
  - specialize (NB eq_refl NK). cbn [app]. rewrite next1_eq. destruct o as [| |op]; [split; reflexivity | split; reflexivity|].
    specialize (O op eq_refl). specialize (NB op eq_refl). cbn in O. repeat (destruct O as [<-|O]; [try (exfalso; apply NB; cbn; tauto); split; reflexivity|]). destruct O.
  - inversion FB; subst. cbn [app]. apply next1_blank. assumption.
Qed.
Definition match_text (t : target) (b1 : str) (o : assign_op) (b2 E : str) : str := type_text t ++ dotted (names t) ++ (match t_kind t with Braced => $"}" | _ => [] end) ++ b1 ++ op_text o ++ b2 ++ E.
Definition id_fails_re : re := RSeq (RGroup 3 (RSeq (RRune first1) (RStar true (RRune next1)))) (rest_re 4).
Lemma id_fails : forall pv r g, rmatch id_fails_re (pv, "." :: r) g finish = None.
Proof.
  intros pv r g. unfold id_fails_re. 
  change (rmatch (RRune first1) (pv, "." :: r) g (fun p g0 => rmatch (RStar true (RRune next1)) p g0 (fun p' g' => rmatch (rest_re 4) p' ((3, taken (pv, "." :: r) p') :: g') finish)) = None).
  rewrite rune_low by reflexivity. rewrite first1_eq. reflexivity.
Qed.
Lemma assign1_lands : forall t b1 o b2 E u pv, Forall name_ok (names t) -> op_ok o -> spacing_ok t b1 o -> Forall blank_char b2 -> value_line E -> ends u -> t_kind t <> Braced ->
  lands (rmatch assign1_re (pv, match_text t b1 o b2 E ++ u) [] finish) u ((5, E) :: (4, op_text o) :: (3, dotted (names t)) :: kind_groups t).
Proof.
  intros t b1 o b2 E u pv F O SP B2 V EN NK. unfold match_text. destruct (dotted_chars _ (names_not_nil t) F) as (c & r & ED & A & W). destruct (first1_alpha c A) as (LC & IC & D1 & D2).
  replace ((type_text t ++ dotted (names t) ++ match t_kind t with Braced => $"}" | _ => [] end ++ b1 ++ op_text o ++ b2 ++ E) ++ u)
    with (type_text t ++ c :: (r ++ b1 ++ op_text o ++ b2 ++ E ++ u)) by (rewrite ED; destruct (t_kind t); try contradiction; rewrite <- !app_assoc; reflexivity).
  unfold assign1_re. change (lands (rmatch kind_re (pv, type_text t ++ c :: r ++ b1 ++ op_text o ++ b2 ++ E ++ u) [] (fun p g => rmatch id_fails_re p g finish)) u ((5, E) :: (4, op_text o) :: (3, dotted (names t)) :: kind_groups t)).
  apply kind_lands; [exact NK | exact D1 | exact D2 | intros; apply id_fails|]. intro p1. unfold id_fails_re. apply seq_lands. rewrite ED.
  change (c :: r ++ b1 ++ op_text o ++ b2 ++ E ++ u) with ((c :: r) ++ (b1 ++ op_text o ++ b2 ++ E ++ u)). apply group_lands.
  - intros k' K'. cbn [app]. apply plus_lands; [apply (next1_stops t); assumption | exact LC | exact IC | | exact K'].
    eapply Forall_impl; [|exact W]. intros d D. destruct (word_classes d D) as (X & Y & _). split; assumption.
  - intro p2. apply rest_lands; try assumption. destruct SP as [SP _]. exact SP.
Qed.
Lemma lit_lands : forall w s k pv g T G0, w <> [] -> (forall pv', lands (k (pv', s) g) T G0) -> lands (rmatch (lit w) (pv, w ++ s) g k) T G0.
Proof. intros w s k pv g T G0 NE K. rewrite (Lit_match (place * groups) w pv s g k). apply K. Qed.
Lemma assign2_lands : forall t b1 o b2 E u pv, Forall name_ok (names t) -> op_ok o -> Forall blank_char b1 -> Forall blank_char b2 -> value_line E -> ends u -> t_kind t = Braced ->
  lands (rmatch assign2_re (pv, match_text t b1 o b2 E ++ u) [] finish) u ((4, E) :: (3, op_text o) :: (2, dotted (names t)) :: kind_groups t).
Proof.
  intros t b1 o b2 E u pv F O B1 B2 V EN NK. unfold match_text. destruct (dotted_chars _ (names_not_nil t) F) as (c & r & ED & A & W).
  replace ((type_text t ++ dotted (names t) ++ match t_kind t with Braced => $"}" | _ => [] end ++ b1 ++ op_text o ++ b2 ++ E) ++ u)
    with (type_text t ++ (c :: r) ++ $"}" ++ b1 ++ op_text o ++ b2 ++ E ++ u) by (rewrite ED, NK; rewrite <- !app_assoc; reflexivity).
  assert (TT : type_text t = $"@{") by (unfold type_text; rewrite NK; reflexivity). assert (KG : kind_groups t = [(1, $"@{")]) by (unfold kind_groups; rewrite NK; reflexivity).
  rewrite TT, KG, ED. unfold assign2_re. apply seq_lands. apply group_lands; [intros k' K'; apply lit_lands; [discriminate | exact K']|]. intro p1. apply seq_lands.
  assert (CL : forall d, id_char d -> low d = true /\ in_class id2 (N_of_ascii d) = true) by (intros d D; destruct (word_classes d D) as (X & _ & Y); split; assumption).
  apply group_lands.
  - intros k' K'. cbn [app]. destruct (CL c) as [LC IC]; [left; left; exact A|]. apply plus_lands; [split; [reflexivity | rewrite id2_eq; reflexivity] | exact LC | exact IC | | exact K'].
    eapply Forall_impl; [|exact W]. exact CL.
  - intro p2. apply seq_lands. apply lit_lands; [discriminate|]. intro p3. apply rest_lands; assumption.
Qed.
(** ** The groups of the match *)
Lemma match_head : forall t b1 o b2 E, exists r, match_text t b1 o b2 E = "@" :: r.
Proof. intros t b1 o b2 E. unfold match_text, type_text. destruct (t_kind t); eexists; reflexivity. Qed.
Lemma group_at : forall c s g T q name, match_at (c_re c) (None, s) = Some ((q, T), g) -> multi_match c s name = named_group (c_names c) (taken (None, s) (q, T)) g name.
Proof. intros c s g T q name M. unfold multi_match. rewrite (search_here _ _ _ _ _ M). reflexivity. Qed.
Lemma groups1 : forall t b1 o b2 E, Forall name_ok (names t) -> op_ok o -> spacing_ok t b1 o -> Forall blank_char b2 -> value_line E -> t_kind t <> Braced ->
  let f := multi_match (r_re row45) (match_text t b1 o b2 E) in f $"type" = type_text t /\ f $"id" = dotted (names t) /\ f $"assign" = op_text o /\ f $"expr" = E.
Proof.
  intros t b1 o b2 E F O SP B2 V NK f. destruct row45_re as (RR & RN & _). destruct (assign1_lands t b1 o b2 E [] None F O SP B2 V (or_introl eq_refl) NK) as [q Q].
  rewrite app_nil_r in Q. rewrite <- RR in Q.
  assert (G0 : forall n, f n = named_group (c_names (r_re row45)) (taken (None, match_text t b1 o b2 E) (q, [])) ((5, E) :: (4, op_text o) :: (3, dotted (names t)) :: kind_groups t) n) by (intro n; exact (group_at _ _ _ _ _ n Q)).
  rewrite !G0, RN. generalize (taken (None, match_text t b1 o b2 E) (q, [])). intro whole. generalize (op_text o), (dotted (names t)), E. intros. unfold kind_groups, type_text. destruct (t_kind t); try contradiction; repeat split; reflexivity.
Qed.
Lemma groups2 : forall t b1 o b2 E, Forall name_ok (names t) -> op_ok o -> Forall blank_char b1 -> Forall blank_char b2 -> value_line E -> t_kind t = Braced ->
  let f := multi_match (r_re row52) (match_text t b1 o b2 E) in f $"type" = type_text t /\ f $"id" = dotted (names t) /\ f $"assign" = op_text o /\ f $"expr" = E.
Proof.
  intros t b1 o b2 E F O B1 B2 V NK f. destruct row52_re as (RR & RN & _). destruct (assign2_lands t b1 o b2 E [] None F O B1 B2 V (or_introl eq_refl) NK) as [q Q].
  rewrite app_nil_r in Q. rewrite <- RR in Q.
  assert (G0 : forall n, f n = named_group (c_names (r_re row52)) (taken (None, match_text t b1 o b2 E) (q, [])) ((4, E) :: (3, op_text o) :: (2, dotted (names t)) :: kind_groups t) n) by (intro n; exact (group_at _ _ _ _ _ n Q)).
  rewrite !G0, RN. generalize (taken (None, match_text t b1 o b2 E) (q, [])). intro whole. generalize (op_text o), (dotted (names t)), E. intros. unfold kind_groups, type_text. rewrite NK. repeat split; reflexivity.
Qed.
End Match.
