(** The whole table of replacements on a plain razor document. *)
From Coq Require Import String Ascii List ZArith NArith Bool Lia ZifyBool ZifyN.
From Verif Require Import GoStr GoStrFacts Utf8 Utf8Facts TemplateModel TemplateSpec TemplateProofs RazorWordsModel RazorWordsSpec LongStringProofs ReModel ReSyntaxModel RazorTableModel ReSound RazorRefSpec RazorRefAuto RazorRefProofs.
Import ListNotations.
Local Open Scope char_scope.

(** ** Words that do not cross a fixed text *)
Fixpoint suffixes (s : str) : list str := match s with [] => [] | c :: r => (c :: r) :: suffixes r end.
Definition compatible (a b : str) : bool := has_prefix a b || has_prefix b a.
Definition crossfree (w f : str) : bool :=
  negb (str_eqb w []) && forallb (fun b => negb (compatible b f)) (suffixes w) && forallb (fun t => negb (compatible w t)) (suffixes f).

Lemma suffixes_In : forall k a, k <> [] -> In k (suffixes (a ++ k)).
Proof.
  intros k a N. induction a as [|c a IH]; cbn [app].
  - destruct k; [contradiction | left; reflexivity].
  - right. exact IH.
Qed.
Lemma compatible_of : forall a b x y : str, a ++ x = b ++ y -> compatible a b = true.
Proof.
  intros a b x y H. unfold compatible. apply orb_true_iff. apply app_split in H. destruct H as [(k & -> & _)|(k & -> & _)].
  - right. apply has_prefix_app.
  - left. apply has_prefix_app.
Qed.
Lemma cross : forall w f x y, crossfree w f = true -> contains w (x ++ f ++ y) = true -> contains w x = true \/ contains w y = true.
Proof.
  intros w f x y C H. unfold crossfree in C. apply andb_true_iff in C. destruct C as [C C2]. apply andb_true_iff in C. destruct C as [C0 C1].
  rewrite forallb_forall in C1, C2. apply contains_iff in H. destruct H as (a & b & H). apply app_split in H. destruct H as [(k & X & H)|(k & A & H)].
  - apply app_split in H. destruct H as [(k' & K & H)|(k' & K & H)].
    + destruct k' as [|d k'].
      * left. rewrite app_nil_r in K. subst. apply contains_iff. exists a, []. rewrite app_nil_r. reflexivity.
      * exfalso. symmetry in H. apply compatible_of in H. specialize (C1 (d :: k')). rewrite K in C1.
        rewrite H in C1. assert (NE : d :: k' <> []) by discriminate. specialize (C1 (suffixes_In _ k NE)). discriminate C1.
    + left. subst. apply contains_iff. exists a, k'. reflexivity.
  - apply app_split in H. destruct H as [(k' & K & H)|(k' & K & H)].
    + destruct k' as [|d k'].
      * right. cbn [app] in H. apply contains_iff. exists [], b. symmetry. exact H.
      * exfalso. apply compatible_of in H. specialize (C2 (d :: k')). rewrite K in C2.
        rewrite H in C2. assert (NE : d :: k' <> []) by discriminate. specialize (C2 (suffixes_In _ k NE)). discriminate C2.
    + right. apply contains_iff. exists k', b. exact H.
Qed.

(** A word in the text after some replacements is a word of the source. *)
Lemma word_back : forall w R, (forall i, R i = source1 i \/
    forall x y, contains w (x ++ R i ++ y) = true -> contains w x = true \/ contains w (source1 i) = true \/ contains w y = true) ->
  forall l x, contains w (x ++ flat_map R l) = true -> contains w (x ++ source l) = true.
Proof.
  intros w R H. induction l as [|i l IH]; intros x C; [exact C|].
  change (flat_map R (i :: l)) with (R i ++ flat_map R l) in C. change (source (i :: l)) with (source1 i ++ source l).
  destruct (H i) as [E|E].
  - rewrite E in C. rewrite app_assoc in C. rewrite app_assoc. apply IH. exact C.
  - destruct (E _ _ C) as [A|[A|A]].
    + exact (contains_mid w [] x _ A).
    + exact (contains_mid w x _ _ A).
    + specialize (IH [] A). cbn [app] in IH. rewrite app_assoc. rewrite <- (app_nil_r (source l)). exact (contains_mid w _ _ _ IH).
Qed.

(** ** The texts between the replacements *)
Definition middle1 (i : item) : str := match i with At => AT | _ => output1 i end.
Definition middle (l : list item) : str := flat_map middle1 l.

Lemma no_word : forall s w, ~ holds s w <-> contains w s = false.
Proof. intros. symmetry. apply holds_not. Qed.

Definition pieces : list str := [$"{{ $."; $"{{- $."; $" }}"; $" -}}"].
Lemma ref_back : forall w m n k x y, forallb (crossfree w) pieces = true ->
  contains w (x ++ output1 (Ref m n k) ++ y) = true -> contains w x = true \/ contains w (source1 (Ref m n k)) = true \/ contains w y = true.
Proof.
  intros w m n k x y C H. rewrite forallb_forall in C.
  assert (N : contains w n = true -> contains w (source1 (Ref m n k)) = true).
  { intros A. destruct k as [b|]; cbn [source1].
    - rewrite app_assoc. apply contains_mid. exact A.
    - rewrite app_assoc. rewrite <- (app_nil_r n). apply contains_mid. exact A. }
  assert (D : exists p q, In p pieces /\ In q pieces /\ output1 (Ref m n k) = p ++ n ++ q).
  { destruct m; cbn [output1 trims_left trims_right].
    all: [> exists $"{{ $.", $" }}" | exists $"{{ $.", $" }}" | exists $"{{- $.", $" }}" | exists $"{{- $.", $" -}}" | exists $"{{ $.", $" -}}" ].
    all: split; [cbn; tauto | split; [cbn; tauto | reflexivity]]. }
  destruct D as (p & q & P & Q & E). rewrite E in H. rewrite <- app_assoc in H.
  destruct (cross w p x _ (C p P) H) as [A|A]; [left; exact A|]. rewrite <- app_assoc in A.
  destruct (cross w q n y (C q Q) A) as [B|B]; [right; left; exact (N B) | right; right; exact B].
Qed.

Lemma back_plain : forall w l, crossfree w AT = true -> contains w (source l) = false -> contains w (render false l) = false.
Proof.
  intros w l C H. destruct (contains w (render false l)) eqn:E; [|reflexivity]. exfalso.
  assert (B : contains w ([] ++ source l) = true); [|cbn [app] in B; congruence].
  apply (word_back w (render1 false)); [|exact E]. intros [s| |m n k]; [left; reflexivity | right | left; reflexivity].
  intros x y A. destruct (cross w AT x y C A); tauto.
Qed.
Lemma back_middle : forall w l, forallb (crossfree w) (AT :: pieces) = true -> contains w (source l) = false -> contains w (middle l) = false.
Proof.
  intros w l C H. destruct (contains w (middle l)) eqn:E; [|reflexivity]. exfalso.
  cbn [forallb] in C. apply andb_true_iff in C. destruct C as [C1 C2].
  assert (B : contains w ([] ++ source l) = true); [|cbn [app] in B; congruence].
  apply (word_back w middle1); [|exact E]. intros [s| |m n k]; [left; reflexivity | right | right].
  - intros x y A. destruct (cross w AT x y C1 A); tauto.
  - intros x y A. exact (ref_back w m n k x y C2 A).
Qed.
Lemma back_output : forall w l, forallb (crossfree w) ($"@" :: pieces) = true -> contains w (source l) = false -> contains w (output l) = false.
Proof.
  intros w l C H. destruct (contains w (output l)) eqn:E; [|reflexivity]. exfalso.
  cbn [forallb] in C. apply andb_true_iff in C. destruct C as [C1 C2].
  assert (B : contains w ([] ++ source l) = true); [|cbn [app] in B; congruence].
  apply (word_back w output1); [|exact E]. intros [s| |m n k]; [left; reflexivity | right | right].
  - intros x y A. destruct (cross w _ x y C1 A); tauto.
  - intros x y A. exact (ref_back w m n k x y C2 A).
Qed.

Lemma not_at_list : forall s, contains $"@" s = false <-> ~ In "@" s.
Proof.
  intros s. rewrite <- (contains_1_In "@" s). change $"@" with ["@"]. destruct (contains ["@"] s); split; intros H; congruence.
Qed.
Lemma name_no_at : forall n, plain_name n -> ~ In "@" n.
Proof.
  intros n ((c & r & -> & A & W) & _) [E|I].
  - subst. apply is_alpha_iff in A. discriminate A.
  - rewrite Forall_forall in W. exact (word_not_at _ (W _ I) eq_refl).
Qed.
Lemma middle_no_at : forall l, plain l -> ~ In "@" (middle l).
Proof.
  induction l as [|i l IH]; intros P I; [destruct I|]. change (middle (i :: l)) with (middle1 i ++ middle l) in I.
  apply in_app_or in I. destruct i as [s| |m n k].
  - destruct P as [N P]. destruct I as [I|I]; [exact (N I) | exact (IH P I)].
  - destruct I as [I|I]; [|exact (IH P I)]. cbn in I. repeat (destruct I as [I|I]; [discriminate I|]). destruct I.
  - assert (P' : plain_name n /\ plain l) by (destruct k; cbn in P; tauto). destruct P' as [PN P'].
    destruct I as [I|I]; [|exact (IH P' I)]. unfold middle1, output1 in I.
    apply in_app_or in I. destruct I as [I|I]; [destruct (trims_left m); cbn in I; repeat (destruct I as [I|I]; [discriminate I|]); destruct I|].
    apply in_app_or in I. destruct I as [I|I]; [cbn in I; repeat (destruct I as [I|I]; [discriminate I|]); destruct I|].
    apply in_app_or in I. destruct I as [I|I]; [exact (name_no_at n PN I)|].
    destruct (trims_right m); cbn in I; repeat (destruct I as [I|I]; [discriminate I|]); destruct I.
Qed.

(** ** Silent replacements *)
Definition idle (r : re) (s : str) : Prop := forall u t, s = u ++ t -> forall t', ~ eats r t t'.
Lemma step_idle : forall other r s, idle (c_re (r_re r)) s -> replace_step other s r = s.
Proof. intros other r s H. unfold replace_step, replace_re. rewrite replace_none; [reflexivity | exact H]. Qed.
Lemma steps_idle : forall other rs s, Forall (fun r => idle (c_re (r_re r)) s) rs -> fold_left (replace_step other) rs s = s.
Proof.
  induction rs as [|r rs IH]; intros s H; [reflexivity|]. apply Forall_cons_iff in H. destruct H as [H1 H2].
  cbn [fold_left]. rewrite step_idle by exact H1. apply IH. exact H2.
Qed.
Section Bytes.
Variable bytes : list ascii.
Variable fuel : nat.
Hypothesis bytes_all : forall c, In c bytes.
Lemma needs_idle : forall ws r s, needs bytes fuel ws [] [r] = true -> (forall w, In w ws -> contains w s = false) -> idle r s.
Proof.
  intros ws r s H W u t E t' EA.
  destruct (needs_sound bytes bytes_all _ _ _ _ H t t') as (v & w & T & I & C); [exists t'; split; [exact EA | reflexivity]|].
  cbn [app] in C. specialize (W w I). subst t s. rewrite (contains_mid w u v t' C) in W. discriminate W.
Qed.
Lemma dead_idle : forall esc l r, dead bytes (delta esc) (starts esc) r = true -> plain l -> idle r (render esc l).
Proof.
  intros esc l r H P u t E t' EA. assert (F := plain_fits esc l P). rewrite E in F.
  destruct (Bool.bool_dec esc true) as [ES|ES].
  - destruct (fit_suffix esc u t _ F) as (q & Q & FQ).
    assert (Q' : In q (starts esc)) by (rewrite ES; exact Q).
    exact (dead_sound _ bytes_all (delta esc) _ _ _ _ _ H Q' FQ EA).
  - apply Bool.not_true_is_false in ES. assert (NT : $"T" <> $"E") by discriminate.
    assert (FQ := fit_suffix_plain esc u t $"T" ES NT F).
    assert (Q' : In $"T" (starts esc)) by (rewrite ES; left; reflexivity).
    exact (dead_sound _ bytes_all (delta esc) _ _ _ _ _ H Q' FQ EA).
Qed.
Lemma needs_with_idle : forall ws r s, needs_with bytes fuel ws r = true -> (forall w, In w ws -> contains w s = false) -> idle r s.
Proof. exact needs_idle. Qed.
Lemma silent_gen : forall esc ws l r, silent_with bytes fuel esc ws r = true ->
  plain l -> (forall w, In w ws -> contains w (render esc l) = false) -> idle r (render esc l).
Proof.
  intros esc ws l r H P W. unfold silent_with in H. cbv zeta beta in H. destruct (needs bytes fuel ws [] [r]) eqn:N; [exact (needs_idle ws r _ N W) | exact (dead_idle esc l r H P)].
Qed.
End Bytes.
Lemma silent_idle : forall esc ws l r, silent esc ws r = true -> plain l -> (forall w, In w ws -> contains w (render esc l) = false) -> idle r (render esc l).
Proof. exact (silent_gen all_bytes 400 all_bytes_ok). Qed.
Lemma needy_idle : forall ws r s, needy ws r = true -> (forall w, In w ws -> contains w s = false) -> idle r s.
Proof. exact (needs_with_idle all_bytes 400 all_bytes_ok). Qed.

(** ** Literal replacements *)
Fixpoint Lit (w : str) : re := match w with [] => RNil | [c] => RByte (Ascii.eqb c) | c :: r => RSeq (RByte (Ascii.eqb c)) (Lit r) end.
Lemma Lit_eats : forall w t t', eats (Lit w) t t' -> t = w ++ t'.
Proof.
  induction w as [|c w IH]; intros t t' H; [inversion H; reflexivity|]. destruct w as [|d w].
  - inversion H as [|f x s F| | | | | | | | | | | |]; subst. apply Ascii.eqb_eq in F. subst. reflexivity.
  - inversion H as [| | |a b s s1 s2 A B| | | | | | | | | |]; subst. inversion A as [|f x s0 F| | | | | | | | | | | |]; subst.
    apply Ascii.eqb_eq in F. subst. apply IH in B. rewrite B. reflexivity.
Qed.
Lemma Lit_match : forall R w pv s g (k : place -> groups -> option R), rmatch (Lit w) (pv, w ++ s) g k = k (after_text pv w, s) g.
Proof.
  intros R. induction w as [|c w IH]; intros pv s g k; [reflexivity|]. destruct w as [|d w].
  - cbn [Lit rmatch snd app]. rewrite Ascii.eqb_refl. reflexivity.
  - change (Lit (c :: d :: w)) with (RSeq (RByte (Ascii.eqb c)) (Lit (d :: w))). cbn [rmatch snd app].
    rewrite Ascii.eqb_refl. change (d :: w ++ s) with ((d :: w) ++ s). rewrite IH. f_equal. f_equal. unfold after_text.
    change (c :: d :: w) with ([c] ++ d :: w). rewrite last_byte_app by discriminate. reflexivity.
Qed.
Lemma replace_all_at : forall w x u b, (forall k, k < length u -> has_prefix w (skipn k (u ++ w ++ b)) = false) -> w <> [] ->
  replace_all w x (u ++ w ++ b) = u ++ x ++ replace_all w x b.
Proof.
  intros w x u b H NE. induction u as [|c u IH]; [cbn [app]; apply replace_all_sep; exact NE|].
  cbn [app]. rewrite replace_all_cons; [|exact (H 0 ltac:(cbn; lia))]. f_equal. apply IH. intros k K. exact (H (S k) ltac:(cbn; lia)).
Qed.
Lemma lit_replace : forall w x f, w <> [] -> starts_low w -> (forall g, f w g = x) -> forall n s a pv, length s < n ->
  replace_matches n (Lit w) f a (pv, s) = replace_all w x s.
Proof.
  intros w x f NE LW FX. induction n as [|n IH]; intros s a pv L; [lia|]. destruct (index w s) as [i|] eqn:I.
  - apply index_Some in I. destruct I as (u & b & E & LU & N). subst s.
    rewrite (replace_skip n (Lit w) f a u w b pv (after_text (after_text pv u) w) []); [|exact NE | exact LW | |unfold match_at; rewrite Lit_match; reflexivity].
    + rewrite FX. rewrite IH; [|rewrite !app_length in L; destruct w; [contradiction | cbn in L; lia]].
      symmetry. apply replace_all_at; [|exact NE]. intros k K. apply N. lia.
    + intros v t E T t' EA. apply Lit_eats in EA. specialize (N (length v)). subst u. rewrite app_length in LU.
      assert (Q : length v < i) by (destruct t; [contradiction | cbn in LU; lia]). specialize (N Q). rewrite <- app_assoc in N.
      rewrite skipn_app in N. rewrite skipn_all, Nat.sub_diag in N. cbn [skipn app] in N. rewrite EA in N. rewrite has_prefix_app in N. discriminate N.
  - assert (C : contains w s = false) by (unfold contains; rewrite I; reflexivity). rewrite replace_all_no by exact C.
    apply replace_none. cbn [snd]. intros u t E t' EA. apply Lit_eats in EA. subst t s.
    assert (D := contains_mid w u w t'). rewrite C in D. assert (W : contains w w = true) by (apply contains_iff; exists [], []; rewrite app_nil_r; reflexivity).
    specialize (D W). discriminate D.
Qed.

Lemma skip_at : forall u x y, ~ In "@" u -> replace_all $"@@" x (u ++ y) = u ++ replace_all $"@@" x y.
Proof.
  induction u as [|c u IH]; intros x y N; [reflexivity|]. cbn [app]. rewrite replace_all_cons.
  - f_equal. apply IH. intros I. apply N. right. exact I.
  - destruct (Ascii.eqb_spec c "@") as [->|D]; [exfalso; apply N; left; reflexivity|].
    change $"@@" with ["@"; "@"]. cbn [has_prefix]. destruct (Ascii.eqb_spec "@" c); [congruence | reflexivity].
Qed.
Lemma escape_step : forall l, plain l -> replace_all $"@@" AT (source l) = render false l.
Proof.
  induction l as [|i l IH]; intros P; [reflexivity|]. destruct i as [s| |m n k].
  - destruct P as [N P]. change (source (Text s :: l)) with (s ++ source l). rewrite skip_at by exact N. rewrite (IH P). reflexivity.
  - change (source (At :: l)) with ($"@@" ++ source l). rewrite replace_all_sep by discriminate. rewrite (IH P). reflexivity.
  - assert (P' : plain_name n /\ plain l /\ match k with Some b => Forall blank_char b | None => True end) by (destruct k; cbn in P; tauto).
    destruct P' as (PN & P' & B). assert (NA := name_no_at n PN).
    assert (D : exists d v, source1 (Ref m n k) = "@" :: d :: v /\ d <> "@" /\ ~ In "@" v).
    { destruct PN as ((c & r & -> & A & W) & _). apply is_alpha_iff in A.
      assert (CA : c <> "@") by (intros ->; discriminate A).
      assert (NR : ~ In "@" r) by (intro I; apply NA; right; exact I).
      assert (NB : forall b, k = Some b -> ~ In "@" (b ++ $";")).
      { intros b E I. subst k. apply in_app_or in I. destruct I as [I|[I|[]]]; [|discriminate I]. rewrite Forall_forall in B. exact (blank_not_at _ (B _ I) eq_refl). }
      set (z := match k with Some b => b ++ $";" | None => [] end).
      assert (NZ : ~ In "@" z) by (unfold z; destruct k; [apply NB; reflexivity | intros []]).
      assert (E : source1 (Ref m (c :: r) k) = "@" :: mark_text m ++ c :: r ++ z).
      { unfold z. destruct k as [b|]; cbn [source1]; [reflexivity | rewrite app_nil_r; reflexivity]. }
      assert (NRZ : ~ In "@" (r ++ z)) by (intro I; apply in_app_or in I; tauto).
      destruct m; rewrite E.
      - exists c, (r ++ z). split; [reflexivity | split; assumption].
      - exists "_", (c :: r ++ z). split; [reflexivity | split; [discriminate | intros [I|I]; [congruence | exact (NRZ I)]]].
      - exists "-", (c :: r ++ z). split; [reflexivity | split; [discriminate | intros [I|I]; [congruence | exact (NRZ I)]]].
      - exists "-", ("-" :: c :: r ++ z). split; [reflexivity | split; [discriminate | intros [I|[I|I]]; [discriminate | congruence | exact (NRZ I)]]].
      - exists "_", ("-" :: c :: r ++ z). split; [reflexivity | split; [discriminate | intros [I|[I|I]]; [discriminate | congruence | exact (NRZ I)]]]. }
    change (source (Ref m n k :: l)) with (source1 (Ref m n k) ++ source l).
    change (render false (Ref m n k :: l)) with (source1 (Ref m n k) ++ render false l).
    destruct D as (d & v & -> & DA & NV). cbn [app]. rewrite replace_all_cons.
    + f_equal. change (d :: v ++ source l) with ((d :: v) ++ source l). rewrite skip_at; [rewrite (IH P'); reflexivity|].
      intros [I|I]; [congruence | exact (NV I)].
    + change $"@@" with ["@"; "@"]. cbn [has_prefix]. destruct (Ascii.eqb_spec "@" d); [congruence | reflexivity].
Qed.

(** The markers of escaped delimiters *)
Lemma marker_prefix : forall l k, ~ In "_" k -> ~ In "{" k -> has_prefix k (middle l) = true -> has_prefix k (source l) = true.
Proof.
  induction l as [|i l IH]; intros k N1 N2 H; [exact H|]. destruct k as [|c k]; [reflexivity|].
  change (middle (i :: l)) with (middle1 i ++ middle l) in H. change (source (i :: l)) with (source1 i ++ source l).
  destruct i as [s| |m n z].
  - cbn [middle1 output1 source1] in *. remember (c :: k) as K eqn:EK. clear EK c k. revert K N1 N2 H.
    induction s as [|d s IHs]; intros K N1 N2 H; [exact (IH K N1 N2 H)|].
    destruct K as [|c k]; [reflexivity|]. cbn [app has_prefix] in *. apply andb_true_iff in H. destruct H as [H1 H2].
    rewrite H1. cbn [andb]. apply IHs; [intro I; apply N1; right; exact I | intro I; apply N2; right; exact I | exact H2].
  - exfalso. change (middle1 At ++ middle l) with ("_" :: $"=!AT!=_" ++ middle l) in H. cbn [has_prefix] in H. apply andb_true_iff in H. destruct H as [H _].
    apply Ascii.eqb_eq in H. apply N1. left. exact H.
  - exfalso. assert (Q : exists t, middle1 (Ref m n z) = "{" :: t) by (destruct m; eexists; reflexivity). destruct Q as [t Q]. rewrite Q in H.
    cbn [app has_prefix] in H. apply andb_true_iff in H. destruct H as [H _]. apply Ascii.eqb_eq in H. apply N2. left. exact H.
Qed.
Lemma has_prefix_part : forall a b s, has_prefix (a ++ b) s = true -> has_prefix a s = true.
Proof. intros a b s H. apply has_prefix_iff in H. destruct H as [t ->]. rewrite <- app_assoc. apply has_prefix_app. Qed.

Lemma restore_step : forall l, plain l -> contains $"=!AT!=" (source l) = false -> replace_all AT $"@" (middle l) = output l.
Proof.
  induction l as [|i l IH]; intros P C; [reflexivity|].
  change (source (i :: l)) with (source1 i ++ source l) in C.
  assert (CL : contains $"=!AT!=" (source l) = false).
  { destruct (contains $"=!AT!=" (source l)) eqn:E; [|reflexivity]. assert (D := contains_mid $"=!AT!=" (source1 i) (source l) [] E). rewrite app_nil_r in D. congruence. }
  change (middle (i :: l)) with (middle1 i ++ middle l). change (output (i :: l)) with (output1 i ++ output l).
  destruct i as [s| |m n k].
  - destruct P as [_ P]. cbn [middle1 output1 source1] in *. induction s as [|c s IHs]; [exact (IH P CL)|].
    cbn [app] in *. rewrite replace_all_cons.
    + f_equal. apply IHs. destruct (contains $"=!AT!=" (s ++ source l)) eqn:E; [|reflexivity].
      assert (D := contains_mid $"=!AT!=" [c] _ [] E). rewrite app_nil_r in D. cbn [app] in D. congruence.
    + destruct (has_prefix AT (c :: s ++ middle l)) eqn:E; [|reflexivity]. exfalso.
      change AT with ("_" :: $"=!AT!=" ++ $"_") in E. cbn [has_prefix] in E. apply andb_true_iff in E. destruct E as [_ E].
      apply has_prefix_part in E. change (s ++ middle l) with (middle (Text s :: l)) in E.
      apply marker_prefix in E; [|intro I; cbn in I; repeat (destruct I as [I|I]; [discriminate I|]); destruct I ..].
      change (source (Text s :: l)) with (s ++ source l) in E. apply has_prefix_iff in E. destruct E as [t E]. rewrite E in C.
      assert (D : contains $"=!AT!=" (c :: $"=!AT!=" ++ t) = true) by (apply contains_iff; exists [c], t; reflexivity). congruence.
  - cbn [middle1 output1]. rewrite replace_all_sep by discriminate. rewrite (IH P CL). reflexivity.
  - assert (P' : plain_name n /\ plain l) by (destruct k; cbn in P; tauto). destruct P' as [PN P'].
    change (middle1 (Ref m n k)) with (output1 (Ref m n k)).
    rewrite replace_opaque; [rewrite (IH P' CL); reflexivity | discriminate | |].
    + cbn [output1]. destruct (trims_right m).
      * exists ((if trims_left m then $"{{- " else $"{{ ") ++ $"$." ++ n ++ $" -}"), "}". split; [rewrite <- !app_assoc; reflexivity|].
        intro I; cbn in I; repeat (destruct I as [I|I]; [discriminate I|]); destruct I.
      * exists ((if trims_left m then $"{{- " else $"{{ ") ++ $"$." ++ n ++ $" }"), "}". split; [rewrite <- !app_assoc; reflexivity|].
        intro I; cbn in I; repeat (destruct I as [I|I]; [discriminate I|]); destruct I.
    + intros (a & b & E). assert (I : In "=" (output1 (Ref m n k))) by (rewrite E; apply in_or_app; right; right; left; reflexivity).
      cbn [output1] in I. apply in_app_or in I. destruct I as [I|I]; [destruct (trims_left m); cbn in I; repeat (destruct I as [I|I]; [discriminate I|]); destruct I|].
      apply in_app_or in I. destruct I as [I|I]; [cbn in I; repeat (destruct I as [I|I]; [discriminate I|]); destruct I|].
      apply in_app_or in I. destruct I as [I|I]; [|destruct (trims_right m); cbn in I; repeat (destruct I as [I|I]; [discriminate I|]); destruct I].
      destruct PN as ((c & r & -> & A & W) & _). destruct I as [->|I].
      * apply is_alpha_iff in A. discriminate A.
      * rewrite Forall_forall in W. specialize (W _ I). apply is_word_iff in W. discriminate W.
Qed.

(** ** The replacement of references *)
Section Global.
Variable beyond : N -> bool.
Definition first_class : rclass := COr (COr CNone (CTest (letter beyond))) (c_char 95).
Definition next_class : rclass := COr (COr (COr (COr CNone (CTest (letter beyond))) c_digit) (c_char 95)) (c_char 46).
Definition closing : re := RSeq (RStar true (RRune (COr CNone c_blank))) (RByte (Ascii.eqb ";")).
Definition marks : re :=
  RGroup 1 (RSeq (ROpt (RGroup 2 (RAlt (RGroup 3 (RByte (Ascii.eqb "-"))) (RByte (Ascii.eqb "_"))))) (RGroup 4 (ROpt (RByte (Ascii.eqb "-"))))).
Definition naming : re := RGroup 5 (RSeq (RRune first_class) (RStar true (RRune next_class))).
Definition global_re : re := RSeq (RByte (Ascii.eqb "@")) (RSeq marks (RSeq naming (ROpt closing))).

Lemma taken_app : forall a b (u v : str), taken (a, u ++ v) (b, v) = u.
Proof. intros. unfold taken. cbn [snd]. rewrite app_length. replace (length u + length v - length v) with (length u) by lia. apply firstn_app_exact. Qed.
Lemma rune_low : forall R c cl pv s g (k : place -> groups -> option R), low c = true ->
  rmatch (RRune cl) (pv, c :: s) g k = if in_class cl (N_of_ascii c) then k (Some c, s) g else None.
Proof. intros R c cl pv s g k L. cbn [rmatch snd]. rewrite decode_low by exact L. reflexivity. Qed.
Lemma after_cons : forall pv c s, after_text (Some c) s = after_text pv (c :: s).
Proof.
  intros pv c [|d s]; [reflexivity|]. unfold after_text. change (c :: d :: s) with ([c] ++ d :: s). rewrite last_byte_app by discriminate. reflexivity.
Qed.

Definition stops (cl : rclass) (t : str) : Prop := match t with [] => True | c :: _ => low c = true /\ in_class cl (N_of_ascii c) = false end.
Lemma star_class : forall R cl (k : place -> groups -> option R) g x t, stops cl t -> forall w n pv, Forall (fun c => low c = true /\ in_class cl (N_of_ascii c) = true) w ->
  length w <= n -> k (after_text pv w, t) g = Some x -> star_loop true (fun p g k => rmatch (RRune cl) p g k) k n (pv, w ++ t) g = Some x.
Proof.
  intros R cl k g x t ST. induction w as [|c w IH]; intros n pv W L K.
  - cbn [app]. destruct n as [|n]; [exact K|]. cbn [star_loop]. destruct t as [|c t].
    + exact K.
    + destruct ST as [LC IC]. rewrite rune_low by exact LC. rewrite IC. exact K.
  - destruct n as [|n]; [cbn in L; lia|]. apply Forall_cons_iff in W. destruct W as [[LC IC] W]. cbn [star_loop app].
    rewrite rune_low by exact LC. rewrite IC. cbn [snd length]. destruct (Nat.ltb_spec (length (w ++ t)) (S (length (w ++ t)))) as [_|B]; [|lia].
    rewrite IH; [reflexivity | exact W | cbn in L; lia |]. rewrite (after_cons pv). exact K.
Qed.

Lemma word_facts : forall c, is_word c = true -> low c = true /\ in_class next_class (N_of_ascii c) = true.
Proof.
  intros c H. destruct (ascii_dec c "_") as [E|N]; [subst c; split; reflexivity|].
  unfold is_word, is_alpha, between in H. apply Ascii.eqb_neq in N. rewrite N in H.
  unfold low, next_class, CNone, c_digit, c_char. cbn [in_class]. unfold letter, between.
  assert (LT : (N_of_ascii c <? 128)%N = true) by lia. rewrite LT. lia.
Qed.
Lemma alpha_facts : forall c, is_alpha c = true -> low c = true /\ in_class first_class (N_of_ascii c) = true /\ Ascii.eqb "-" c = false /\ Ascii.eqb "_" c = false.
Proof.
  intros c H. assert (D : Ascii.eqb "-" c = false /\ Ascii.eqb "_" c = false).
  { split; destruct (Ascii.eqb_spec "-" c), (Ascii.eqb_spec "_" c); subst; try reflexivity; discriminate H. }
  unfold is_alpha, between in H. unfold low, first_class, CNone, c_char. cbn [in_class]. unfold letter, between. destruct D as [-> ->].
  assert (LT : (N_of_ascii c <? 128)%N = true) by lia. rewrite LT. lia.
Qed.

Lemma naming_match : forall R c r t pv g (k : place -> groups -> option R) x, is_alpha c = true -> Forall word_char r -> stops next_class t ->
  k (after_text (Some c) r, t) ((5, c :: r) :: g) = Some x -> rmatch naming (pv, (c :: r) ++ t) g k = Some x.
Proof.
  intros R c r t pv g k x A W ST K. destruct (alpha_facts c A) as (LC & IC & _). unfold naming.
  change (rmatch (RRune first_class) (pv, c :: r ++ t) g (fun p1 g1 => star_loop true (fun p g k => rmatch (RRune next_class) p g k)
    (fun p' g' => k p' ((5, taken (pv, (c :: r) ++ t) p') :: g')) (length (snd p1)) p1 g1) = Some x).
  rewrite rune_low by exact LC. rewrite IC. apply star_class; [exact ST | | cbn [snd]; rewrite app_length; lia |].
  - apply Forall_forall. intros d I. rewrite Forall_forall in W. apply word_facts. apply is_word_iff. exact (W d I).
  - rewrite taken_app. exact K.
Qed.
Lemma blank_facts : forall c, blank_char c -> low c = true /\ in_class (COr CNone c_blank) (N_of_ascii c) = true.
Proof. intros c [->| ->]; split; reflexivity. Qed.
Lemma closing_match : forall R b t pv g (k : place -> groups -> option R) x, Forall blank_char b ->
  k (Some ";", t) g = Some x -> rmatch (ROpt closing) (pv, b ++ $";" ++ t) g k = Some x.
Proof.
  intros R b t pv g k x B K. unfold ROpt. 
  change (match rmatch closing (pv, b ++ $";" ++ t) g k with Some x => Some x | None => k (pv, b ++ $";" ++ t) g end = Some x).
  assert (E : rmatch closing (pv, b ++ $";" ++ t) g k = Some x); [|rewrite E; reflexivity].
  unfold closing. change (star_loop true (fun p g k => rmatch (RRune (COr CNone c_blank)) p g k) (fun p g => rmatch (RByte (Ascii.eqb ";")) p g k)
    (length (b ++ $";" ++ t)) (pv, b ++ $";" ++ t) g = Some x).
  apply star_class; [split; reflexivity | | rewrite app_length; lia | exact K].
  apply Forall_forall. intros d I. rewrite Forall_forall in B. apply blank_facts. exact (B d I).
Qed.
Lemma star_blanks : forall s t, eats (RStar true (RRune (COr CNone c_blank))) s t -> exists b, Forall blank_char b /\ s = b ++ t.
Proof.
  intros s t H. remember (RStar true (RRune (COr CNone c_blank))) as r eqn:E. induction H; try discriminate E.
  - exists []. split; [constructor | reflexivity].
  - inversion E as [[EG EA]]. subst g a. destruct (IHeats2 eq_refl) as (b & B & SE). clear IHeats1 IHeats2 H0 E.
    assert (Q : s <> [] /\ in_class (COr CNone c_blank) (fst (decode s)) = true /\ s1 = skipn (snd (decode s)) s) by (inversion H; auto).
    destruct Q as (NE & IC & E2). rewrite E2 in SE. clear E2 H s1.
    destruct s as [|c s]; [contradiction|]. destruct (low c) eqn:L.
    + rewrite decode_low in * by exact L. cbn [fst snd skipn] in *. exists (c :: b). split; [|rewrite SE; reflexivity].
      constructor; [|exact B]. cbn [in_class CNone c_blank c_char] in IC. unfold blank_char.
      destruct (ascii_dec c " ") as [|N1]; [left; assumption|]. destruct (ascii_dec c "009") as [|N2]; [right; assumption|]. exfalso.
      assert (Q : N_of_ascii c = 32%N \/ N_of_ascii c = 9%N) by lia.
      destruct Q as [Q|Q]; apply (f_equal ascii_of_N) in Q; rewrite ascii_N_embedding in Q; [exact (N1 Q) | exact (N2 Q)].
    + exfalso. assert (D := decode_high_rune all_bytes all_bytes_ok (delta true) c s L). cbn [in_class CNone c_blank c_char] in IC. lia.
Qed.
Lemma closing_open : forall R t pv g (k : place -> groups -> option R), (forall b r, Forall blank_char b -> t <> b ++ ";" :: r) ->
  rmatch (ROpt closing) (pv, t) g k = k (pv, t) g.
Proof.
  intros R t pv g k N. unfold ROpt.
  change (match rmatch closing (pv, t) g k with Some x => Some x | None => k (pv, t) g end = k (pv, t) g).
  destruct (rmatch closing (pv, t) g k) as [x|] eqn:M; [|reflexivity]. exfalso. apply rmatch_eats in M. destruct M as (p' & g' & EA & _).
  unfold closing in EA. inversion EA as [| | |a b s s1 s2 A B| | | | | | | | | |]; subst. apply star_blanks in A. destruct A as (b & FB & E).
  inversion B as [|f c s F| | | | | | | | | | | |]; subst. apply Ascii.eqb_eq in F. subst c. cbn [snd] in E. exact (N b _ FB E).
Qed.

Definition mark_groups (m : mark) : groups :=
  match m with
  | Plain => [(1, []); (4, [])]
  | Under => [(1, $"_"); (4, []); (2, $"_")]
  | Dash => [(1, $"-"); (4, []); (2, $"-"); (3, $"-")]
  | DashDash => [(1, $"--"); (4, $"-"); (2, $"-"); (3, $"-")]
  | UnderDash => [(1, $"_-"); (4, $"-"); (2, $"_")]
  end.
Lemma marks_match : forall R m c t pv (k : place -> groups -> option R) x, is_alpha c = true ->
  (forall pv', k (pv', c :: t) (mark_groups m) = Some x) -> rmatch marks (pv, mark_text m ++ c :: t) [] k = Some x.
Proof.
  intros R m c t pv k x A K. destruct (alpha_facts c A) as (_ & _ & D1 & D2).
  assert (T1 : forall a b, taken (a, c :: t) (b, c :: t) = []) by (intros; exact (taken_app a b [] (c :: t))).
  assert (T2 : forall a b d, taken (a, d :: c :: t) (b, c :: t) = [d]) by (intros a b d; exact (taken_app a b [d] (c :: t))).
  assert (T3 : forall a b d e, taken (a, d :: e :: c :: t) (b, c :: t) = [d; e]) by (intros a b d e; exact (taken_app a b [d; e] (c :: t))).
  assert (T4 : forall a b d e, taken (a, d :: e :: c :: t) (b, e :: c :: t) = [d]) by (intros a b d e; exact (taken_app a b [d] (e :: c :: t))).
  unfold marks, ROpt. destruct m;
    [> change (mark_text Plain ++ c :: t) with (c :: t) | change (mark_text Under ++ c :: t) with ("_" :: c :: t)
     | change (mark_text Dash ++ c :: t) with ("-" :: c :: t) | change (mark_text DashDash ++ c :: t) with ("-" :: "-" :: c :: t)
     | change (mark_text UnderDash ++ c :: t) with ("_" :: "-" :: c :: t) ]; cbn [rmatch snd];
    change (Ascii.eqb "-" "-") with true; change (Ascii.eqb "_" "_") with true; change (Ascii.eqb "-" "_") with false; cbn iota;
    rewrite ?D1, ?D2, ?T1, ?T2, ?T3, ?T4; cbn [mark_groups] in K; rewrite K; reflexivity.
Qed.

Definition global_repl : str := $"{{${reduce1} $$.${name} ${reduce2}}}".
Definition global_names : list (str * nat) := [($"name", 5); ($"reduce2", 4); ($"reduce1", 3); ($"reduce", 1)].
Lemma global_output : forall m n k whole, expand (named_group global_names whole ((5, n) :: mark_groups m)) global_repl = output1 (Ref m n k).
Proof.
  intros m n k whole. unfold expand. set (G := named_group global_names whole ((5, n) :: mark_groups m)).
  change (expand_go (length global_repl) G global_repl) with ($"{{" ++ G $"reduce1" ++ $" $." ++ G $"name" ++ $" " ++ G $"reduce2" ++ $"}}").
  destruct m; reflexivity.
Qed.

Lemma global_match : forall m n z t pv, plain_name n -> stops next_class (z ++ t) ->
  (z = [] /\ (forall b r, Forall blank_char b -> t <> b ++ ";" :: r) \/ exists b, z = b ++ $";" /\ Forall blank_char b) ->
  exists pv', match_at global_re (pv, ($"@" ++ mark_text m ++ n ++ z) ++ t) = Some ((pv', t), (5, n) :: mark_groups m).
Proof.
  intros m n z t pv ((c & r & -> & A & W) & _) ST Z. apply is_alpha_iff in A.
  assert (Q : exists pv', forall pvx, rmatch (RSeq naming (ROpt closing)) (pvx, (c :: r) ++ z ++ t) (mark_groups m) (fun q g => Some (q, g)) = Some ((pv', t), (5, c :: r) :: mark_groups m)).
  { destruct Z as [[-> N]|(b & -> & B)].
    - exists (after_text (Some c) r). intros pvx. cbn [app] in ST. change (rmatch naming (pvx, (c :: r) ++ t) (mark_groups m) (fun p g => rmatch (ROpt closing) p g (fun q g => Some (q, g))) = Some (after_text (Some c) r, t, (5, c :: r) :: mark_groups m)).
      apply naming_match; [exact A | exact W | exact ST |]. rewrite closing_open by exact N. reflexivity.
    - exists (Some ";"). intros pvx. change (rmatch naming (pvx, (c :: r) ++ (b ++ $";") ++ t) (mark_groups m) (fun p g => rmatch (ROpt closing) p g (fun q g => Some (q, g))) = Some (Some ";", t, (5, c :: r) :: mark_groups m)).
      apply naming_match; [exact A | exact W | exact ST |]. rewrite <- app_assoc. apply closing_match; [exact B | reflexivity]. }
  destruct Q as [pv' Q]. exists pv'. rewrite <- !app_assoc. unfold match_at, global_re.
  change (rmatch marks (Some "@", mark_text m ++ (c :: r) ++ z ++ t) [] (fun p g => rmatch (RSeq naming (ROpt closing)) p g (fun q g => Some (q, g))) = Some ((pv', t), (5, c :: r) :: mark_groups m)).
  apply marks_match; [exact A|]. intros pvx. exact (Q pvx).
Qed.

Lemma global_at : forall s t, eats global_re s t -> exists r, s = "@" :: r.
Proof.
  intros s t H. unfold global_re in H. inversion H as [| | |a b s0 s1 s2 A B| | | | | | | | | |]; subst.
  inversion A as [|f c s0 F| | | | | | | | | | | |]; subst. apply Ascii.eqb_eq in F. subst. eexists; reflexivity.
Qed.

Lemma calm_tail_head : forall sp c t, calm_tail sp (c :: t) -> c <> ";" /\ ~ blank_char c.
Proof.
  intros sp c t H. inversion H as [|c0 t0 A1 A2 A3 A4 A5 A6 E|c0 t0 A1 A2 E|c0 t0 A1 A2 A3 E|t0 A1 E]; subst.
  - split; [intros ->; apply A4; right; left; reflexivity | exact A2].
  - split; [intros -> | intros [->| ->]]; destruct A1 as [O|[_ O]]; repeat (destruct O as [O|O]; [discriminate O|]); destruct O.
  - split; [intros -> | intros [->| ->]]; apply A2; reflexivity.
  - split; [discriminate | intros [B|B]; discriminate B].
Qed.
Lemma open_tail : forall l, plain l -> calm (source l) -> forall b r, Forall blank_char b -> render false l <> b ++ ";" :: r.
Proof.
  intros l P (g & bl & t & E & GG & B & T) b r FB H.
  assert (NS : forall b r, Forall blank_char b -> source l <> b ++ ";" :: r).
  { intros b' r' FB' H'. rewrite E in H'. destruct GG as [->|(c & g' & -> & GC & _)].
    - cbn [app] in H'. apply app_split in H'. destruct H' as [(k & K1 & K2)|(k & K1 & K2)].
      + assert (I : k = [] \/ exists k', k = ";" :: k') by (destruct k as [|d k]; [left; reflexivity | right; inversion K2; eexists; reflexivity]).
        destruct I as [->|(k' & ->)].
        * cbn [app] in K2. subst t. apply calm_tail_head in T. destruct T as [T _]. apply T. reflexivity.
        * rewrite K1 in B. apply Forall_app in B. destruct B as [_ B]. apply Forall_cons_iff in B. destruct B as [[B|B] _]; discriminate B.
      + destruct k as [|d k].
        * cbn [app] in K2. subst t. apply calm_tail_head in T. destruct T as [T _]. apply T. reflexivity.
        * rewrite K1 in FB'. apply Forall_app in FB'. destruct FB' as [_ D]. apply Forall_cons_iff in D. destruct D as [D _]. subst t. cbn [app] in T.
          apply calm_tail_head in T. destruct T as [_ T]. exact (T D).
    - destruct b' as [|d b']; cbn [app] in H'; inversion H'; subst.
      + repeat (destruct GC as [GC|GC]; [discriminate GC|]). destruct GC.
      + apply Forall_cons_iff in FB'. destruct FB' as [[->| ->] _]; repeat (destruct GC as [GC|GC]; [discriminate GC|]); destruct GC. }
  destruct (split_at false l P) as (x & l' & S1 & R1 & N & P' & HD & _). rewrite R1 in H. rewrite S1 in NS.
  replace (b ++ ";" :: r) with ((b ++ $";") ++ r) in H by (rewrite <- app_assoc; reflexivity). apply app_split in H. destruct H as [(k & K1 & K2)|(k & K1 & K2)].
  - apply (NS b (k ++ source l') FB). rewrite K1. rewrite <- !app_assoc. reflexivity.
  - destruct k as [|d k].
    + rewrite app_nil_r in K1. apply (NS b (source l') FB). rewrite <- K1, <- app_assoc. reflexivity.
    + assert (DB : d = "@" \/ d = "_").
      { destruct l' as [|i l']; [discriminate K2|]. destruct i as [s| |m n [z|]]; [destruct HD|..]; cbn in K2; inversion K2; tauto. }
      assert (I : In d (b ++ $";")) by (rewrite K1; apply in_or_app; right; left; reflexivity).
      apply in_app_or in I. destruct I as [I|[I|[]]]; [|subst d; destruct DB; discriminate].
      rewrite Forall_forall in FB. destruct (FB d I) as [->| ->]; destruct DB; discriminate.
Qed.
Lemma open_stops : forall l, plain l -> calm (source l) -> stops next_class (render false l).
Proof.
  intros l P C. assert (L := calm_leaves false l P C (fun l' P' _ => plain_fits false l' P')). destruct (render false l) as [|c t]; [exact I|].
  destruct L as (W & q & Q & _). unfold exits in Q. unfold stops.
  assert (NW : low c = true /\ c <> ".").
  { destruct (is_glue c) eqn:E1; [apply one_of_In in E1; repeat (destruct E1 as [<-|E1]; [split; [reflexivity | discriminate]|]); destruct E1|].
    destruct (is_blank c) eqn:E2; [apply is_blank_iff in E2; destruct E2 as [->| ->]; split; [reflexivity | discriminate | reflexivity | discriminate]|].
    destruct (Ascii.eqb_spec c "@") as [->|]; [split; [reflexivity | discriminate]|].
    destruct (Ascii.eqb_spec c ";") as [->|]; [split; [reflexivity | discriminate]|].
    destruct (is_op c) eqn:E3; [apply one_of_In in E3; repeat (destruct E3 as [<-|E3]; [split; [reflexivity | discriminate]|]); destruct E3|].
    destruct (low c && negb (is_word c) && negb (one_of ["="; "("; "["; "."] c)) eqn:E4; [|destruct Q].
    apply andb_true_iff in E4. destruct E4 as [E4 E5]. apply andb_true_iff in E4. split; [tauto|]. intros ->. discriminate E5. }
  destruct NW as [LC ND]. split; [exact LC|]. unfold is_word, is_alpha, between in W.
  assert (N1 : N_of_ascii c <> 95%N) by (intro Q1; apply (f_equal ascii_of_N) in Q1; rewrite ascii_N_embedding in Q1; change (ascii_of_N 95) with "_" in Q1; subst c; discriminate W).
  assert (N2 : N_of_ascii c <> 46%N) by (intro Q1; apply (f_equal ascii_of_N) in Q1; rewrite ascii_N_embedding in Q1; exact (ND Q1)).
  unfold low in LC. unfold next_class, CNone, c_digit, c_char. cbn [in_class]. unfold letter, between.
  assert (LT : (N_of_ascii c <? 128)%N = true) by lia. rewrite LT. lia.
Qed.

Lemma next_ref : forall l, plain l -> exists x, ~ In "@" x /\
  (render false l = x /\ middle l = x \/
   exists m n k l', plain (Ref m n k :: l') /\ render false l = x ++ source1 (Ref m n k) ++ render false l' /\ middle l = x ++ output1 (Ref m n k) ++ middle l').
Proof.
  induction l as [|i l IH]; intros P; [exists []; split; [intros [] | left; split; reflexivity]|].
  assert (EXT : forall y, ~ In "@" y -> plain l -> render1 false i = y -> middle1 i = y -> exists x, ~ In "@" x /\
  (render false (i :: l) = x /\ middle (i :: l) = x \/
   exists m n k l', plain (Ref m n k :: l') /\ render false (i :: l) = x ++ source1 (Ref m n k) ++ render false l' /\ middle (i :: l) = x ++ output1 (Ref m n k) ++ middle l')).
  { intros y NY P' E1 E2. destruct (IH P') as (x & NX & D). exists (y ++ x). split; [intro I; apply in_app_or in I; tauto|].
    change (render false (i :: l)) with (render1 false i ++ render false l). change (middle (i :: l)) with (middle1 i ++ middle l). rewrite E1, E2.
    destruct D as [[-> ->]|(m & n & k & l' & PL & -> & ->)]; [left; split; reflexivity | right].
    exists m, n, k, l'. split; [exact PL | rewrite <- !app_assoc; split; reflexivity]. }
  destruct i as [s| |m n k].
  - destruct P as [N P]. exact (EXT s N P eq_refl eq_refl).
  - apply (EXT AT); [|exact P | reflexivity | reflexivity]. intro I; cbn in I; repeat (destruct I as [I|I]; [discriminate I|]); destruct I.
  - exists []. split; [intros []|]. right. exists m, n, k, l. split; [exact P | split; reflexivity].
Qed.

Lemma global_step : forall f, (forall whole m n k, f whole ((5, n) :: mark_groups m) = output1 (Ref m n k)) ->
  forall fuel l a pv, plain l -> length (render false l) < fuel -> replace_matches fuel global_re f a (pv, render false l) = middle l.
Proof.
  intros f F. induction fuel as [|fuel IH]; intros l a pv P L; [lia|].
  destruct (next_ref l P) as (x & NX & [[E1 E2]|(m & n & k & l' & PL & E1 & E2)]).
  - rewrite E2. rewrite E1. apply replace_none. cbn [snd]. intros u t E t' EA. apply global_at in EA. destruct EA as [r ->].
    apply NX. rewrite E. apply in_or_app. right. left. reflexivity.
  - rewrite E1, E2. assert (PN : plain_name n /\ plain l') by (destruct k; cbn in PL; tauto). destruct PN as [PN P'].
    set (z := match k with Some b => b ++ $";" | None => [] end).
    assert (ES : source1 (Ref m n k) = $"@" ++ mark_text m ++ n ++ z).
    { unfold z. destruct k as [b|]; cbn [source1]; [reflexivity | rewrite app_nil_r; reflexivity]. }
    destruct (global_match m n z (render false l') (after_text pv x) PN) as [pv' M].
    + unfold z. destruct k as [b|].
      * cbn in PL. destruct PL as (_ & B & _). destruct b as [|c b]; [split; reflexivity|]. apply Forall_cons_iff in B. destruct B as [[->| ->] _]; split; reflexivity.
      * cbn in PL. destruct PL as (_ & C & _). exact (open_stops l' P' C).
    + unfold z. destruct k as [b|].
      * right. exists b. cbn in PL. split; [reflexivity | tauto].
      * left. split; [reflexivity|]. cbn in PL. destruct PL as (_ & C & _). exact (open_tail l' P' C).
    + rewrite <- ES in M.
      assert (N1 : source1 (Ref m n k) <> []) by (rewrite ES; discriminate).
      assert (N2 : starts_low (source1 (Ref m n k))) by (rewrite ES; reflexivity).
      assert (N3 : forall v w, x = v ++ w -> w <> [] -> forall t', ~ eats global_re (w ++ source1 (Ref m n k) ++ render false l') t').
      { intros v w E W t' EA. apply global_at in EA. destruct EA as [r EA]. destruct w as [|c w]; [contradiction|]. cbn [app] in EA.
        assert (EC : c = "@") by congruence. apply NX. rewrite E, EC. apply in_or_app. right. left. reflexivity. }
      assert (RS := replace_skip fuel global_re f a x (source1 (Ref m n k)) (render false l') pv pv' ((5, n) :: mark_groups m) N1 N2 N3 M).
      eapply eq_trans; [exact RS|]. rewrite (F _ m n k). f_equal. f_equal. apply IH; [exact P'|].
      rewrite E1, !app_length in L. rewrite ES in L. cbn in L. lia.
Qed.
End Global.

(** ** The whole table *)
Definition no_row : replacement := {| r_name := []; r_expr := []; r_replace := []; r_re := {| c_re := RNil; c_names := [] |}; r_parser := None |}.
Section Main.
Variable beyond : N -> bool.
Variable other : replacement -> parser -> str -> str.

Lemma table_ok : replacements beyond default_delims = Some (table beyond).
Proof.
  assert (H : match replacements beyond default_delims with Some _ => true | None => false end = true) by (vm_compute; reflexivity).
  unfold table. destruct (replacements beyond default_delims); [reflexivity | discriminate H].
Qed.
Lemma table_length : length (table beyond) = 165.
Proof. vm_compute. reflexivity. Qed.
Lemma row_escape : c_re (r_re (nth 4 (table beyond) no_row)) = Lit $"@@" /\ r_parser (nth 4 (table beyond) no_row) = None /\ r_replace (nth 4 (table beyond) no_row) = AT.
Proof. vm_compute. repeat split; reflexivity. Qed.
Lemma row_global : c_re (r_re (nth 131 (table beyond) no_row)) = global_re beyond /\ r_parser (nth 131 (table beyond) no_row) = None /\ r_replace (nth 131 (table beyond) no_row) = global_repl /\ c_names (r_re (nth 131 (table beyond) no_row)) = global_names.
Proof. vm_compute. repeat split; reflexivity. Qed.
Lemma row_restore : c_re (r_re (nth 161 (table beyond) no_row)) = Lit AT /\ r_parser (nth 161 (table beyond) no_row) = None /\ r_replace (nth 161 (table beyond) no_row) = $"@".
Proof. vm_compute. repeat split; reflexivity. Qed.

Lemma skipn_nth : forall A (d : A) n l, n < length l -> skipn n l = nth n l d :: skipn (S n) l.
Proof.
  induction n as [|n IH]; intros [|x l] H; try (cbn in H; lia); [reflexivity|]. cbn [skipn nth]. apply IH. cbn in H. lia.
Qed.
Lemma skipn_add : forall A n m (l : list A), skipn m (skipn n l) = skipn (n + m) l.
Proof. induction n as [|n IH]; intros m l; [reflexivity|]. destruct l as [|x l]; [cbn; apply skipn_nil | cbn [skipn Nat.add]; apply IH]. Qed.
Lemma table_cut : forall T : list replacement, length T = 165 ->
  T = firstn 4 (skipn 0 T) ++ nth 4 T no_row :: firstn 126 (skipn 5 T) ++ nth 131 T no_row :: firstn 29 (skipn 132 T) ++ nth 161 T no_row :: firstn 3 (skipn 162 T).
Proof.
  intros T L.
  assert (E4 : firstn 3 (skipn 162 T) = skipn 162 T) by (apply firstn_all2; rewrite skipn_length; lia). rewrite E4.
  rewrite <- (skipn_nth _ no_row 161 T) by lia.
  replace (skipn 161 T) with (skipn 29 (skipn 132 T)) by (rewrite skipn_add; reflexivity). rewrite (firstn_skipn 29 (skipn 132 T)).
  rewrite <- (skipn_nth _ no_row 131 T) by lia.
  replace (skipn 131 T) with (skipn 126 (skipn 5 T)) by (rewrite skipn_add; reflexivity). rewrite (firstn_skipn 126 (skipn 5 T)).
  rewrite <- (skipn_nth _ no_row 4 T) by lia. symmetry. apply (firstn_skipn 4 T).
Qed.

Lemma rows_idle : forall P s rs, (forall r, P r = true -> idle r s) -> forallb P (map (fun r => c_re (r_re r)) rs) = true ->
  fold_left (replace_step other) rs s = s.
Proof.
  intros P s rs H F. apply steps_idle. rewrite forallb_forall in F. apply Forall_forall. intros r I. apply H. apply F.
  apply (in_map (fun r => c_re (r_re r))). exact I.
Qed.
Lemma literal_row : forall r w x s, c_re (r_re r) = Lit w -> r_parser r = None -> r_replace r = x -> w <> [] -> starts_low w -> (forall G, expand G x = x) ->
  replace_step other s r = replace_all w x s.
Proof.
  intros r w x s E1 E2 E3 N L X. unfold replace_step, replace_re. rewrite E1, E2, E3. apply lit_replace; [exact N | exact L | | lia].
  intros g. apply X.
Qed.

Lemma render_true : forall l, render true l = source l.
Proof. induction l as [|i l IH]; [reflexivity|]. change (render1 true i ++ render true l = source1 i ++ source l). rewrite IH. destruct i; reflexivity. Qed.
Lemma quiet_word : forall s w, quiet s -> In w special -> contains w s = false.
Proof. intros s w Q I. apply no_word. exact (Q w I). Qed.

Lemma steps_table : forall A r1 B r2 C r3 D l,
  forallb (silent true words_a) (map (fun r => c_re (r_re r)) A) = true ->
  c_re (r_re r1) = Lit $"@@" /\ r_parser r1 = None /\ r_replace r1 = AT ->
  forallb (silent false words_b) (map (fun r => c_re (r_re r)) B) = true ->
  c_re (r_re r2) = global_re beyond /\ r_parser r2 = None /\ r_replace r2 = global_repl /\ c_names (r_re r2) = global_names ->
  forallb (needy words_c) (map (fun r => c_re (r_re r)) C) = true ->
  c_re (r_re r3) = Lit AT /\ r_parser r3 = None /\ r_replace r3 = $"@" ->
  forallb (needy words_d) (map (fun r => c_re (r_re r)) D) = true ->
  plain l -> (forall w, In w special -> contains w (source l) = false) ->
  fold_left (replace_step other) (A ++ r1 :: B ++ r2 :: C ++ r3 :: D) (source l) = output l.
Proof.
  intros A r1 B r2 C r3 D l HA (E1 & E2 & E3) HB (G1 & G2 & G3 & G4) HC (R1 & R2 & R3) HD P W.
  rewrite fold_left_app. cbn [fold_left]. rewrite fold_left_app. cbn [fold_left]. rewrite fold_left_app. cbn [fold_left].
  rewrite <- (render_true l).
  rewrite (rows_idle (silent true words_a) (render true l) A); [| |exact HA].
  2:{ intros r H. apply (silent_idle true words_a l r H P). rewrite render_true. intros w I. apply W. destruct I as [<-|[<-|[]]]; cbn; tauto. }
  rewrite (literal_row r1 _ _ _ E1 E2 E3); [|discriminate | reflexivity | reflexivity].
  rewrite (render_true l). rewrite (escape_step l P).
  rewrite (rows_idle (silent false words_b) (render false l) B); [| |exact HB].
  2:{ intros r H. apply (silent_idle false words_b l r H P). intros w I. apply back_plain; [|apply W].
      - repeat (destruct I as [<-|I]; [reflexivity|]). destruct I.
      - repeat (destruct I as [<-|I]; [cbn; tauto|]). destruct I. }
  assert (GS : replace_step other (render false l) r2 = middle l).
  { unfold replace_step, replace_re. rewrite G1, G2, G3, G4.
    apply global_step; [|exact P | lia]. intros whole m n k. apply global_output. }
  rewrite GS.
  rewrite (rows_idle (needy words_c) (middle l) C); [| |exact HC].
  2:{ intros r H. apply (needy_idle words_c r _ H). intros w I. destruct I as [<-|I]; [apply not_at_list; apply middle_no_at; exact P|].
      apply back_middle; [|apply W].
      - repeat (destruct I as [<-|I]; [reflexivity|]). destruct I.
      - repeat (destruct I as [<-|I]; [cbn; tauto|]). destruct I. }
  rewrite (literal_row r3 _ _ _ R1 R2 R3); [|discriminate | reflexivity | reflexivity].
  rewrite (restore_step l P); [|apply W; cbn; tauto].
  apply (rows_idle (needy words_d) (output l) D); [|exact HD].
  intros r H. apply (needy_idle words_d r _ H). intros w I. apply back_output; [|apply W].
  - repeat (destruct I as [<-|I]; [reflexivity|]). destruct I.
  - repeat (destruct I as [<-|I]; [cbn; tauto|]). destruct I.
Qed.

Lemma steps_rows : forall T l, length T = 165 ->
  forallb (silent true words_a) (res_of T 0 4) = true -> forallb (silent false words_b) (res_of T 5 126) = true ->
  forallb (needy words_c) (res_of T 132 29) = true -> forallb (needy words_d) (res_of T 162 3) = true ->
  c_re (r_re (nth 4 T no_row)) = Lit $"@@" /\ r_parser (nth 4 T no_row) = None /\ r_replace (nth 4 T no_row) = AT ->
  c_re (r_re (nth 131 T no_row)) = global_re beyond /\ r_parser (nth 131 T no_row) = None /\
    r_replace (nth 131 T no_row) = global_repl /\ c_names (r_re (nth 131 T no_row)) = global_names ->
  c_re (r_re (nth 161 T no_row)) = Lit AT /\ r_parser (nth 161 T no_row) = None /\ r_replace (nth 161 T no_row) = $"@" ->
  plain l -> (forall w, In w special -> contains w (source l) = false) ->
  fold_left (replace_step other) T (source l) = output l.
Proof.
  intros T l TL F1 F2 F3 F4 E1 E2 E3 P W. rewrite (table_cut T TL). exact (steps_table _ _ _ _ _ _ _ l F1 E1 F2 E2 F3 E3 F4 P W).
Qed.
Lemma steps_all : forall l, plain l -> (forall w, In w special -> contains w (source l) = false) ->
  fold_left (replace_step other) (table beyond) (source l) = output l.
Proof.
  intros l. exact (steps_rows (table beyond) l table_length (rows_a beyond) (rows_b beyond) (rows_c beyond) (rows_d beyond) row_escape row_global row_restore).
Qed.
Lemma razor_on : forall s, is_razor default_delims s = true ->
  apply_razor beyond other default_delims s = Some (replace_all $"__FuncCall__" [] (fold_left (replace_step other) (table beyond) s)).
Proof. intros s H. unfold apply_razor. rewrite H. rewrite table_ok. reflexivity. Qed.
Lemma razor_off : forall s, is_razor default_delims s = false -> apply_razor beyond other default_delims s = Some s.
Proof. intros s H. unfold apply_razor. rewrite H. reflexivity. Qed.

Theorem plain_document : forall l, plain l -> quiet (source l) -> apply_razor beyond other default_delims (source l) = Some (output l).
Proof.
  intros l P Q. assert (W : forall w, In w special -> contains w (source l) = false) by (intros w I; exact (quiet_word _ w Q I)).
  destruct (is_razor default_delims (source l)) eqn:RZ.
  - rewrite (razor_on _ RZ). rewrite (steps_all l P W). f_equal. apply replace_all_no. apply back_output; [reflexivity | apply W; cbn; tauto].
  - rewrite (razor_off _ RZ). f_equal. assert (NA : ~ In "@" (source l)).
    { intros I. assert (C : is_razor default_delims (source l) = true); [|congruence]. apply razor_iff. split; [|split; apply Q; cbn; tauto].
      apply holds_iff. apply (contains_1_In "@"). exact I. }
    clear - NA. induction l as [|i l IH]; [reflexivity|]. change (source (i :: l)) with (source1 i ++ source l) in *. change (output (i :: l)) with (output1 i ++ output l).
    destruct i as [s| |m n [k|]].
    + rewrite <- IH; [reflexivity|]. intros I. apply NA. apply in_or_app. right. exact I.
    + exfalso. apply NA. left. reflexivity.
    + exfalso. apply NA. left. reflexivity.
    + exfalso. apply NA. left. reflexivity.
Qed.
End Main.
