(** Razor documents with assignments: the rows of the table on whole documents. *)
From Coq Require Import String Ascii List ZArith NArith Bool Lia ZifyBool ZifyN Permutation.
From Verif Require Import GoStr GoStrFacts Utf8 QuoteModel TemplateModel TemplateSpec TemplateProofs TextModel TextProofs3 RazorExprModel RazorExprProofs RazorWordsModel RazorWordsSpec RazorWordsProofs
  ReModel ReSyntaxModel RazorTableModel RazorAssignModel ReSound RazorRefSpec RazorRefAuto RazorRefProofs RazorRefMain RazorAsgSpec RazorAsgText RazorAsgExpr RazorAsgExpr2 RazorAsgGo RazorAsgGo2 RazorAsgVal RazorAsgVal2 RazorAsgVal3 RazorAsgWrite RazorAsgWrite2 RazorAsgAuto RazorAsgMatch RazorAsgFits.
Import ListNotations.
Local Open Scope char_scope.

(** ** A replacement that changes some lines *)
Definition skipped (r : re) (a : str) : Prop := forall u v, a = u ++ v -> v <> [] -> forall s t', ~ eats r (v ++ s) t'.
Lemma skipped_app : forall r a b, skipped r a -> skipped r b -> skipped r (a ++ b).
Proof.
  intros r a b A B u v E NE s t' H. apply app_split in E. destruct E as [(k & E1 & E2)|(k & E1 & E2)].
  - subst v. destruct k as [|c k]; [cbn [app] in *; exact (B [] b eq_refl NE s t' H)|]. rewrite <- app_assoc in H. exact (A u (c :: k) E1 ltac:(discriminate) _ t' H).
  - exact (B k v E2 NE s t' H).
Qed.
Section Rows.
Variable r : re.
Variable f : str -> groups -> str.
Variables src dst : line -> str.
Hypothesis not_empty : forall t', ~ eats r [] t'.
Hypothesis not_newline : skipped r ["010"].
Definition changes (x : line) : Prop :=
  exists p m w, src x = p ++ m /\ dst x = p ++ w /\ skipped r p /\ m <> [] /\ starts_low m /\
    forall pv u, ends u -> exists pv' g, match_at r (pv, m ++ u) = Some ((pv', u), g) /\ f m g = w.
Definition keeps (x : line) : Prop := src x = dst x /\ skipped r (src x).
Definition after (g : line -> str) (l : list line) : str := match l with [] => [] | _ => "010" :: lines g l end.
Lemma lines_after : forall g x l, lines g (x :: l) = g x ++ after g l.
Proof. intros g x [|y l]; [symmetry; apply app_nil_r | reflexivity]. Qed.
Lemma after_ends : forall g l, ends (after g l).
Proof. intros g [|x l]; [left; reflexivity | right; eexists; reflexivity]. Qed.
Lemma lines_replaced : forall l, Forall (fun x => keeps x \/ changes x) l -> forall a n b prev, skipped r a -> length (a ++ lines src l) < n ->
  replace_matches n r f b (prev, a ++ lines src l) = a ++ lines dst l.
Proof.
  induction l as [|x l IH]; intros H a n b prev A L.
  - cbn [lines]. rewrite !app_nil_r. apply replace_none. cbn [snd]. intros u t E t' EA. destruct t as [|c t]; [exact (not_empty _ EA)|].
    apply (A u (c :: t) E ltac:(discriminate) [] t'). rewrite app_nil_r. exact EA.
  - inversion H as [|? ? HX HL]; subst. specialize (IH HL).
    assert (IH' : forall a n b prev, skipped r a -> length (a ++ after src l) < n -> replace_matches n r f b (prev, a ++ after src l) = a ++ after dst l).
    { clear - IH not_newline. intros a n b prev A L. destruct l as [|y l]; [exact (IH a n b prev A L)|]. cbn [after] in *.
      change ("010" :: lines src (y :: l)) with (["010"] ++ lines src (y :: l)) in *. change ("010" :: lines dst (y :: l)) with (["010"] ++ lines dst (y :: l)).
      rewrite (app_assoc a) in L. rewrite !(app_assoc a). apply IH; [apply skipped_app; assumption | exact L]. }
    rewrite !lines_after in *. destruct HX as [(E & S)|(p & m & w & ES & ED & SP & NM & LM & M)].
    + rewrite <- E. rewrite !(app_assoc a) in *. apply IH'; [apply skipped_app; assumption | exact L].
    + rewrite ES, ED in *. destruct n as [|n]; [lia|]. destruct (M (after_text prev (a ++ p)) (after src l) (after_ends src l)) as (pv & g & MA & FW).
      replace (a ++ (p ++ m) ++ after src l) with ((a ++ p) ++ m ++ after src l) in * by (rewrite <- !app_assoc; reflexivity).
      eapply eq_trans; [apply (replace_skip n r f b (a ++ p) m (after src l) prev pv g NM LM); [|exact MA]|].
      * intros v z E NZ t'. exact (skipped_app r a p A SP v z E NZ (m ++ after src l) t').
      * pose proof (IH' [] n true pv) as I'. cbn [app] in I'. assert (SK0 : skipped r []) by (intros u v E NE; symmetry in E; apply app_eq_nil in E; destruct E; contradiction).
        refine (eq_trans (f_equal (fun z => (a ++ p) ++ f m g ++ z) (I' SK0 _)) _); [|rewrite FW, <- !app_assoc; reflexivity].
        destruct m; [contradiction|]. rewrite !app_length in L. cbn [length] in L. lia.
Qed.
Lemma document_replaced : forall l, Forall (fun x => keeps x \/ changes x) l -> replace_re r f (lines src l) = lines dst l.
Proof.
  intros l H. unfold replace_re. apply (lines_replaced l H [] _ _ None); [|cbn [app]; lia]. intros u v E NE. symmetry in E. apply app_eq_nil in E. destruct E; contradiction.
Qed.
End Rows.

(** ** The rows of assignments *)
Lemma eats_seq : forall a b s t, eats (RSeq a b) s t -> exists m, eats a s m /\ eats b m t.
Proof. intros a b s t H. inversion H; subst. eexists. split; eassumption. Qed.
Lemma eats_alt : forall a b s t, eats (RAlt a b) s t -> eats a s t \/ eats b s t.
Proof. intros a b s t H. inversion H; subst; [left | right]; assumption. Qed.
Lemma eats_group : forall n a s t, eats (RGroup n a) s t -> eats a s t.
Proof. intros n a s t H. inversion H; subst. assumption. Qed.
Lemma eats_nil : forall s t, eats RNil s t -> s = t.
Proof. intros s t H. inversion H; subst. reflexivity. Qed.
Lemma eats_rune : forall cl c s t, low c = true -> eats (RRune cl) (c :: s) t -> in_class cl (N_of_ascii c) = true.
Proof. intros cl c s t L H. inversion H; subst. match goal with X : context[decode _] |- _ => rewrite (decode_low c s L) in X; exact X end. Qed.
Lemma eats_rune_nil : forall cl t, ~ eats (RRune cl) [] t.
Proof. intros cl t H. inversion H; subst. congruence. Qed.
Section Row.
Variable beyond : N -> bool.
Lemma assign1_at : forall s t, eats (assign1_re beyond) s t -> exists c r, s = "@" :: c :: r /\ c <> "{".
Proof.
  intros s t H. unfold assign1_re in H. apply eats_seq in H. destruct H as (m & K & H). unfold kind_re in K. apply eats_group in K. apply eats_seq in K. destruct K as (m1 & A & K).
  apply Lit_eats in A. subst s. apply eats_seq in H. destruct H as (m2 & I & _). apply eats_group in I. apply eats_seq in I. destruct I as (m3 & I & _).
  unfold ROpt in K. apply eats_alt in K. destruct K as [K|K].
  - apply eats_group in K. apply eats_alt in K. destruct K as [K|K]; [apply eats_alt in K; destruct K as [K|K]|]; apply Lit_eats in K; subst m1; eexists; eexists; (split; [reflexivity | discriminate]).
  - apply eats_nil in K. subst m1. destruct m as [|c m]; [exfalso; exact (eats_rune_nil _ _ I)|]. exists c, m. split; [reflexivity|]. intros ->. apply eats_rune in I; [|reflexivity]. rewrite first1_eq in I. discriminate I.
Qed.
Lemma assign2_at : forall s t, eats (assign2_re beyond) s t -> exists r, s = "@" :: "{" :: r.
Proof.
  intros s t H. unfold assign2_re in H. apply eats_seq in H. destruct H as (m & K & H). apply eats_group in K. apply Lit_eats in K. subst s. eexists. reflexivity.
Qed.
Lemma skipped_at : forall r a, (forall s t, eats r s t -> exists x, s = "@" :: x) -> ~ In "@" a -> skipped r a.
Proof.
  intros r a H N u v E NE s t' EA. destruct (H _ _ EA) as (x & X). destruct v as [|c v]; [contradiction|]. injection X as -> _. apply N. rewrite E. apply in_or_app. right. left. reflexivity.
Qed.
Lemma skipped1_plain : forall a, ~ In "@" a -> skipped (assign1_re beyond) a.
Proof. intros a. apply skipped_at. intros s t H. apply assign1_at in H. destruct H as (c & r & -> & _). eexists. reflexivity. Qed.
Lemma skipped2_plain : forall a, ~ In "@" a -> skipped (assign2_re beyond) a.
Proof. intros a. apply skipped_at. intros s t H. apply assign2_at in H. destruct H as (r & ->). eexists. reflexivity. Qed.
Lemma skipped1_braced : forall a, ~ In "@" a -> skipped (assign1_re beyond) ("@" :: "{" :: a).
Proof.
  intros a N u v E NE s t' EA. destruct u as [|c u].
  - cbn [app] in E. subst v. apply assign1_at in EA. destruct EA as (c & r & X & NC). injection X as X _. congruence.
  - injection E as _ E. assert (NB : ~ In "@" ("{" :: a)) by (intros [C|C]; [discriminate | exact (N C)]). exact (skipped1_plain ("{" :: a) NB u v E NE s t' EA).
Qed.
Lemma blanks_no_at : forall b, Forall blank_char b -> ~ In "@" b.
Proof. intros b B I. rewrite Forall_forall in B. destruct (B _ I); discriminate. Qed.
Lemma values_no_at : forall E, Forall value_char E -> ~ In "@" E /\ ~ In "010" E /\ lows E.
Proof.
  intros E F. rewrite Forall_forall in F. assert (V : forall c, value_char c -> is_value c = true) by exact value_iff. repeat split.
  - intros I. apply F, V in I. discriminate I.
  - intros I. apply F, V in I. discriminate I.
  - apply Forall_forall. intros c I. apply F, V in I. revert I. clear. destruct c as [[] [] [] [] [] [] [] []]; intros I; try reflexivity; vm_compute in I; discriminate I.
Qed.
Lemma text_line : forall E, text_ok E -> value_line E.
Proof. intros E (V & H & _). destruct (values_no_at E V) as (_ & N & L). split; [exact L | split; [exact N | exact H]]. Qed.
Lemma match_source : forall t b1 o b2 E, match_text t b1 o b2 E = target_text t ++ b1 ++ op_text o ++ b2 ++ E.
Proof. intros t b1 o b2 E. unfold match_text, target_text, type_text. destruct (t_kind t); rewrite <- ?app_assoc; reflexivity. Qed.
Lemma update_op : forall t o, update_ok t o -> op_ok o.
Proof. intros t o U op E. exact (proj1 (U op E)). Qed.
Lemma dotted_no_at : forall l, Forall name_ok l -> ~ In "@" (dotted l).
Proof.
  intros l F I. destruct l as [|n l]; [destruct I|]. destruct (dotted_chars (n :: l) ltac:(discriminate) F) as (c & r & E & A & W). rewrite E in I. rewrite Forall_forall in W. destruct I as [->|I].
  - apply is_alpha_iff in A. discriminate A.
  - destruct (W _ I) as [X|X]; [|discriminate X]. apply is_word_iff in X. discriminate X.
Qed.
Lemma op_no_at : forall o, op_ok o -> ~ In "@" (op_text o).
Proof. intros [| |op] O; [cbv; intuition discriminate | cbv; intuition discriminate|]. specialize (O op eq_refl). cbn in O. repeat (destruct O as [<-|O]; [cbv; intuition discriminate|]). destruct O. Qed.
End Row.
