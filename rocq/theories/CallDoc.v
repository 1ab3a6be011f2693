(** Razor documents with calls: a row of the table that changes some lines. *)
From Coq Require Import String Ascii List ZArith NArith Bool Lia ZifyBool ZifyN.
From Verif Require Import GoStr GoStrFacts Utf8 TemplateModel TemplateSpec TemplateProofs RazorExprModel RazorWordsSpec
  ReModel ReSyntaxModel RazorTableModel RazorAssignModel ReSound RazorRefSpec RazorRefAuto RazorRefProofs RazorRefMain RazorAsgSpec RazorAsgAuto RazorAsgExpr RazorAsgVal3 RazorAsgWrite2 RazorAsgMatch RazorAsgFits RazorAsgDoc
  BlockSpec BlockAuto BlockFits CallSpec.
Import ListNotations.
Local Open Scope char_scope.

Section Rows.
Variable r : re.
Variable f : str -> groups -> str.
Variables src dst : call_line -> str.
Hypothesis not_empty : forall t', ~ eats r [] t'.
Hypothesis not_newline : skipped r ["010"].
Definition call_changes (x : call_line) : Prop :=
  exists p m q w, src x = p ++ m ++ q /\ dst x = p ++ w ++ q /\ skipped r p /\ skipped r q /\ m <> [] /\ starts_low m /\
    forall pv u, ends u -> exists pv' g, match_at r (pv, m ++ q ++ u) = Some ((pv', q ++ u), g) /\ f m g = w.
Definition call_keeps (x : call_line) : Prop := src x = dst x /\ skips r (src x).
Definition tail_of (g : call_line -> str) (l : list call_line) : str := match l with [] => [] | _ => "010" :: call_lines g l end.
Lemma call_cons : forall g x l, call_lines g (x :: l) = g x ++ tail_of g l.
Proof. intros g x [|y l]; [symmetry; apply app_nil_r | reflexivity]. Qed.
Lemma tail_ends : forall g l, ends (tail_of g l).
Proof. intros g [|x l]; [left; reflexivity | right; eexists; reflexivity]. Qed.
Definition passed (a rest : str) : Prop := forall u v, a = u ++ v -> v <> [] -> forall t', ~ eats r (v ++ rest) t'.
Lemma passed_app : forall a b rest, passed a (b ++ rest) -> passed b rest -> passed (a ++ b) rest.
Proof.
  intros a b rest A B u v E NE t' H. apply app_split in E. destruct E as [(k & E1 & E2)|(k & E1 & E2)].
  - subst v. destruct k as [|c k]; [cbn [app] in *; exact (B [] b eq_refl NE t' H)|]. rewrite <- app_assoc in H. exact (A u (c :: k) E1 ltac:(discriminate) t' H).
  - exact (B k v E2 NE t' H).
Qed.
Lemma skipped_passed : forall a rest, skipped r a -> passed a rest.
Proof. intros a rest A u v E NE t'. exact (A u v E NE rest t'). Qed.
Lemma calls_replaced : forall l, Forall (fun x => call_keeps x \/ call_changes x) l -> forall a n b prev, passed a (call_lines src l) -> length (a ++ call_lines src l) < n ->
  replace_matches n r f b (prev, a ++ call_lines src l) = a ++ call_lines dst l.
Proof.
  induction l as [|x l IH]; intros H a n b prev A L.
  - cbn [call_lines] in *. rewrite !app_nil_r. apply replace_none. cbn [snd]. intros u t E t' EA. destruct t as [|c t]; [exact (not_empty _ EA)|].
    apply (A u (c :: t) E ltac:(discriminate) t'). rewrite app_nil_r. exact EA.
  - inversion H as [|? ? HX HL]; subst. specialize (IH HL).
    assert (IH' : forall a n b prev, passed a (tail_of src l) -> length (a ++ tail_of src l) < n -> replace_matches n r f b (prev, a ++ tail_of src l) = a ++ tail_of dst l).
    { clear - IH not_newline. intros a n b prev A L. destruct l as [|y l]; [exact (IH a n b prev A L)|]. cbn [tail_of] in *.
      change ("010" :: call_lines src (y :: l)) with (["010"] ++ call_lines src (y :: l)) in *. change ("010" :: call_lines dst (y :: l)) with (["010"] ++ call_lines dst (y :: l)).
      rewrite (app_assoc a) in L. rewrite !(app_assoc a). apply IH; [apply passed_app; [exact A | exact (skipped_passed _ _ not_newline)] | exact L]. }
    rewrite !call_cons in *. destruct HX as [(E & S)|(p & m & q & w & ES & ED & SP & SQ & NM & LM & M)].
    + rewrite <- E. rewrite !(app_assoc a) in *. apply IH'; [|exact L]. apply passed_app; [exact A|]. intros u v EQ NE t'. exact (S u v EQ NE _ t' (tail_ends src l)).
    + rewrite ES, ED in *. destruct n as [|n]; [lia|]. destruct (M (after_text prev (a ++ p)) (tail_of src l) (tail_ends src l)) as (pv & g & MA & FW).
      replace (a ++ (p ++ m ++ q) ++ tail_of src l) with ((a ++ p) ++ m ++ (q ++ tail_of src l)) in * by (rewrite <- !app_assoc; reflexivity).
      eapply eq_trans; [apply (replace_skip n r f b (a ++ p) m (q ++ tail_of src l) prev pv g NM LM); [|exact MA]|].
      * intros v z E NZ t'. assert (PP : passed (a ++ p) (m ++ q ++ tail_of src l)).
        { apply passed_app; [|exact (skipped_passed _ _ SP)]. replace (p ++ m ++ q ++ tail_of src l) with ((p ++ m ++ q) ++ tail_of src l) by (rewrite <- !app_assoc; reflexivity). exact A. }
        exact (PP v z E NZ t').
      * refine (eq_trans (f_equal (fun z => (a ++ p) ++ f m g ++ z) (IH' q n true pv (skipped_passed _ _ SQ) _)) _); [|rewrite FW, <- !app_assoc; reflexivity].
        destruct m; [contradiction|]. rewrite !app_length in L. cbn [length] in L. rewrite app_length. lia.
Qed.
Lemma calls_document : forall l, Forall (fun x => call_keeps x \/ call_changes x) l -> replace_re r f (call_lines src l) = call_lines dst l.
Proof.
  intros l H. unfold replace_re. apply (calls_replaced l H [] _ _ None); [|cbn [app]; lia]. intros u v E NE. symmetry in E. apply app_eq_nil in E. destruct E; contradiction.
Qed.
End Rows.
