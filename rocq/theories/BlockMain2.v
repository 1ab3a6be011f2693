(** Razor documents with blocks: the whole table. *)
From Coq Require Import String Ascii List ZArith NArith Bool Lia ZifyBool ZifyN Permutation.
From Verif Require Import GoStr GoStrFacts Utf8 QuoteModel TemplateModel TemplateSpec TemplateProofs TextModel TextProofs3 RazorExprModel RazorExprProofs RazorWordsModel RazorWordsSpec RazorWordsProofs
  ReModel ReSyntaxModel RazorTableModel RazorAssignModel ReSound RazorRefSpec RazorRefAuto RazorRefProofs RazorRefMain RazorAsgSpec RazorAsgAuto RazorAsgText RazorAsgExpr RazorAsgExpr2 RazorAsgGo RazorAsgGo2 RazorAsgVal RazorAsgVal2 RazorAsgVal3 RazorAsgWrite RazorAsgWrite2
  RazorAsgMatch RazorAsgFits RazorAsgDoc RazorAsgMain BlockSpec BlockAuto BlockFits BlockDoc BlockMatch BlockMatch2 BlockMatch3 BlockValue BlockRows BlockMain.
Import ListNotations.
Local Open Scope char_scope.

(** ** Lines *)
Lemma block_lines_line : forall f l, (forall x, In x l -> f x = line_source (line4 x)) -> block_lines f l = lines line_source (map line4 l).
Proof.
  intros f. induction l as [|x l IH]; intros H; [reflexivity|]. rewrite block_cons. cbn [map]. rewrite lines_after. rewrite (H x (or_introl eq_refl)). f_equal. destruct l as [|y l]; [reflexivity|]. cbn [tail_of after map]. f_equal. apply IH. intros z I. apply H. right. exact I.
Qed.
Lemma block_part : forall f l x, In x l -> exists a b, block_lines f l = a ++ f x ++ b.
Proof.
  intros f. induction l as [|y l IH]; intros x I; [destruct I|]; destruct I as [<-|I].
  - exists [], (tail_of f l). rewrite block_cons. reflexivity.
  - destruct (IH x I) as (a & b & E). rewrite block_cons. destruct l as [|z l]; [destruct I|]. cbn [tail_of]. rewrite E. exists (f y ++ "010" :: a), b. rewrite <- app_assoc. reflexivity.
Qed.
Lemma block_no : forall w f l x, In x l -> contains w (block_lines f l) = false -> contains w (f x) = false.
Proof.
  intros w f l x I H. destruct (contains w (f x)) eqn:C; [|reflexivity]. exfalso. destruct (block_part f l x I) as (a & b & E). rewrite E in H. rewrite (contains_mid w a (f x) b C) in H. discriminate H.
Qed.
(** A word whose first character is missing from the start *)
Lemma late_word : forall c w p z, ~ In c p -> contains (c :: w) z = false -> contains (c :: w) (p ++ z) = false.
Proof.
  intros c w p z N H. destruct (contains (c :: w) (p ++ z)) eqn:C; [|reflexivity]. exfalso. apply contains_iff in C. destruct C as (a & b & E). apply app_split in E. destruct E as [(k & E1 & E2)|(k & E1 & E2)].
  - subst p. destruct k as [|d k]; [|cbn [app] in E2; injection E2 as E3 _; subst d; apply N; apply in_or_app; right; left; reflexivity]. cbn [app] in E2.
    assert (X : contains (c :: w) z = true) by (rewrite <- E2; apply contains_iff; exists [], b; reflexivity). congruence.
  - assert (X : contains (c :: w) z = true) by (rewrite E2; apply contains_iff; exists k, b; reflexivity). congruence.
Qed.
Lemma suffix_no : forall w a b, contains w (a ++ b) = false -> contains w b = false.
Proof.
  intros w a b H. destruct (contains w b) eqn:C; [|reflexivity]. exfalso. pose proof (contains_mid w a b [] C) as X. rewrite app_nil_r in X. congruence.
Qed.

Section Whole.
Variable parse : str -> option expr.
Lemma lines_ok4 : forall l, Forall (block_ok parse) l -> Forall (line_ok parse) (map line4 l).
Proof.
  intros l H. apply Forall_forall. intros y I. apply in_map_iff in I. destruct I as (x & <- & I). rewrite Forall_forall in H. specialize (H x I). pose proof (text4 parse x H) as T. destruct x; [exact H | exact T ..].
Qed.
(** The characters before the text of a block line *)
Definition starts_block (x : block_line) : str :=
  match x with
  | Simple _ => []
  | Open i m w _ _ _ e _ _ => i ++ action m (opener_command w ++ $" " ++ G2 e)
  | Alt i m _ => i ++ action m $"else"
  | Close i m _ _ _ _ => i ++ action m $"end"
  end.
Definition rest_block (x : block_line) : str := match x with Simple _ => [] | Open _ _ _ _ _ _ _ _ z | Alt _ _ z | Close _ _ _ _ _ z => z end.
Lemma src4_parts : forall x, (forall y, x <> Simple y) -> src4 x = starts_block x ++ rest_block x.
Proof. intros [x|i m w b1 b2 E e b3 z|i m z|i m b w semi z] N; [destruct (N x eq_refl) | | |]; cbn [src4 src3 src2 starts_block rest_block]; rewrite <- app_assoc; reflexivity. Qed.
Lemma source_rest : forall x, (forall y, x <> Simple y) -> exists a, block_source x = a ++ rest_block x.
Proof.
  intros [x|i m w b1 b2 E e b3 z|i m z|i m b w semi z] N; [destruct (N x eq_refl) | | |]; cbn [block_source rest_block].
  - exists (i ++ $"@" ++ mark_text m ++ opener_text w ++ b1 ++ $"(" ++ b2 ++ E ++ $")" ++ b3). rewrite <- !app_assoc. reflexivity.
  - exists (i ++ $"@" ++ mark_text m ++ $"else"). rewrite <- !app_assoc. reflexivity.
  - exists (i ++ $"@" ++ mark_text m ++ $"end" ++ b ++ closer_text w ++ (if semi then $";" else [])). rewrite <- !app_assoc. reflexivity.
Qed.
Lemma starts_chars : forall x c, block_ok parse x -> In c ["""" ; "="; "`"] -> ~ In c (starts_block x).
Proof.
  assert (B : forall i c, Forall blank_char i -> In c ["""" ; "="; "`"] -> ~ In c i).
  { intros i c F C I. rewrite Forall_forall in F. apply F in I. cbn in C. repeat (destruct C as [<-|C]; [destruct I as [I|I]; discriminate I|]). exact C. }
  assert (A : forall m s c, In c ["""" ; "="; "`"] -> ~ In c s -> ~ In c (action m s)).
  { intros m s c C N I. unfold action in I. apply in_app_or in I. destruct I as [I|I]; [destruct m; cbv in I; cbn in C; repeat (destruct C as [<-|C]; [intuition discriminate|]); exact C|].
    apply in_app_or in I. destruct I as [I|I]; [exact (N I)|]. destruct m; cbv in I; cbn in C; repeat (destruct C as [<-|C]; [intuition discriminate|]); exact C. }
  assert (G : forall e c, expr_ok e -> In c ["""" ; "="; "`"] -> ~ In c (G2 e)).
  { intros e c OK C I. pose proof (g2_plain e OK) as PL. rewrite forallb_forall in PL. apply PL in I. cbn in C. repeat (destruct C as [<-|C]; [discriminate I|]). exact C. }
  assert (W : forall w c, opener_ok w -> In c ["""" ; "="; "`"] -> ~ In c (opener_command w)).
  { intros w c OK C I. destruct w as [|b| | | |b]; cbn [opener_command opener_text opener_ok] in *; try (cbv in I; cbn in C; repeat (destruct C as [<-|C]; [intuition discriminate|]); exact C).
    apply in_app_or in I. destruct I as [I|I]; [cbv in I; cbn in C; repeat (destruct C as [<-|C]; [intuition discriminate|]); exact C|]. apply in_app_or in I. destruct I as [I|I]; [exact (B b c OK C I)|].
    cbv in I; cbn in C; repeat (destruct C as [<-|C]; [intuition discriminate|]); exact C. }
  intros [x|i m w b1 b2 E e b3 z|i m z|i m b w semi z] c H C I; cbn [starts_block] in I; [exact I | | |]; apply in_app_or in I.
  - destruct H as (F & OW & _ & _ & _ & _ & OK & _). destruct I as [I|I]; [exact (B i c F C I)|]. revert I. apply A; [exact C|]. intros I. apply in_app_or in I. destruct I as [I|I]; [exact (W w c OW C I)|].
    apply in_app_or in I. destruct I as [I|I]; [cbv in I; cbn in C; repeat (destruct C as [<-|C]; [intuition discriminate|]); exact C | exact (G e c OK C I)].
  - destruct H as (F & _). destruct I as [I|I]; [exact (B i c F C I)|]. revert I. apply A; [exact C|]. cbn in C. repeat (destruct C as [<-|C]; [cbv; intuition discriminate|]). destruct C.
  - destruct H as (F & _). destruct I as [I|I]; [exact (B i c F C I)|]. revert I. apply A; [exact C|]. cbn in C. repeat (destruct C as [<-|C]; [cbv; intuition discriminate|]). destruct C.
Qed.
Definition later_words : list str := [$"""<<"; $"=!AT!="; $"=!TRIPLE_BT!="; $"=!REPL!="; $"`"] ++ raws.
Lemma words4 : forall w l, Forall (block_ok parse) l -> In w later_words -> contains w (block_lines block_source l) = false -> contains w (lines line_source (map line4 l)) = false.
Proof.
  intros w l H W N.
  assert (HD : exists c r, w = c :: r /\ In c ["""" ; "="; "`"] /\ ~ In "010" w) by (cbn in W; repeat (destruct W as [<-|W]; [eexists; eexists; split; [reflexivity | split; [cbn; tauto | cbv; intuition discriminate]]|]); destruct W).
  destruct HD as (c & r & -> & C & NL). apply lines_no; [exact NL | discriminate|]. intros y I. apply in_map_iff in I. destruct I as (x & <- & I). pose proof (block_no _ _ _ _ I N) as NX. rewrite Forall_forall in H. specialize (H x I).
  assert (Q : (forall y, x <> Simple y) -> contains (c :: r) (src4 x) = false).
  { intros NS. rewrite src4_parts by exact NS. apply late_word; [exact (starts_chars x c H C)|]. destruct (source_rest x NS) as (a & E). rewrite E in NX. exact (suffix_no _ _ _ NX). }
  destruct x; [exact NX | apply Q; intros ? X; discriminate X ..].
Qed.

(** ** The marks of functions disappear *)
Lemma no_under : forall s, ~ In "_" s -> erase s = s.
Proof. intros s N. apply erase_name. apply (missing_char US2 s "_"); [left; reflexivity | exact N]. Qed.
Lemma close_erase : forall m z, contains func_call z = false -> erase ((if trims_right m then $"-}}" else $"}}") ++ z) = (if trims_right m then $"-}}" else $"}}") ++ z.
Proof.
  intros m z N. assert (E : forall a, erase ((a ++ $"}") ++ "}" :: z) = erase (a ++ $"}") ++ "}" :: z) by (intros a; rewrite erase_cut by reflexivity; unfold erase at 2; rewrite (replace_all_no _ _ z N); reflexivity).
  destruct (trims_right m); [exact (E $"-") | exact (E [])].
Qed.
Lemma open_parts : forall (i : str) m s z, i ++ action m s ++ z = (i ++ (if trims_left m then $"{{-" else $"{{")) ++ $" " ++ s ++ $" " ++ (if trims_right m then $"-}}" else $"}}") ++ z.
Proof. intros i m s z. unfold action. rewrite <- !app_assoc. destruct m; cbn [app]; reflexivity. Qed.
Lemma open_under : forall i m, Forall blank_char i -> ~ In "_" (i ++ (if trims_left m then $"{{-" else $"{{")).
Proof.
  intros i m F I. apply in_app_or in I. destruct I as [I|I]; [rewrite Forall_forall in F; destruct (F _ I); discriminate | destruct m; cbv in I; intuition discriminate].
Qed.
Variable mode : validation.
Lemma erase_block : forall x, block_ok parse x -> (forall y, x <> Simple y) -> contains func_call (rest_block x) = false -> erase (src4 x) = block_output mode x.
Proof.
  intros [x|i m w b1 b2 E e b3 z|i m z|i m b w semi z] H NS N; [destruct (NS x eq_refl) | | |]; cbn [src4 src3 src2 block_output rest_block] in *; rewrite !open_parts, erase_space.
  - destruct H as (F & OW & _ & _ & _ & _ & OK & _). rewrite (no_under _ (open_under i m F)). do 2 f_equal. rewrite <- !app_assoc. rewrite erase_space. f_equal.
    + apply no_under. intros I. destruct w as [|b| | | |b]; cbn [opener_command opener_text opener_ok] in *; try (cbv in I; intuition discriminate).
      apply in_app_or in I. destruct I as [I|I]; [cbv in I; intuition discriminate|]. apply in_app_or in I. destruct I as [I|I]; [rewrite Forall_forall in OW; destruct (OW _ I); discriminate | cbv in I; intuition discriminate].
    + f_equal. rewrite erase_space, (close_erase m z N), (erased e OK). reflexivity.
  - destruct H as (F & _). rewrite (no_under _ (open_under i m F)), erase_space, (close_erase m z N). reflexivity.
  - destruct H as (F & _). rewrite (no_under _ (open_under i m F)), erase_space, (close_erase m z N). reflexivity.
Qed.
End Whole.
