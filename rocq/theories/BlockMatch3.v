(** Razor documents with blocks: alternatives and ends. *)
From Coq Require Import String Ascii List ZArith NArith Bool Lia ZifyBool ZifyN.
From Verif Require Import GoStr GoStrFacts Utf8 TemplateModel TemplateSpec TemplateProofs RazorExprModel RazorWordsSpec
  ReModel ReSyntaxModel RazorTableModel RazorAssignModel ReSound RazorRefSpec RazorRefAuto RazorRefProofs RazorRefMain RazorAsgSpec RazorAsgGo RazorAsgMatch BlockSpec BlockMatch BlockMatch2.
Import ListNotations.
Local Open Scope char_scope.

Definition else_text (m : mark) : str := "@" :: mark_text m ++ $"else".
Lemma else_lands : forall m t pv, lands (match_at else_re (pv, else_text m ++ t)) t (mark_groups m).
Proof.
  intros m t pv. unfold match_at. change (fun q g => Some (q, g)) with finish. unfold else_re, else_text. apply seq_lands. cbn [app]. apply byte_lands. intro p1. apply seq_lands. rewrite <- app_assoc.
  change ($"else" ++ t) with ("e" :: $"lse" ++ t). apply marks_lands; [reflexivity|]. intro p2. change ("e" :: $"lse" ++ t) with ($"else" ++ t). apply word_lands. intro p3. eexists. reflexivity.
Qed.

Lemma byte_inv : forall f c s t, eats (RByte f) (c :: s) t -> t = s.
Proof. intros f c s t E. inversion E; subst. reflexivity. Qed.
(** What follows the word of a block *)
Definition apart (t : str) : Prop := forall c r, t = c :: r -> low c = true /\ ~ blank_char c /\ is_alpha c = false.
Lemma apart_lit : forall c w t x, is_alpha c = true -> apart t -> ~ eats (RazorRefMain.Lit (c :: w)) t x.
Proof.
  intros c w t x A P E. apply RazorRefMain.Lit_eats in E. destruct (P c (w ++ x) E) as (_ & _ & N). congruence.
Qed.
Lemma apart_each : forall t x, apart t -> ~ eats (RSeq blanks (RazorRefMain.Lit $"each")) t x.
Proof.
  intros t x A E. apply seq_inv in E. destruct E as (s1 & H1 & H2). apply star_blanks in H1. destruct H1 as (b & FB & EQ). apply RazorRefMain.Lit_eats in H2. subst s1.
  destruct b as [|c b]; cbn [app] in EQ.
  - destruct (A _ _ EQ) as (_ & _ & N). discriminate N.
  - destruct (A _ _ EQ) as (_ & N & _). inversion FB; subst. contradiction.
Qed.
Ltac other_word :=
  intros ?x ?EA; cbn [snd] in *;
  repeat match goal with
  | H : eats (RAlt _ _) _ _ |- _ => apply alt_inv in H; destruct H as [H|H]
  | H : eats (RazorRefMain.Lit _) _ _ |- _ => apply RazorRefMain.Lit_eats in H; discriminate H
  | H : eats (RSeq (B ?c) _) _ _ |- _ => apply (head_eats (Ascii.eqb c)) in H; [|reflexivity]; let E1 := fresh in let E2 := fresh in destruct H as (? & ? & E1 & E2); injection E1 as <- _; discriminate E2
  end.
Lemma blocks_lands : forall w t k g pv T G0, closer_ok w -> apart t -> (forall pv', lands (k (pv', t) g) T G0) -> lands (rmatch blocks_re (pv, closer_text w ++ t) g k) T G0.
Proof.
  intros w t k g pv T G0 OK A K. unfold blocks_re. destruct w as [| | | | |b]; cbn [closer_text closer_ok] in *.
  - change ($"" ++ t) with t. apply right_lands; [|exact (K pv)]. intros x EA. cbn [snd] in EA.
    repeat match goal with
    | H : eats (RAlt _ _) _ _ |- _ => apply alt_inv in H; destruct H as [H|H]
    | H : eats (RazorRefMain.Lit _) _ _ |- _ => revert H; apply apart_lit; [reflexivity | exact A]
    end.
    apply (head_eats (Ascii.eqb "f")) in EA; [|reflexivity]. destruct EA as (c & y & E1 & E2). apply Ascii.eqb_eq in E2. subst c. destruct (A _ _ E1) as (_ & _ & N). discriminate N.
  - do 7 apply left_lands. apply word_lands. exact K.
  - do 3 apply left_lands. apply right_lands; [other_word | apply word_lands; exact K].
  - do 6 apply left_lands. apply right_lands; [other_word | apply word_lands; exact K].
  - apply left_lands. apply right_lands; [|apply word_lands; exact K]. intros x EA. cbn [snd] in EA. apply alt_inv in EA. destruct EA as [EA|EA]; [revert x EA; other_word|].
    change ($"for" ++ t) with ("f" :: "o" :: "r" :: t) in EA. do 3 (apply seq_inv in EA; destruct EA as (y & H & EA); apply byte_inv in H; subst y). exact (apart_each t x A EA).
  - do 2 apply left_lands. apply right_lands; [other_word|]. change (($"for" ++ b ++ $"each") ++ t) with ("f" :: "o" :: "r" :: (b ++ $"each") ++ t). rewrite <- app_assoc.
    do 3 (apply seq_lands, byte_lands; intro). apply seq_lands. apply blanks_lands; [exact OK | intros c r X; injection X as <- _; split; [reflexivity | intros [H|H]; discriminate H]|]. intro p6. apply word_lands. exact K.
Qed.
Definition end_text (m : mark) (b : str) (w : closer) (semi : bool) : str := "@" :: mark_text m ++ $"end" ++ b ++ closer_text w ++ (if semi then $";" else []).
Definition end_groups (m : mark) (b : str) (w : closer) : groups := (5, $"end" ++ b ++ closer_text w) :: (6, closer_text w) :: mark_groups m.
Lemma semi_apart : forall t, apart (";" :: t).
Proof. intros t c r E. injection E as <- _. split; [reflexivity|]. split; [intros [H|H]; discriminate H | reflexivity]. Qed.
Lemma tail_apart : forall z u, (forall c r, z = c :: r -> ascii_char c /\ ~ blank_char c /\ ~ alpha c /\ c <> ";") -> ends u -> apart (z ++ u) /\ (forall b r, Forall blank_char b -> z ++ u <> b ++ ";" :: r).
Proof.
  intros z u Z EN. split.
  - intros c r E. destruct z as [|d z]; cbn [app] in E.
    + destruct EN as [->|(x & ->)]; [discriminate E|]. injection E as <- _. split; [reflexivity|]. split; [intros [H|H]; discriminate H | reflexivity].
    + injection E as E1 E2. subst d. destruct (Z c z eq_refl) as (A & NB & NA & _). split; [exact (ascii_low c A)|]. split; [exact NB|]. destruct (is_alpha c) eqn:X; [|reflexivity]. exfalso. apply NA. apply is_alpha_iff. exact X.
  - intros b r FB E. destruct z as [|d z]; cbn [app] in E; [exact (ends_open u b r EN FB E)|]. destruct (Z d z eq_refl) as (_ & NB & _ & NS). destruct b as [|e b]; cbn [app] in E; injection E as E1 E2.
    + exact (NS E1).
    + subst e. inversion FB; subst. contradiction.
Qed.
Lemma closer_head : forall w t, apart t -> forall c r, closer_text w ++ t = c :: r -> outside c.
Proof.
  intros w t A c r E. destruct w as [| | | | |b]; cbn [closer_text] in E.
  1:{ destruct (A c r E) as (L & N & _). split; assumption. }
  all: injection E as <- _; split; [reflexivity | intros [H|H]; discriminate H].
Qed.
Lemma end_lands : forall m b w (semi : bool) z u pv, Forall blank_char b -> closer_ok w -> (semi = false -> forall c r, z = c :: r -> ascii_char c /\ ~ blank_char c /\ ~ alpha c /\ c <> ";") -> ends u ->
  lands (match_at end_re (pv, end_text m b w semi ++ z ++ u)) (z ++ u) (end_groups m b w).
Proof.
  intros m b w semi z u pv FB OK Z EN. unfold match_at. change (fun q g => Some (q, g)) with finish. unfold end_re, end_text. apply seq_lands. cbn [app]. apply byte_lands. intro p1. apply seq_lands.
  set (t := (if semi then $";" else []) ++ z ++ u).
  assert (EQ : (mark_text m ++ $"end" ++ b ++ closer_text w ++ (if semi then $";" else [])) ++ z ++ u = mark_text m ++ "e" :: $"nd" ++ b ++ closer_text w ++ t) by (unfold t; rewrite <- !app_assoc; reflexivity).
  assert (A : apart t) by (unfold t; destruct semi; [apply semi_apart | apply (tail_apart z u (Z eq_refl) EN)]).
  refine (eq_ind_r (fun s => lands (rmatch marks (p1, s) [] _) (z ++ u) (end_groups m b w)) _ EQ). apply marks_lands; [reflexivity|]. intro p2. apply seq_lands.
  assert (EQ2 : "e" :: $"nd" ++ b ++ closer_text w ++ t = ($"end" ++ b ++ closer_text w) ++ t) by (rewrite <- !app_assoc; reflexivity).
  refine (eq_ind_r (fun s => lands (rmatch (RGroup 5 _) (p2, s) _ _) (z ++ u) (end_groups m b w)) _ EQ2).
  change (lands (rmatch (RSeq (B "e") (RSeq (B "n") (RSeq (B "d") (RSeq blanks (RGroup 6 blocks_re))))) (p2, ($"end" ++ b ++ closer_text w) ++ t) (mark_groups m)
    (fun p' g' => rmatch (ROpt closing) p' ((5, taken (p2, ($"end" ++ b ++ closer_text w) ++ t) p') :: g') finish)) (z ++ u) (end_groups m b w)).
  assert (CL : forall p g, lands (rmatch (ROpt closing) (p, t) g finish) (z ++ u) g).
  { intros p g. unfold t. destruct semi.
    - unfold ROpt. apply left_lands. apply (blanks_byte []); [constructor | split; [reflexivity | intros [H|H]; discriminate H]|]. intro p9. eexists. reflexivity.
    - cbn [app]. destruct (tail_apart z u (Z eq_refl) EN) as (_ & N). rewrite (closing_open (place * groups) (z ++ u) p g finish N). eexists. reflexivity. }
  assert (IN : forall k, (forall p, lands (k (p, t) ((6, closer_text w) :: mark_groups m)) (z ++ u) (end_groups m b w)) ->
    lands (rmatch (RSeq (B "e") (RSeq (B "n") (RSeq (B "d") (RSeq blanks (RGroup 6 blocks_re))))) (p2, ($"end" ++ b ++ closer_text w) ++ t) (mark_groups m) k) (z ++ u) (end_groups m b w)).
  { intros k K. rewrite <- !app_assoc. change ($"end" ++ b ++ closer_text w ++ t) with ("e" :: "n" :: "d" :: b ++ closer_text w ++ t). do 3 (apply seq_lands, byte_lands; intro). apply seq_lands.
    apply blanks_lands; [exact FB | exact (closer_head w t A)|]. intro p6. apply group_lands; [|exact K]. intros k' K'. apply blocks_lands; assumption. }
  apply IN. intro p. rewrite taken_app. apply CL.
Qed.
