(** The translation of assigned expressions: updates. *)
From Coq Require Import String Ascii List ZArith NArith Bool Lia ZifyBool ZifyN Permutation.
From Verif Require Import GoStr GoStrFacts Utf8 QuoteModel TemplateModel TemplateSpec TemplateProofs TextModel TextProofs3 RazorExprModel RazorExprProofs RazorWordsModel RazorWordsSpec RazorWordsProofs
  ReModel ReSyntaxModel RazorTableModel RazorAssignModel ReSound RazorRefSpec RazorRefAuto RazorRefProofs RazorRefMain RazorAsgSpec RazorAsgText RazorAsgExpr RazorAsgExpr2 RazorAsgGo RazorAsgGo2 RazorAsgVal.
Import ListNotations.
Local Open Scope char_scope.

(** ** Paths *)
Definition frees (l : list str) : Prop := Forall name_ok l /\ Forall free_of_words l.
Record path_ok (W : str) : Prop := {
  po_chars : forallb (fun c => is_word c || Ascii.eqb c ".") W = true;
  po_words : forall w, In w dotted_words -> contains w W = false;
  po_unders : contains US2 W = false }.
Lemma fields_word : forall w l n, ~ In "." w -> w <> [] -> contains w n = false -> Forall (fun m => contains w m = false) l -> contains w (n ++ fields l) = false.
Proof.
  intros w l. induction l as [|m l IH]; intros n N NE H F; [rewrite app_nil_r; exact H|]. inversion F; subst.
  change (fields (m :: l)) with ("." :: (m ++ fields l)). apply cut_word_false; [exact N | exact H | apply IH; assumption].
Qed.
Lemma words_dots : forall w t, Forall (fun c => is_word c = true) w -> contains $".." t = false -> contains $".." (w ++ t) = false.
Proof.
  induction w as [|c w IH]; intros t F H; [exact H|]. inversion F; subst. cbn [app]. rewrite contains_cons. rewrite IH by assumption. rewrite orb_false_r.
  change $".." with ["."; "."]. cbn [has_prefix]. destruct (Ascii.eqb_spec "." c) as [E|_]; [subst c; discriminate | reflexivity].
Qed.
Lemma fields_dots : forall l, Forall name_ok l -> contains $".." (fields l) = false.
Proof.
  induction l as [|n l IH]; intros F; [reflexivity|]. inversion F; subst. change (fields (n :: l)) with ("." :: (n ++ fields l)). rewrite contains_cons.
  rewrite words_dots; [|apply name_words; assumption | apply IH; assumption]. rewrite orb_false_r.
  match goal with H : name_ok n |- _ => pose proof (name_words n H) as W; pose proof (name_not_nil n H) as NN end.
  destruct n as [|c n]; [contradiction|]. inversion W; subst. change $".." with ["."; "."]. cbn [app has_prefix]. destruct (Ascii.eqb_spec "." c) as [E|_]; [subst c; discriminate | reflexivity].
Qed.
Lemma three_dots : forall s, contains $".." s = false -> contains $"..." s = false.
Proof.
  intros s H. destruct (contains $"..." s) eqn:E; [|reflexivity]. apply contains_iff in E. destruct E as (a & b & ->). rewrite (contains_mid $".." a $"..." b eq_refl) in H. discriminate H.
Qed.
Lemma free_contains : forall n w, free_of_words n -> In w kept_words -> contains w n = false.
Proof. intros n w H I. apply holds_not. exact (H w I). Qed.
Lemma kept_shape : forall w, In w kept_words -> ~ In "." w /\ w <> [].
Proof. intros w I. vm_compute in I. repeat (destruct I as [<-|I]; [split; [vm_compute; intuition discriminate | discriminate]|]). destruct I. Qed.
Lemma fields_chars : forall l, Forall name_ok l -> forallb (fun c => is_word c || Ascii.eqb c ".") (fields l) = true.
Proof.
  induction l as [|n l IH]; intros F; [reflexivity|]. inversion F; subst. change (fields (n :: l)) with ("." :: (n ++ fields l)). cbn [forallb]. rewrite forallb_app, IH by assumption.
  rewrite andb_true_r. apply forallb_forall. intros c I. match goal with H : name_ok n |- _ => pose proof (name_words n H) as W end. rewrite Forall_forall in W. rewrite (W c I). reflexivity.
Qed.
Lemma path_fields : forall n l, (n = [] \/ name_ok n /\ free_of_words n) -> frees l -> path_ok (n ++ fields l).
Proof.
  intros n l N (F & FF). rewrite Forall_forall in F, FF.
  assert (WN : Forall (fun c => is_word c = true) n) by (destruct N as [->|[N _]]; [constructor | exact (name_words n N)]).
  constructor.
  - rewrite forallb_app, fields_chars by (apply Forall_forall; exact F). rewrite andb_true_r. apply forallb_forall. intros c I. rewrite Forall_forall in WN. rewrite (WN c I). reflexivity.
  - intros w [<-|I].
    + apply three_dots, words_dots; [exact WN | apply fields_dots, Forall_forall; exact F].
    + destruct (kept_shape w I) as [D NE]. apply fields_word; [exact D | exact NE | |].
      * destruct N as [->|[_ N]]; [destruct w; [contradiction | reflexivity] | exact (free_contains n w N I)].
      * apply Forall_forall. intros m M. exact (free_contains m w (FF m M) I).
  - apply fields_word; [vm_compute; intuition discriminate | discriminate | |].
    + destruct N as [->|[N _]]; [reflexivity | exact (name_unders n N)].
    + apply Forall_forall. intros m M. exact (name_unders m (F m M)).
Qed.

(** *** The text of an update *)
Definition update_text (W op E : str) : str := W ++ $" " ++ op ++ $" (" ++ E ++ $")".
Lemma update_cut : forall w W op E, ~ In " " w -> ~ In "(" w -> ~ In ")" w -> w <> [] -> contains w W = false -> contains w op = false -> contains w E = false -> contains w (update_text W op E) = false.
Proof.
  intros w W op E B O C NE HW HO HE. unfold update_text.
  assert (NN : contains w [] = false) by (destruct w; [contradiction | reflexivity]).
  apply (cut_word_false w W " "); [exact B | exact HW|]. apply (cut_word_false w op " "); [exact B | exact HO|]. apply (cut_word_false w [] "("); [exact O | exact NN|].
  apply (cut_word_false w E ")"); [exact C | exact HE | exact NN].
Qed.
Lemma blank_word : forall g W, g <> [] -> ~ In " " W -> contains (" " :: g) (W ++ $" ") = false.
Proof.
  intros g W NE N. destruct (contains (" " :: g) (W ++ $" ")) eqn:E; [|reflexivity]. exfalso. apply contains_iff in E. destruct E as (a & b & E).
  assert (NB : g ++ b <> []) by (intro Z; apply app_eq_nil in Z; destruct Z; contradiction). destruct (exists_last NB) as (x & c & X).
  assert (Q : W ++ [" "] = (a ++ " " :: x) ++ [c]).
  { rewrite <- app_assoc. cbn [app]. rewrite <- X. exact E. }
  apply app_inj_tail in Q. destruct Q as [Q _]. apply N. rewrite Q. apply in_or_app. right. left. reflexivity.
Qed.
Lemma clean_update : forall W op E, path_ok W -> clean E -> In op update_ops -> clean (update_text W op E).
Proof.
  intros W op E PW CE IO. destruct PW as [P1 P2 P3]. destruct CE as [C1 C2 C3 C4 C5].
  assert (NB : ~ In " " W) by (intro I; rewrite forallb_forall in P1; apply P1 in I; discriminate I).
  constructor.
  - unfold update_text. rewrite !forallb_app, C1. assert (A : forallb go_char W = true).
    { apply forallb_forall. intros c I. rewrite forallb_forall in P1. specialize (P1 c I). apply orb_true_iff in P1. unfold go_char. destruct P1 as [H|H]; [rewrite H; reflexivity | apply Ascii.eqb_eq in H; subst; reflexivity]. }
    rewrite A. vm_compute in IO. repeat (destruct IO as [<-|IO]; [reflexivity|]). destruct IO.
  - intros w I. assert (Q : ~ In " " w /\ ~ In "(" w /\ ~ In ")" w /\ w <> [] /\ contains w op = false).
    { vm_compute in I. repeat (destruct I as [<-|I]; [repeat split; try (vm_compute; intuition discriminate); vm_compute in IO; repeat (destruct IO as [<-|IO]; [reflexivity|]); destruct IO|]). destruct I. }
    destruct Q as (Q1 & Q2 & Q3 & Q4 & Q5). apply update_cut; auto.
  - apply update_cut; try exact P3; try exact C3; try (vm_compute; intuition discriminate). vm_compute in IO. repeat (destruct IO as [<-|IO]; [reflexivity|]). destruct IO.
  - apply update_cut; try exact C4; try (vm_compute; intuition discriminate).
    + apply contains_missing with (c := "<"); [left; reflexivity|]. intro I. rewrite forallb_forall in P1. apply P1 in I. discriminate I.
    + vm_compute in IO. repeat (destruct IO as [<-|IO]; [reflexivity|]). destruct IO.
  - intros o f I. specialize (C5 o f I).
    assert (Q : ~ In "(" ($" " ++ f ++ $" ") /\ ~ In ")" ($" " ++ f ++ $" ") /\ exists c r, op = c :: r /\ ~ In c ($" " ++ f ++ $" ") /\ contains ($" " ++ f ++ $" ") (r ++ $" ") = false).
    { vm_compute in I. repeat (destruct I as [I|I]; [inversion I; subst; clear I C5; split; [vm_compute; intuition discriminate | split; [vm_compute; intuition discriminate|]]; vm_compute in IO;
        repeat (destruct IO as [<-|IO]; [do 2 eexists; split; [reflexivity | split; [vm_compute; intuition discriminate | reflexivity]]|]); destruct IO|]). destruct I. }
    destruct Q as (Q1 & Q2 & c & r & -> & Q3 & Q4). unfold update_text.
    replace (W ++ $" " ++ (c :: r) ++ $" (" ++ E ++ $")") with ((W ++ $" ") ++ c :: ((r ++ $" ") ++ "(" :: (E ++ ")" :: []))) by (rewrite <- !app_assoc; reflexivity).
    apply cut_word_false; [exact Q3 | |].
    + apply (blank_word (f ++ $" ") W); [destruct f; discriminate | exact NB].
    + apply cut_word_false; [exact Q1 | exact Q4|]. apply cut_word_false; [exact Q2 | exact C5 | reflexivity].
Qed.

(** *** Dots *)
Lemma held_word : forall w t h, Forall (fun c => is_word c = true) w -> w <> [] -> dots_held h (w ++ t) = dots_held true t.
Proof.
  induction w as [|c w IH]; intros t h F NE; [contradiction|]. inversion F; subst. cbn [app dots_held].
  assert (C : Ascii.eqb c "." = false) by (destruct (Ascii.eqb_spec c ".") as [->|_]; [discriminate | reflexivity]). rewrite C, orb_true_r. cbn [andb].
  assert (HC : held c = true) by (unfold held; match goal with H : is_word c = true |- _ => rewrite H end; reflexivity). rewrite HC.
  destruct w as [|d w]; [reflexivity|]. apply IH; [assumption | discriminate].
Qed.
Lemma held_fields : forall l t, Forall name_ok l -> dots_held true (fields l ++ t) = dots_held true t.
Proof.
  induction l as [|n l IH]; intros t F; [reflexivity|]. inversion F; subst. change (fields (n :: l) ++ t) with ("." :: (n ++ fields l) ++ t). cbn [dots_held orb andb].
  rewrite <- app_assoc. rewrite held_word by (try apply name_words; try apply name_not_nil; assumption). apply IH. assumption.
Qed.
Lemma held_text : forall E, (forall a b, E = a ++ "." :: b -> exists a' c, a = a' ++ [c] /\ (word_char c \/ c = ")")) -> dots_held false E = true.
Proof.
  assert (G : forall E h, (forall a b, E = a ++ "." :: b -> (a = [] /\ h = true) \/ exists a' c, a = a' ++ [c] /\ (word_char c \/ c = ")")) -> dots_held h E = true).
  { induction E as [|c E IH]; intros h H; [reflexivity|]. cbn [dots_held]. apply andb_true_iff. split.
    - destruct (Ascii.eqb_spec c ".") as [->|_]; [|apply orb_true_r]. destruct (H [] E eq_refl) as [[_ ->]|(a' & c' & Z & _)]; [reflexivity|]. symmetry in Z. apply app_eq_nil in Z. destruct Z; discriminate.
    - apply IH. intros a b X. subst E. destruct (H (c :: a) b eq_refl) as [[Z _]|(a' & c' & Z & W)]; [discriminate Z|].
      destruct a as [|d a]; [left; split; [reflexivity|]; destruct a' as [|x a']; [injection Z as ->; unfold held; destruct W as [W| ->]; [apply is_word_iff in W; rewrite W; reflexivity | reflexivity] | injection Z as _ Z; symmetry in Z; apply app_eq_nil in Z; destruct Z; discriminate]|].
      right. destruct a' as [|x a']; [injection Z as _ Z; discriminate Z|]. injection Z as _ Z. exists a', c'. split; [exact Z | exact W]. }
  intros E H. apply G. intros a b X. right. exact (H a b X).
Qed.
Lemma held_update : forall op E, In op update_ops -> dots_held false E = true -> dots_held true ($" " ++ op ++ $" (" ++ E ++ $")") = true.
Proof.
  intros op E IO D. assert (Q : forall t, dots_held true ($" " ++ op ++ $" (" ++ t) = dots_held false t).
  { intro t. vm_compute in IO. repeat (destruct IO as [<-|IO]; [reflexivity|]). destruct IO. }
  rewrite Q, dots_app, D. destruct E as [|c E]; [reflexivity|]. cbn [andb]. destruct (after_held (last_byte (c :: E))); reflexivity.
Qed.
