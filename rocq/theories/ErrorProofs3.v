(** What the error handler does with missing keys. *)
From Coq Require Import String Ascii List ZArith NArith Bool Lia ZifyBool ZifyN.
From Verif Require Import GoStr GoStrFacts NumFacts Utf8 TemplateModel TemplateSpec TemplateProofs ProcessModel TextModel TextSpec TextProofs2 TextProofs3 ReModel ReSyntaxModel RazorTableModel RazorAssignModel ReSound RazorRefMain RazorAsgGo RazorAsgMatch ErrorModel ErrorSpec ErrorMatch ErrorMatch2 ErrorMatch3 ErrorMatch4 ErrorProofs ErrorProofs2.
Import ListNotations.
Local Open Scope char_scope.

Lemma word_char_ok : forall c, word_char c -> is_break $"._" c = false.
Proof.
  intros c H. assert (X : forall c, word_char c -> is_break $"._" c = false); [|exact (X c H)]. clear c H. intros c [H | [-> | ->]]; try reflexivity.
  destruct c as [[] [] [] [] [] [] [] []]; try reflexivity; cbn in H; exfalso; lia.
Qed.
Lemma run_word : forall w y, Forall word_char w -> match y with [] => True | c :: _ => is_break $"._" c = true end -> run_length (fun c => negb (is_break $"._" c)) (w ++ y) = length w.
Proof.
  induction w as [|c w IH]; intros y F Y.
  - cbn [app]. destruct y as [|c y]; [reflexivity|]. cbn [run_length length]. rewrite Y. reflexivity.
  - inversion F as [|? ? F1 F2]; subst. cbn [app run_length]. rewrite (word_char_ok _ F1). cbn [negb length]. f_equal. apply IH; assumption.
Qed.
Lemma word_here : forall x w y, w <> [] -> Forall word_char w -> match y with [] => True | c :: _ => is_break $"._" c = true end ->
  select_word ((x ++ [" "]) ++ w ++ y) (Z.of_nat (S (length x))) = w.
Proof.
  intros x w y NE F Y. unfold select_word, word_at. change (concat [$"."; $"_"]) with $"._".
  destruct (Z.ltb_spec (Z.of_nat (S (length x))) 0) as [A|A]; [lia|]. unfold slen.
  assert (LW : length w <> 0) by (destruct w; [contradiction | discriminate]).
  destruct (Z.leb_spec (Z.of_nat (length ((x ++ [" "]) ++ w ++ y))) (Z.of_nat (S (length x)))) as [B|B]; [rewrite !app_length in B; cbn [length] in B; lia|]. cbn [orb]. rewrite Nat2Z.id.
  assert (SK : skipn (S (length x)) ((x ++ [" "]) ++ w ++ y) = w ++ y).
  { replace (S (length x)) with (length (x ++ [" "])) by (rewrite app_length; cbn; lia). rewrite skipn_app, skipn_all, Nat.sub_diag. reflexivity. }
  rewrite SK. rewrite run_word by assumption.
  assert (FI : firstn (S (S (length x))) ((x ++ [" "]) ++ w ++ y) = (x ++ [" "]) ++ firstn 1 w).
  { rewrite firstn_app. rewrite app_length. cbn [length]. replace (S (S (length x)) - (length x + 1)) with 1 by lia. rewrite firstn_all2 by (rewrite app_length; cbn; lia). f_equal. destruct w; [contradiction | reflexivity]. }
  rewrite FI. destruct w as [|c w]; [contradiction|]. inversion F as [|? ? F1 F2]; subst. cbn [firstn]. rewrite rev_app_distr. rewrite rev_app_distr. cbn [rev app run_length]. rewrite (word_char_ok _ F1). cbn [negb]. change (is_break $"._" " ") with true. cbn [negb].
  destruct (Z.eqb_spec (Z.of_nat (S (length x)) - Z.of_nat 1) (Z.of_nat (S (length x)) + Z.of_nat (length (c :: w)))) as [E|E]; [cbn [length] in E; lia|]. cbn [fst].
  replace (Z.to_nat (Z.of_nat (S (length x)) - Z.of_nat 1 + 1)) with (S (length x)) by lia.
  match goal with |- firstn _ (skipn _ ?z) = _ => change z with ((x ++ [" "]) ++ (c :: w) ++ y) end. rewrite SK.
  replace (Z.to_nat (Z.of_nat (S (length x)) + Z.of_nat (length (c :: w)) - (Z.of_nat (S (length x)) - Z.of_nat 1 + 1))) with (length (c :: w)) by lia. apply firstn_app_exact.
Qed.
Lemma no_inner : forall s p, ~ In "(" (firstn p s) -> select_context s (Z.of_nat p) $"(" $")" = [].
Proof.
  intros s p H. assert (L : last_index $"(" (firstn p s) = None).
  { destruct (last_index $"(" (firstn p s)) as [n|] eqn:L; [|reflexivity]. exfalso. apply last_index_Some in L; [|discriminate]. destruct L as (L & _). destruct L as (u & v & E2 & _). apply H. rewrite E2. apply in_or_app. right. left. reflexivity. }
  unfold select_context, context_at. destruct ((Z.of_nat p <? 0)%Z || (slen s <=? Z.of_nat p)%Z); [reflexivity|]. rewrite Nat2Z.id.
  cbv zeta. match goal with |- context [find_left ?l s p] => assert (F : find_left l s p = None) by exact L; rewrite F end. reflexivity.
Qed.
(** ** The expressions of managed values *)
Definition sp : re := RRune c_space.
Definition blanks : re := RStar true sp.
Definition blanks1 : re := RSeq sp blanks.
Definition begin_re : re :=
  ROpt (RGroup 1 (RSeq (RGroup 2 (RAlt (Lits $"{{" (RSeq (ROpt (RByte (Ascii.eqb "-"))) (RSeq blanks (RSeq (RGroup 3 (RAlt (RAlt (lit $"if") (lit $"range")) (lit $"with"))) (RSeq sp (RStar true (RRune dot))))))) (lit $"("))) blanks)).
Definition end_re (n : nat) : re := RGroup n (RSeq blanks (RGroup (S n) (RAlt (RSeq (ROpt (RByte (Ascii.eqb "-"))) (lit $"}}")) (lit $")")))).
Section Undef.
Variable beyond : N -> bool.
Lemma undef_are : map (compiled_of beyond) (undef_expressions default_delims) =
  [{| c_re := RSeq begin_re (RSeq (RGroup 4 (RAlt (RAlt (lit $"undef") (lit $"ifUndef")) (lit $"default"))) (RSeq blanks1 (RSeq (RGroup 5 (RStar false (RRune dot))) (RSeq blanks1 (Lits undef_error (end_re 6)))))); c_names := [($"end", 6); ($"ifUndef", 5); ($"begin", 1)] |};
   {| c_re := RSeq begin_re (RSeq (RGroup 4 (RAlt (RAlt (RAlt (RAlt (lit $"isZero") (lit $"isNil")) (lit $"isNull")) (lit $"isEmpty")) (lit $"isSet"))) (RSeq blanks1 (Lits undef_error (end_re 5)))); c_names := [($"end", 5); ($"isZero", 4); ($"begin", 1)] |};
   {| c_re := RSeq begin_re (Lits $"assert" (RSeq blanks1 (RSeq (RGroup 4 (lit undef_error)) (RSeq (RStar false (RRune dot)) (end_re 5))))); c_names := [($"end", 5); ($"assert", 4); ($"begin", 1)] |}].
Proof. vm_compute. reflexivity. Qed.

(** *** Nothing managed *)
Lemma holds_prefix : forall t u w, holds t w -> holds (t ++ u) w.
Proof. intros t u w (a & b & ->). exists a, (b ++ u). rewrite <- !app_assoc. reflexivity. Qed.
Inductive words_of : re -> list str -> Prop :=
| w_lit w : w <> [] -> words_of (lit w) [w]
| w_alt a b l m : words_of a l -> words_of b m -> words_of (RAlt a b) (l ++ m).
Lemma eats_words : forall r l, words_of r l -> forall s s', eats r s s' -> exists w, In w l /\ s = w ++ s'.
Proof.
  intros r l W. induction W as [w NE|a b l m W1 IH1 W2 IH2]; intros s s' H; [exists w; split; [left; reflexivity | apply eats_lit; assumption]|].
  inversion H as [| | | |? ? ? ? X|? ? ? ? X| | | | | | | |]; subst; [destruct (IH1 _ _ X) as (w & I & E) | destruct (IH2 _ _ X) as (w & I & E)]; exists w; (split; [apply in_or_app; auto | exact E]).
Qed.
Lemma word_none : forall n r l q s pv, words_of r l -> (forall w, In w l -> ~ holds s w) -> search n (RSeq begin_re (RSeq (RGroup 4 r) q)) (pv, s) = None.
Proof.
  intros n r l q s pv W H. apply search_none. intros u t E t' X. cbn [snd] in E. subst s. apply eats_seq in X. destruct X as (v & s2 & -> & _ & X). apply eats_seq in X. destruct X as (v2 & s3 & -> & X & _).
  inversion X as [| | | | | | | |? ? ? ? X1| | | | |]; subst. destruct (eats_words r l W _ _ X1) as (w & I & E). apply (H w I). exists (u ++ v), s3. rewrite E. rewrite <- !app_assoc. reflexivity.
Qed.
Lemma assert_none : forall n q s pv, ~ holds s $"assert" -> search n (RSeq begin_re (Lits $"assert" q)) (pv, s) = None.
Proof.
  intros n q s pv H. apply search_none. intros u t E t' X. cbn [snd] in E. subst s. apply eats_seq in X. destruct X as (v & s2 & -> & _ & X). apply eats_lits in X. destruct X as (s3 & -> & _). apply H. exists (u ++ v), s3. rewrite <- !app_assoc. reflexivity.
Qed.
Lemma unmanaged : forall s, (forall w, In w lenient -> ~ holds s w) -> multi 0 (map (compiled_of beyond) (undef_expressions default_delims)) s = None.
Proof.
  intros s H. rewrite undef_are. rewrite multi_none.
  - rewrite multi_none; [rewrite multi_none; [reflexivity|]|].
    + apply assert_none. apply H. unfold lenient. do 8 right. left. reflexivity.
    + eapply word_none; [repeat (apply w_alt); apply w_lit; discriminate|]. intros w I. apply H. cbn [app] in I. unfold lenient. do 3 right. cbn [In] in I |- *. tauto.
  - eapply word_none; [repeat (apply w_alt); apply w_lit; discriminate|]. intros w I. apply H. cbn [app] in I. unfold lenient. cbn [In] in I |- *. tauto.
Qed.
End Undef.
Lemma replace_str_only : forall w x a b, w <> [] -> (forall k, occurs_at w (a ++ w ++ b) k -> k = length a) -> replace_str w x (a ++ w ++ b) = a ++ x ++ b.
Proof. intros w x a b NE H. unfold replace_str. pose proof (replace_only w x a b NE H) as R. destruct w; [contradiction | exact R]. Qed.
