(** Razor documents with blocks: the matches of the rows for loops, commands, alternatives and ends. *)
From Coq Require Import String Ascii List ZArith NArith Bool Lia ZifyBool ZifyN.
From Verif Require Import GoStr GoStrFacts Utf8 TemplateModel TemplateSpec TemplateProofs RazorExprModel RazorWordsSpec
  ReModel ReSyntaxModel RazorTableModel RazorAssignModel ReSound RazorRefSpec RazorRefAuto RazorRefProofs RazorRefMain RazorAsgSpec RazorAsgMatch BlockSpec.
Import ListNotations.
Local Open Scope char_scope.

(** ** The expressions *)
Notation B c := (RByte (Ascii.eqb c)).
Definition for_re : re := RSeq (B "@") (RSeq marks (RSeq (B "f") (RSeq (B "o") (RSeq (B "r") (RSeq (ROpt (RSeq blanks (RazorRefMain.Lit $"each"))) (RSeq blanks (B "("))))))).
Definition commands_re : re :=
  RAlt (RAlt (RAlt (RAlt (RAlt (RazorRefMain.Lit $"if") (RSeq (B "e") (RSeq (B "l") (RSeq (B "s") (RSeq (B "e") (RSeq blanks (RSeq (B "i") (B "f")))))))) (RazorRefMain.Lit $"block")) (RazorRefMain.Lit $"with"))
    (RazorRefMain.Lit $"define")) (RazorRefMain.Lit $"range").
Definition value_re : re := RGroup 7 (RSeq (RRune line2) (RStar true (RRune line2))).
Definition value_end : re := RSeq blanks (RSeq (B ")") blanks).
Definition command_re (a : re) : re :=
  RSeq (B "@") (RSeq marks (RSeq (RGroup 5 commands_re) (RSeq blanks (RSeq (B "(") (RSeq blanks (RSeq (ROpt (RGroup 6 a)) (RSeq blanks (RSeq value_re value_end)))))))).
Definition else_re : re := RSeq (B "@") (RSeq marks (RazorRefMain.Lit $"else")).
Definition blocks_re : re :=
  RAlt (RAlt (RAlt (RAlt (RAlt (RAlt (RAlt (RazorRefMain.Lit $"if") (RazorRefMain.Lit $"range")) (RazorRefMain.Lit $"define")) (RazorRefMain.Lit $"block")) (RazorRefMain.Lit $"with"))
    (RSeq (B "f") (RSeq (B "o") (RSeq (B "r") (RSeq blanks (RazorRefMain.Lit $"each")))))) (RazorRefMain.Lit $"for")) RNil.
Definition end_re : re :=
  RSeq (B "@") (RSeq marks (RSeq (RGroup 5 (RSeq (B "e") (RSeq (B "n") (RSeq (B "d") (RSeq blanks (RGroup 6 blocks_re)))))) (ROpt closing))).

Section Shapes.
Variable beyond : N -> bool.
Definition row18 : replacement := nth 18 (table beyond) no_row.
Definition row35 : replacement := nth 35 (table beyond) no_row.
Definition row43 : replacement := nth 43 (table beyond) no_row.
Definition row44 : replacement := nth 44 (table beyond) no_row.
Definition assign_in (r : re) : re := match r with RSeq _ (RSeq _ (RSeq _ (RSeq _ (RSeq _ (RSeq _ (RSeq (RAlt (RGroup _ a) _) _)))))) => a | _ => RNil end.
Fixpoint head_re (r : re) : re := match r with RSeq a _ => head_re a | a => a end.
Lemma row18_eq : c_re (r_re row18) = for_re /\ c_names (r_re row18) = [($"reduce2", 4); ($"reduce1", 3); ($"reduce", 1)] /\ r_parser row18 = None /\ r_replace row18 = $"@${reduce}range(".
Proof. vm_compute. repeat split. Qed.
Definition command_names : list (str * nat) := [($"expr", 7); ($"assign", 6); ($"command", 5); ($"reduce2", 4); ($"reduce1", 3); ($"reduce", 1)].
Definition command_repl : str := $"{{${reduce1} ${command} ${assign}${expr} ${reduce2}}}".
Lemma row35_eq : c_re (r_re row35) = command_re (assign_in (c_re (r_re row35))) /\ c_names (r_re row35) = command_names /\ r_parser row35 = Some PExprSkip /\ r_replace row35 = command_repl.
Proof. vm_compute. repeat split. Qed.
Lemma row43_eq : c_re (r_re row43) = else_re /\ c_names (r_re row43) = [($"reduce2", 4); ($"reduce1", 3); ($"reduce", 1)] /\ r_parser row43 = None /\ r_replace row43 = $"{{${reduce1} else ${reduce2}}}".
Proof. vm_compute. repeat split. Qed.
Lemma row44_eq : c_re (r_re row44) = end_re /\ r_parser row44 = None /\ r_replace row44 = $"{{${reduce1} end ${reduce2}}}" /\
  forall whole g, named_group (c_names (r_re row44)) whole g $"reduce1" = group 3 g /\ named_group (c_names (r_re row44)) whole g $"reduce2" = group 4 g.
Proof.
  assert (N : c_names (r_re row44) = fst (c_names (r_re row44), tt)) by reflexivity. vm_compute in N. repeat split; try (vm_compute; reflexivity); rewrite N; reflexivity.
Qed.
Lemma assign_head : head_re (assign_in (c_re (r_re row35))) = B "$".
Proof. vm_compute. reflexivity. Qed.
End Shapes.

Lemma head_eats : forall f r s t, head_re r = RByte f -> eats r s t -> exists c x, s = c :: x /\ f c = true.
Proof.
  intros f. induction r; intros s t H E; try discriminate H.
  - injection H as ->. inversion E; subst. eexists; eexists; split; [reflexivity | assumption].
  - cbn [head_re] in H. inversion E; subst. eapply IHr1; eassumption.
Qed.

(** ** Where the parts end *)
Lemma byte_lands : forall c s k g pv T G0, (forall pv', lands (k (pv', s) g) T G0) -> lands (rmatch (B c) (pv, c :: s) g k) T G0.
Proof. intros c s k g pv T G0 K. cbn [rmatch snd]. rewrite Ascii.eqb_refl. apply K. Qed.
Lemma right_lands : forall a b p g k T G0, (forall t, ~ eats a (snd p) t) -> lands (rmatch b p g k) T G0 -> lands (rmatch (RAlt a b) p g k) T G0.
Proof.
  intros a b p g k T G0 N (q & Q). exists q. cbn [rmatch]. destruct (rmatch a p g k) as [x|] eqn:M; [|exact Q]. exfalso. apply rmatch_eats in M. destruct M as (p' & g' & EA & _). exact (N _ EA).
Qed.
Lemma left_lands : forall a b p g k T G0, lands (rmatch a p g k) T G0 -> lands (rmatch (RAlt a b) p g k) T G0.
Proof. intros a b p g k T G0 (q & Q). exists q. cbn [rmatch]. rewrite Q. reflexivity. Qed.
Lemma marks_lands : forall m c t pv k T G0, is_alpha c = true -> (forall pv', lands (k (pv', c :: t) (mark_groups m)) T G0) -> lands (rmatch marks (pv, mark_text m ++ c :: t) [] k) T G0.
Proof.
  intros m c t pv k T G0 A K. destruct (alpha_facts (fun _ => true) c A) as (_ & _ & D1 & D2).
  assert (T1 : forall a b, taken (a, c :: t) (b, c :: t) = []) by (intros; exact (taken_app a b [] (c :: t))).
  assert (T2 : forall a b d, taken (a, d :: c :: t) (b, c :: t) = [d]) by (intros a b d; exact (taken_app a b [d] (c :: t))).
  assert (T3 : forall a b d e, taken (a, d :: e :: c :: t) (b, c :: t) = [d; e]) by (intros a b d e; exact (taken_app a b [d; e] (c :: t))).
  assert (T4 : forall a b d e, taken (a, d :: e :: c :: t) (b, e :: c :: t) = [d]) by (intros a b d e; exact (taken_app a b [d] (e :: c :: t))).
  unfold marks, ROpt. destruct m;
    [> change (mark_text Plain ++ c :: t) with (c :: t); destruct (K pv) as (q & Q) | change (mark_text Under ++ c :: t) with ("_" :: c :: t); destruct (K (Some "_")) as (q & Q)
     | change (mark_text Dash ++ c :: t) with ("-" :: c :: t); destruct (K (Some "-")) as (q & Q) | change (mark_text DashDash ++ c :: t) with ("-" :: "-" :: c :: t); destruct (K (Some "-")) as (q & Q)
     | change (mark_text UnderDash ++ c :: t) with ("_" :: "-" :: c :: t); destruct (K (Some "-")) as (q & Q) ]; exists q; cbn [rmatch snd];
    change (Ascii.eqb "-" "-") with true; change (Ascii.eqb "_" "_") with true; change (Ascii.eqb "-" "_") with false; cbn iota;
    rewrite ?D1, ?D2, ?T1, ?T2, ?T3, ?T4; repeat apply first_wins; exact Q.
Qed.
(** A repetition that takes too much and comes back *)
Lemma star_back : forall cl k g w2 t T G0, stops cl t -> Forall (fun c => low c = true /\ in_class cl (N_of_ascii c) = true) w2 ->
  (forall a b pv, w2 = a ++ b -> a <> [] -> k (pv, b ++ t) g = None) -> (forall pv, lands (k (pv, w2 ++ t) g) T G0) ->
  forall w1 n pv, Forall (fun c => low c = true /\ in_class cl (N_of_ascii c) = true) w1 -> length (w1 ++ w2) <= n ->
  lands (star_loop true (fun p g k => rmatch (RRune cl) p g k) k n (pv, w1 ++ w2 ++ t) g) T G0.
Proof.
  intros cl k g w2 t T G0 ST W2 NO K.
  assert (NONE : forall w a n pv, w2 = a ++ w -> a <> [] -> length w <= n -> star_loop true (fun p g k => rmatch (RRune cl) p g k) k n (pv, w ++ t) g = None).
  { induction w as [|c w IH]; intros a n pv E NE L.
    - specialize (NO a [] pv E NE). cbn [app] in *. destruct n as [|n]; [exact NO|]. cbn [star_loop]. destruct t as [|c t]; [exact NO|]. destruct ST as [LC IC]. rewrite rune_low by exact LC. rewrite IC. exact NO.
    - destruct n as [|n]; [cbn in L; lia|]. assert (F : low c = true /\ in_class cl (N_of_ascii c) = true) by (rewrite Forall_forall in W2; apply W2; rewrite E; apply in_or_app; right; left; reflexivity).
      destruct F as [LC IC]. cbn [star_loop app]. rewrite rune_low by exact LC. rewrite IC. cbn [snd length]. destruct (Nat.ltb_spec (length (w ++ t)) (S (length (w ++ t)))) as [_|X]; [|lia].
      rewrite (IH (a ++ [c])); [exact (NO a (c :: w) pv E NE) | rewrite <- app_assoc; exact E | destruct a; discriminate | cbn in L; lia]. }
  induction w1 as [|c w1 IH]; intros n pv W1 L.
  - cbn [app] in *. destruct (K pv) as (q & Q). exists q. destruct n as [|n]; [exact Q|]. cbn [star_loop]. destruct w2 as [|c w2].
    + cbn [app] in *. destruct t as [|c t]; [exact Q|]. destruct ST as [LC IC]. rewrite rune_low by exact LC. rewrite IC. exact Q.
    + inversion W2 as [|? ? [LC IC] W3]; subst. cbn [app]. rewrite rune_low by exact LC. rewrite IC. cbn [snd length]. destruct (Nat.ltb_spec (length (w2 ++ t)) (S (length (w2 ++ t)))) as [_|X]; [|lia].
      rewrite (NONE w2 [c] n (Some c) eq_refl ltac:(discriminate)); [exact Q | cbn in L; lia].
  - destruct n as [|n]; [cbn in L; lia|]. inversion W1 as [|? ? [LC IC] W3]; subst. cbn [star_loop app]. rewrite rune_low by exact LC. rewrite IC. cbn [snd length].
    destruct (Nat.ltb_spec (length (w1 ++ w2 ++ t)) (S (length (w1 ++ w2 ++ t)))) as [_|X]; [|lia]. destruct (IH n (Some c) W3 ltac:(cbn in L; lia)) as (q & Q). exists q. unfold place, str in *. rewrite Q. reflexivity.
Qed.
