From Coq Require Import String Ascii List ZArith NArith Bool Lia.
From Verif Require Import GoStr GoStrFacts QuoteModel QuoteProofs RazorExprModel RazorExprSpec.
Import ListNotations.

(** ** Texts of the grammar *)

Definition name_like (c : ascii) : bool := word_char c && negb (Ascii.eqb c "."%char).
Inductive op_text : str -> tree -> Prop :=
| ot_word w : w <> [] -> forallb word_char w = true -> op_text w (Atom w)
| ot_lit c r : quotation c = true -> literal_end c r = Some (r, []) -> op_text (c :: r) (Atom (c :: r))
| ot_group s l : cmd_text s l -> op_text ($"(" ++ s ++ $")") (group l)
| ot_field s l f : cmd_text s l -> f <> [] -> forallb name_like f = true -> op_text ($"(" ++ s ++ $")." ++ f) (Field (group l) f)
with cmd_text : str -> list tree -> Prop :=
| ct_one s t : op_text s t -> cmd_text s [t]
| ct_more s t r l : op_text s t -> cmd_text r l -> cmd_text (s ++ $" " ++ r) (t :: l).
Scheme op_text_ind2 := Induction for op_text Sort Prop with cmd_text_ind2 := Induction for cmd_text Sort Prop.
Combined Scheme text_mutind from op_text_ind2, cmd_text_ind2.

Lemma word_not : forall c, word_char c = true -> blank c = false /\ quotation c = false /\ bracket c = false.
Proof.
  intros c H. unfold word_char in H. apply negb_true_iff in H. apply orb_false_elim in H. destruct H as [H B].
  apply orb_false_elim in H. destruct H as [A Q]. auto.
Qed.
Lemma not_bracket : forall c, bracket c = false -> Ascii.eqb c "("%char = false /\ Ascii.eqb c ")"%char = false.
Proof.
  intros c H. split.
  - destruct (Ascii.eqb_spec c "("%char); [subst; discriminate H | reflexivity].
  - destruct (Ascii.eqb_spec c ")"%char); [subst; discriminate H | reflexivity].
Qed.
Lemma quote_not_bracket : forall c, quotation c = true -> Ascii.eqb c "("%char = false /\ blank c = false.
Proof.
  intros c H. split.
  - destruct (Ascii.eqb_spec c "("%char); [subst; discriminate H | reflexivity].
  - destruct (blank c) eqn:B; [| reflexivity]. exfalso.
    destruct c as [[] [] [] [] [] [] [] []]; cbv in B, H; discriminate.
Qed.

Definition stop (rest : str) : Prop := match rest with [] => True | c :: _ => c = " "%char \/ c = ")"%char end.
Definition stop_end (rest : str) : Prop := match rest with [] => True | c :: _ => c = ")"%char end.

Lemma take_words : forall w rest, forallb word_char w = true -> stop rest ->
  take_while word_char (w ++ rest) = w /\ drop_while word_char (w ++ rest) = rest.
Proof.
  induction w as [|c w IH]; intros rest H K.
  - cbn [app]. destruct rest as [|d rest]; [split; reflexivity|]. cbn [take_while drop_while].
    assert (word_char d = false) by (destruct K as [-> | ->]; reflexivity). rewrite H0. split; reflexivity.
  - cbn [forallb] in H. apply andb_true_iff in H. destruct H as [A B]. cbn [app take_while drop_while]. rewrite A.
    destruct (IH rest B K) as [-> ->]. split; reflexivity.
Qed.

Lemma literal_app_n : forall n q r t rest z, List.length r < n -> literal_end q r = Some (t, rest) -> literal_end q (r ++ z) = Some (t, rest ++ z).
Proof.
  induction n as [|n IH]; intros q r t rest z L H; [inversion L|]. destruct r as [|c r]; [discriminate H|].
  cbn [app literal_end] in *. cbn [List.length] in L.
  destruct (Ascii.eqb c q); [inversion H; reflexivity|].
  destruct (Ascii.eqb c "\"%char && negb (Ascii.eqb q "`"%char))%bool.
  - destruct r as [|d r]; [discriminate H|]. cbn [app]. cbn [List.length] in L.
    destruct (literal_end q r) as [[t' rest']|] eqn:E; [| discriminate H]. inversion H; subst.
    rewrite (IH q r t' rest z ltac:(lia) E). reflexivity.
  - destruct (literal_end q r) as [[t' rest']|] eqn:E; [| discriminate H]. inversion H; subst.
    rewrite (IH q r t' rest z ltac:(lia) E). reflexivity.
Qed.
Lemma literal_app : forall q r t rest z, literal_end q r = Some (t, rest) -> literal_end q (r ++ z) = Some (t, rest ++ z).
Proof. intros. apply (literal_app_n (S (List.length r))); [lia | assumption]. Qed.

Lemma fields_stop : forall t rest, stop rest -> fields_of t None rest = Some (t, rest).
Proof. intros t [|c rest] K; [reflexivity|]. destruct K as [-> | ->]; reflexivity. Qed.
Lemma fields_name : forall f t w rest, forallb name_like f = true -> (f <> [] \/ w <> []) -> stop rest ->
  fields_of t (Some w) (f ++ rest) = Some (Field t (rev w ++ f), rest).
Proof.
  induction f as [|c f IH]; intros t w rest H N K.
  - cbn [app]. rewrite app_nil_r. destruct N as [N | N]; [congruence|].
    destruct w as [|x w]; [congruence|]. destruct rest as [|d rest]; [reflexivity|].
    destruct K as [-> | ->]; reflexivity.
  - cbn [forallb] in H. apply andb_true_iff in H. destruct H as [A B]. unfold name_like in A. apply andb_true_iff in A.
    destruct A as [A D]. apply negb_true_iff in D. cbn [app fields_of]. rewrite D, A.
    rewrite IH; [| exact B | right; discriminate | exact K]. cbn [rev]. rewrite <- app_assoc. reflexivity.
Qed.
Lemma fields_one : forall f t rest, forallb name_like f = true -> f <> [] -> stop rest ->
  fields_of t None ($"." ++ f ++ rest) = Some (Field t f, rest).
Proof.
  intros f t rest H N K. change (fields_of t None ("."%char :: f ++ rest) = Some (Field t f, rest)). cbn [fields_of].
  change (Ascii.eqb "."%char "."%char) with true. cbn iota. rewrite (fields_name f t [] rest H (or_introl N) K). reflexivity.
Qed.

Lemma op_first : (forall s t, op_text s t -> exists c r, s = c :: r /\ blank c = false) /\
  (forall s l, cmd_text s l -> exists c r, s = c :: r /\ blank c = false).
Proof.
  apply text_mutind.
  - intros w N H. destruct w as [|c w]; [congruence|]. exists c, w. split; [reflexivity|].
    cbn [forallb] in H. apply andb_true_iff in H. apply word_not. tauto.
  - intros c r H L. exists c, r. split; [reflexivity|]. apply (quote_not_bracket c H).
  - intros s l _ _. eexists _, _. split; [reflexivity|]. reflexivity.
  - intros s l f _ _ _ _. eexists _, _. split; [reflexivity|]. reflexivity.
  - intros s t _ H. exact H.
  - intros s t r l _ (c & x & -> & B) _ _. exists c, (x ++ $" " ++ r). split; [reflexivity | exact B].
Qed.
Lemma cmd_nonempty : forall s l, cmd_text s l -> l <> [].
Proof. intros s l H. inversion H; discriminate. Qed.

(** The reader reads the texts of the grammar. *)
Lemma reads : (forall s t, op_text s t -> forall n rest, 2 * List.length s + 1 <= n -> stop rest -> operand n (s ++ rest) = Some (t, rest)) /\
  (forall s l, cmd_text s l -> forall n rest, 2 * List.length s + 2 <= n -> stop_end rest -> operands n (s ++ rest) = Some (l, rest)).
Proof.
  apply text_mutind.
  - intros w N H n rest L K. destruct n as [|n]; [lia|]. destruct w as [|c w]; [congruence|].
    cbn [app operand]. pose proof H as H'. cbn [forallb] in H. apply andb_true_iff in H. destruct H as [A B].
    destruct (word_not c A) as (_ & Q & R). destruct (not_bracket c R) as [-> _]. rewrite Q.
    change (c :: w ++ rest) with ((c :: w) ++ rest). destruct (take_words (c :: w) rest H' K) as [-> ->]. reflexivity.
  - intros c r Q E n rest L K. destruct n as [|n]; [lia|]. cbn [app operand].
    destruct (quote_not_bracket c Q) as [-> _]. rewrite Q. rewrite (literal_app c r r [] rest E). reflexivity.
  - intros s l C IH n rest L K. destruct n as [|n]; [lia|].
    assert (X : ($"(" ++ s ++ $")") ++ rest = "("%char :: (s ++ ")"%char :: rest)).
    { change ($"(") with ["("%char]. change ($")") with [")"%char]. cbn [app]. rewrite <- app_assoc. reflexivity. }
    rewrite X. cbn [operand]. change (Ascii.eqb "("%char "("%char) with true. cbn iota.
    rewrite IH; [| rewrite !app_length in L; cbn in L; lia | reflexivity].
    change (Ascii.eqb ")"%char ")"%char) with true. cbn iota. apply fields_stop, K.
  - intros s l f C IH N H n rest L K. destruct n as [|n]; [lia|].
    assert (X : ($"(" ++ s ++ $")." ++ f) ++ rest = "("%char :: (s ++ ")"%char :: ($"." ++ f ++ rest))).
    { change ($"(") with ["("%char]. change ($").") with [")"%char; "."%char]. change ($".") with ["."%char].
      cbn [app]. rewrite <- app_assoc. reflexivity. }
    rewrite X. cbn [operand]. change (Ascii.eqb "("%char "("%char) with true. cbn iota.
    rewrite IH; [| rewrite !app_length in L; cbn in L; lia | reflexivity].
    change (Ascii.eqb ")"%char ")"%char) with true. cbn iota. apply fields_one; assumption.
  - intros s t O IH n rest L K. destruct n as [|n]; [lia|]. cbn [operands].
    rewrite IH; [| lia | destruct rest; [exact I | right; exact K]].
    destruct rest as [|c rest]; [reflexivity|]. cbn [stop_end] in K. subst c. reflexivity.
  - intros s t r l O IH C IHr n rest L K. destruct n as [|n]; [lia|]. cbn [operands].
    assert (X : (s ++ $" " ++ r) ++ rest = s ++ " "%char :: (r ++ rest)) by (rewrite <- app_assoc; reflexivity).
    rewrite X. rewrite IH; [| rewrite !app_length in L; cbn in L; lia | left; reflexivity].
    change (blank " "%char) with true. cbn iota.
    destruct (proj2 op_first r l C) as (c & x & E & B).
    assert (D : drop_while blank (r ++ rest) = r ++ rest) by (rewrite E; cbn [app drop_while]; rewrite B; reflexivity).
    rewrite D, IHr; [reflexivity | rewrite !app_length in L; cbn in L; lia | exact K].
Qed.
Lemma command_reads : forall s l, cmd_text s l -> read_command s = Some l.
Proof.
  intros s l H. unfold read_command. pose proof (proj2 reads s l H (2 * List.length s + 2) [] (le_n _) I) as E.
  rewrite app_nil_r in E. rewrite E. reflexivity.
Qed.

(** ** The translation gives texts of the grammar *)

Definition SP : ascii := " "%char.
Lemma internal_word : forall s, forallb word_char s = true -> internal (Ok s) = Ok s.
Proof.
  intros s H. unfold internal. cbn [bind].
  assert (X : forall c, blank c = true -> contains_byte c s = false).
  { intros c B. destruct (contains_byte c s) eqn:E; [| reflexivity]. apply contains_byte_In in E.
    rewrite forallb_forall in H. apply H in E. apply word_not in E. destruct E as [E _]. congruence. }
  rewrite (X " "%char eq_refl), (X "009"%char eq_refl). cbn. rewrite orb_true_r. reflexivity.
Qed.
Lemma prefix_first : forall p s, has_prefix p s = false -> has_prefix p (hd [] (split_n2 $" " s)) = false.
Proof.
  intros p s H. destruct (has_prefix p (hd [] (split_n2 $" " s))) eqn:E; [| reflexivity]. exfalso.
  unfold split_n2 in E. destruct (index $" " s) as [n|]; cbn [hd] in E; [| congruence].
  apply has_prefix_iff in E. destruct E as [t E].
  assert (K : s = p ++ t ++ skipn n s) by (rewrite app_assoc, <- E; symmetry; apply firstn_skipn).
  rewrite K, has_prefix_app in H. discriminate H.
Qed.
Lemma internal_wrap : forall s, In SP s -> has_prefix [DQ] s = false -> has_prefix dot_rep s = false ->
  internal (Ok s) = Ok ($"(" ++ s ++ $")").
Proof.
  intros s I Q D. unfold internal. cbn [bind]. rewrite Q. apply contains_byte_In in I.
  change SP with " "%char in I. rewrite I. cbn [orb negb]. rewrite (prefix_first _ _ D). reflexivity.
Qed.
(** Texts that begin with a character that is no underscore. *)
Lemma internal_other : forall c r, Ascii.eqb c "_"%char = false -> internal (Ok (c :: r)) = Ok (c :: r) \/
  internal (Ok (c :: r)) = Ok ($"(" ++ (c :: r) ++ $")").
Proof.
  intros c r H. unfold internal. cbn [bind]. destruct (_ || _)%bool; [left; reflexivity|]. right.
  rewrite prefix_first; [reflexivity|]. change dot_rep with ("_"%char :: $"_DoTPrefix__"). cbn [has_prefix].
  rewrite Ascii.eqb_sym, H. reflexivity.
Qed.

Lemma name_chars : forall c, name_char c = true -> name_like c = true /\ c <> STAR /\ c <> SP /\ c <> DQ /\ c <> BSL.
Proof. intros c H. destruct c as [[] [] [] [] [] [] [] []]; cbv in H; try discriminate H; cbv; repeat split; discriminate. Qed.
Lemma like_word : forall c, name_like c = true -> word_char c = true.
Proof. intros c H. apply andb_true_iff in H. tauto. Qed.
Lemma forallb_impl : forall (p q : ascii -> bool) s, (forall c, p c = true -> q c = true) -> forallb p s = true -> forallb q s = true.
Proof. intros p q s H. rewrite !forallb_forall. auto. Qed.
Lemma name_like_all : forall s, forallb name_char s = true -> forallb name_like s = true.
Proof. intros s. apply forallb_impl. intros c H. apply name_chars, H. Qed.
Lemma name_word : forall s, forallb name_char s = true -> forallb word_char s = true.
Proof. intros s. apply forallb_impl. intros c H. apply like_word, name_chars, H. Qed.
Lemma name_no_star : forall s, forallb name_char s = true -> ~ In STAR s.
Proof. intros s H I. rewrite forallb_forall in H. apply H in I. discriminate I. Qed.
Lemma word_no_space : forall s, forallb word_char s = true -> ~ In SP s.
Proof. intros s H I. rewrite forallb_forall in H. apply H in I. discriminate I. Qed.

Definition first_not_digit (s : str) : Prop := match s with [] => False | c :: _ => is_digit c = false end.
Lemma first_app : forall a b, first_not_digit a -> first_not_digit (a ++ b).
Proof. intros [|c a] b H; [destruct H | exact H]. Qed.

Record good (e : expr) (s : str) : Prop := {
  g_text : cmd_text s (words e);
  g_kind : (exists a, words e = [Atom a] /\ s = a /\
              (forallb word_char a = true \/ (is_literal e = true /\ exists c r, a = c :: r /\ quotation c = true))) \/
           (In SP s /\ has_prefix [DQ] s = false /\ (bare (words e) = false -> has_prefix dot_rep s = false) /\
            forall a, words e <> [Atom a]);
  g_star : starless e = true -> ~ In STAR s;
  g_number : match number e with Some v => s = v | None => first_not_digit s end
}.
Record op_good (e : expr) (s : str) : Prop := {
  o_text : op_text s (group (words e));
  o_star : starless e = true -> ~ In STAR s;
  o_number : match number e with Some v => s = v | None => first_not_digit s end;
  o_kind : is_literal e = false ->
    (exists a, words e = [Atom a] /\ s = a /\ forallb word_char a = true) \/
    (exists s0, cmd_text s0 (words e) /\ s = $"(" ++ s0 ++ $")" /\ In SP s0 /\ forall a, group (words e) <> Atom a)
}.

Lemma not_atom : forall l, l <> [] -> (forall a, l <> [Atom a]) -> forall a, group l <> Atom a.
Proof. intros [|t [|u l]] N H a E; [congruence | cbn in E; subst; apply (H a); reflexivity | discriminate E]. Qed.
Lemma number_literal : forall e v, number e = Some v -> is_literal e = true.
Proof. induction e; intros w H; cbn in *; try discriminate H; [reflexivity | eapply IHe, H]. Qed.
Lemma literal_number : forall e v, number e = Some v -> words e = [Atom v] /\ exists c r, v = c :: r /\ is_digit c = true.
Proof.
  induction e; intros w H; cbn [number words] in *; try discriminate H.
  - destruct value as [|c v]; [discriminate H|]. destruct (is_digit c) eqn:D; [| discriminate H].
    inversion H; subst. split; [reflexivity | exists c, v; split; [reflexivity | exact D]].
  - apply IHe, H.
Qed.
Lemma quote_not_underscore : forall c, quotation c = true -> Ascii.eqb c "_"%char = false /\ is_digit c = false.
Proof. intros c H. destruct c as [[] [] [] [] [] [] [] []]; cbv in H; try discriminate H; split; reflexivity. Qed.

Lemma as_operand : forall e s, good e s -> bare (words e) = false -> exists s', internal (Ok s) = Ok s' /\ op_good e s'.
Proof.
  intros e s [GT GK GS GN] B. destruct GK as [(a & W & -> & K) | (I & Q & D & NA)].
  - destruct K as [K | (L & c & r & -> & QC)].
    + exists a. split; [apply internal_word, K|]. rewrite W in GT. inversion GT as [? ? O|]; subst. 2: { exfalso. eapply cmd_nonempty; eauto. }
      split; [rewrite W; exact O | exact GS | exact GN | left; exists a; auto].
    + destruct (quote_not_underscore c QC) as [U DG].
      assert (N : number e = None).
      { destruct (number e) eqn:E; [| reflexivity]. rewrite <- GN in E. destruct (literal_number _ _ E) as (_ & x & y & Z & DD). congruence. }
      rewrite N in GN. pose proof GT as GT'. rewrite W in GT. inversion GT as [? ? O|]; subst. 2: { exfalso. eapply cmd_nonempty; eauto. }
      destruct (internal_other c r U) as [E | E]; eexists; (split; [exact E|]); split.
      * rewrite W. exact O.
      * exact GS.
      * rewrite N. exact GN.
      * congruence.
      * apply ot_group, GT'.
      * intros S H. apply (GS S). apply in_app_iff in H. destruct H as [H | H]; [destruct H as [H | []]; discriminate H|].
        apply in_app_iff in H. destruct H as [H | H]; [exact H | destruct H as [H | []]; discriminate H].
      * rewrite N. reflexivity.
      * congruence.
  - exists ($"(" ++ s ++ $")"). split; [apply internal_wrap; [exact I | exact Q | exact (D B)]|]. split.
    + apply ot_group, GT.
    + intros S H. apply (GS S). apply in_app_iff in H. destruct H as [H | H]; [destruct H as [H | []]; discriminate H|].
      apply in_app_iff in H. destruct H as [H | H]; [exact H | destruct H as [H | []]; discriminate H].
    + destruct (number e) eqn:E; [| reflexivity]. destruct (literal_number _ _ E) as [W _]. exfalso. eapply NA, W.
    + intros _. right. exists s. split; [exact GT|]. split; [reflexivity|]. split; [exact I|].
      apply not_atom; [eapply cmd_nonempty, GT | exact NA].
Qed.

(** Names of operators. *)
Definition lower (c : ascii) : bool := let n := N_of_ascii c in ((97 <=? n) && (n <=? 122))%N.
Lemma known_name : forall op, known op -> operator_name op = Ok (function_of op) /\ function_of op <> [] /\ forallb lower (function_of op) = true /\
  str_eqb (function_of op) $"sub" = str_eqb op $"-" /\ str_eqb (function_of op) $"mul" = str_eqb op $"*".
Proof.
  intros op H. unfold known in H. cbn [map fst function_names] in H.
  repeat (destruct H as [<- | H]; [repeat split; [vm_compute; discriminate] | ]). destruct H.
Qed.
Lemma lower_facts : forall c, lower c = true -> word_char c = true /\ c <> STAR /\ is_digit c = false /\ Ascii.eqb c "_"%char = false /\ c <> DQ.
Proof. intros c H. destruct c as [[] [] [] [] [] [] [] []]; cbv in H; try discriminate H; cbv; repeat split; discriminate. Qed.

Lemma cmd_join : forall ss ts, Forall2 op_text ss ts -> ss <> [] -> cmd_text (join $" " ss) ts.
Proof.
  induction 1 as [|s t ss ts O F IH]; intros N; [congruence|].
  destruct ss as [|s' ss].
  - inversion F; subst. cbn [join]. apply ct_one, O.
  - change (join $" " (s :: s' :: ss)) with (s ++ $" " ++ join $" " (s' :: ss)). apply ct_more; [exact O | apply IH; discriminate].
Qed.
Lemma join_star : forall ss, (forall s, In s ss -> ~ In STAR s) -> ~ In STAR (join $" " ss).
Proof.
  induction ss as [|s [|s' ss] IH]; intros H I; [destruct I | apply (H s (or_introl eq_refl)), I|].
  change (In STAR (s ++ $" " ++ join $" " (s' :: ss))) in I. apply in_app_iff in I. destruct I as [I | I]; [apply (H s (or_introl eq_refl)), I|].
  apply in_app_iff in I. destruct I as [[I | []] | I]; [discriminate I|]. apply IH in I; [exact I|]. intros x K. apply H. right. exact K.
Qed.

(** A command that begins with a word of lower-case letters. *)
Lemma lower_command : forall e w ss ts, w <> [] -> forallb lower w = true -> Forall2 op_text ss ts -> ss <> [] ->
  words e = Atom w :: ts -> number e = None -> (starless e = true -> forall s, In s ss -> ~ In STAR s) ->
  good e (w ++ $" " ++ join $" " ss).
Proof.
  intros e w ss ts N L F NS W NU ST.
  assert (X : exists c r, w = c :: r /\ lower c = true).
  { destruct w as [|c r]; [congruence|]. exists c, r. split; [reflexivity|]. cbn [forallb] in L. apply andb_true_iff in L. tauto. }
  destruct X as (c & r & E & LC). destruct (lower_facts c LC) as (_ & _ & DG & U & NQ).
  split.
  - rewrite W. apply ct_more; [| apply cmd_join; assumption]. apply ot_word; [exact N|].
    eapply forallb_impl; [| exact L]. intros x Hx. apply lower_facts, Hx.
  - right. split; [apply in_app_iff; right; left; reflexivity|]. split.
    + rewrite E. cbn [app]. rewrite has_prefix_1. destruct (Ascii.eqb_spec DQ c); congruence.
    + split.
      * intros _. rewrite E. change dot_rep with ("_"%char :: $"_DoTPrefix__"). cbn [app has_prefix].
        rewrite Ascii.eqb_sym, U. reflexivity.
      * intros a K. rewrite W in K. inversion K; subst. inversion F; subst. congruence.
  - intros S H. apply in_app_iff in H. destruct H as [H | H].
    + rewrite forallb_forall in L. apply L in H. discriminate H.
    + apply in_app_iff in H. destruct H as [[H | []] | H]; [discriminate H|]. revert H. apply join_star. apply ST, S.
  - rewrite NU, E. exact DG.
Qed.

Section Induction.
Variable Q : expr -> Prop.
Hypothesis HU : forall op x, Q x -> Q (Unary op x).
Hypothesis HB : forall op x y, Q x -> Q y -> Q (Binary op x y).
Hypothesis HI : forall n, Q (Ident n).
Hypothesis HL : forall v, Q (Lit v).
Hypothesis HS : forall x s, Q x -> Q (Sel x s).
Hypothesis HP : forall x, Q x -> Q (Paren x).
Hypothesis HC : forall f args dots, Q f -> Forall Q args -> Q (Call f args dots).
Hypothesis HT : forall x, Q x -> Q (Star x).
Hypothesis HX : forall x i, Q x -> Q i -> Q (Index x i).
Hypothesis HSl : forall x low high, Q x -> (forall l, low = Some l -> Q l) -> (forall h, high = Some h -> Q h) -> Q (Slice x low high).
Hypothesis HO : Q Other.
Fixpoint expr_ind2 (e : expr) : Q e :=
  match e with
  | Unary op x => HU op x (expr_ind2 x)
  | Binary op x y => HB op x y (expr_ind2 x) (expr_ind2 y)
  | Ident n => HI n
  | Lit v => HL v
  | Sel x s => HS x s (expr_ind2 x)
  | Paren x => HP x (expr_ind2 x)
  | Call f args dots => HC f args dots (expr_ind2 f)
      ((fix all l : Forall Q l := match l with [] => Forall_nil Q | a :: l' => Forall_cons a (expr_ind2 a) (all l') end) args)
  | Star x => HT x (expr_ind2 x)
  | Index x i => HX x i (expr_ind2 x) (expr_ind2 i)
  | Slice x low high => HSl x low high (expr_ind2 x)
      (match low return forall l, low = Some l -> Q l with
       | Some y => fun l E => match E in _ = o return match o with Some z => Q z | None => True end with eq_refl => expr_ind2 y end
       | None => fun l E => match E in _ = o return match o with Some z => Q z | None => True end with eq_refl => I end
       end)
      (match high return forall l, high = Some l -> Q l with
       | Some y => fun l E => match E in _ = o return match o with Some z => Q z | None => True end with eq_refl => expr_ind2 y end
       | None => fun l E => match E in _ = o return match o with Some z => Q z | None => True end with eq_refl => I end
       end)
  | Other => HO
  end.
End Induction.

Lemma app_field : forall s0 n : str, ($"(" ++ s0 ++ $")") ++ $"." ++ n = $"(" ++ s0 ++ $")." ++ n.
Proof.
  intros. change ($"(") with ["("%char]. change ($")") with [")"%char]. change ($").") with [")"%char; "."%char]. change ($".") with ["."%char].
  cbn [app]. rewrite <- app_assoc. reflexivity.
Qed.
Lemma field_atom : forall a n, field (Atom a) n = Atom (a ++ $"." ++ n).
Proof. reflexivity. Qed.
Lemma field_other : forall t n, (forall a, t <> Atom a) -> field t n = Field t n.
Proof. intros [a| |] n H; [destruct (H a eq_refl) | reflexivity | reflexivity]. Qed.
Lemma dot_words : forall a n, forallb word_char a = true -> forallb name_like n = true -> forallb word_char (a ++ $"." ++ n) = true.
Proof.
  intros a n A N. rewrite !forallb_app, A. cbn [forallb andb]. change ($".") with ["."%char]. cbn [forallb andb].
  change (word_char "."%char) with true. cbn [andb]. eapply forallb_impl; [exact like_word | exact N].
Qed.
Definition sel_kind (x : expr) (n T : str) : Prop :=
  (exists a, field (group (words x)) n = Atom a /\ T = a /\ forallb word_char a = true) \/
  (exists s0 l, T = $"(" ++ s0 ++ $")." ++ n /\ cmd_text s0 l /\ group l = group (words x) /\ In SP s0 /\
     field (group (words x)) n = Field (group (words x)) n).
Lemma select : forall x x' n, op_good x x' -> is_literal x = false -> forallb name_like n = true -> n <> [] ->
  op_text (x' ++ $"." ++ n) (field (group (words x)) n) /\ sel_kind x n (x' ++ $"." ++ n) /\ first_not_digit (x' ++ $"." ++ n).
Proof.
  intros x x' n [OT OS ON OK] L H N.
  assert (FD : first_not_digit (x' ++ $"." ++ n)).
  { apply first_app. destruct (number x) eqn:E; [| exact ON]. apply number_literal in E. congruence. }
  destruct (OK L) as [(a & W & -> & K) | (s0 & C & -> & I & NA)].
  - pose proof (dot_words a n K H) as DW. rewrite W. cbn [group]. rewrite field_atom. split; [| split].
    + apply ot_word; [| exact DW]. destruct a; discriminate.
    + left. exists (a ++ $"." ++ n). rewrite W. split; [reflexivity | split; [reflexivity | exact DW]].
    + exact FD.
  - rewrite (field_other _ n NA). split; [| split].
    + rewrite app_field. apply ot_field; assumption.
    + right. exists s0, (words x). rewrite app_field. repeat split; [exact C | exact I | apply field_other, NA].
    + exact FD.
Qed.

Lemma select_good : forall e x x' n, op_good x x' -> is_literal x = false -> forallb name_like n = true -> n <> [] -> ~ In STAR n ->
  words e = [field (group (words x)) n] -> number e = None -> (starless e = true -> starless x = true) -> good e (x' ++ $"." ++ n).
Proof.
  intros e x x' n O L H N NS W NU ST. destruct (select x x' n O L H N) as (T & K & FD). split.
  - rewrite W. apply ct_one, T.
  - destruct K as [(a & F & E & WD) | (s0 & l & E & C & GL & I & F)].
    + left. exists a. rewrite W, F. auto.
    + right. rewrite E. split; [apply in_app_iff; right; apply in_app_iff; left; exact I|]. split; [reflexivity|]. split; [reflexivity|].
      rewrite W, F. intros a Z. discriminate Z.
  - intros S I. apply in_app_iff in I. destruct I as [I | I]; [revert I; apply (o_star _ _ O), ST, S|].
    apply in_app_iff in I. destruct I as [[I | []] | I]; [discriminate I | exact (NS I)].
  - rewrite NU. exact FD.
Qed.

Fixpoint head_tree (f : expr) : tree :=
  match f with
  | Ident n => Atom (n ++ $"__FuncCall__")
  | Sel x s => field (group (words x)) (s ++ $"__FuncCall__")
  | Paren f => head_tree f
  | _ => App []
  end.
Definition call_words (h : tree) (values : list tree) (dots : bool) : list tree :=
  match values with
  | [] => [h]
  | _ => if dots then Atom $"ellipsis" :: match h with Atom n => Atom ($"""" ++ n ++ $"""") | t => t end :: values
         else h :: values
  end.
Lemma words_call : forall f args dots, words (Call f args dots) = call_words (head_tree f) (map (fun a => group (words a)) args) dots.
Proof. reflexivity. Qed.

(** The text of the function of a call. *)
Definition call_text (fn : str) : str := (if contains_byte "."%char fn then fn else trim_prefix global_rep fn) ++ func_call.
Record head_good (f : expr) (s : str) : Prop := {
  h_text : op_text s (head_tree f);
  h_kind : (exists a, head_tree f = Atom a /\ s = a /\ forallb word_char a = true) \/
           (In SP s /\ (exists r, s = $"(" ++ r) /\ forall a, head_tree f <> Atom a);
  h_star : starless f = true -> ~ In STAR s;
  h_digit : first_not_digit s;
  h_plain : plain_name f -> Forall (fun c => (32 <= N_of_ascii c <= 126)%N /\ c <> DQ /\ c <> BSL) s /\ head_tree f = Atom s
}.
Lemma func_call_name : forallb name_char func_call = true.
Proof. reflexivity. Qed.
Lemma select_head : forall x x' s, op_good x x' -> is_literal x = false -> name s -> head_good (Sel x s) (x' ++ $"." ++ s ++ func_call).
Proof.
  intros x x' s O L (N & H & _ & _).
  assert (A : forallb name_char (s ++ func_call) = true) by (rewrite forallb_app, H; reflexivity).
  assert (NN : s ++ func_call <> []) by (destruct s; discriminate).
  destruct (select x x' (s ++ func_call) O L (name_like_all _ A) NN) as (T & K & FD). split.
  - exact T.
  - destruct K as [(a & F & E & WD) | (s0 & l & E & C & GL & I & F)].
    + left. exists a. auto.
    + right. rewrite E. split; [apply in_app_iff; right; apply in_app_iff; left; exact I|]. split; [eexists; reflexivity|].
      change (head_tree (Sel x s)) with (field (group (words x)) (s ++ func_call)). rewrite F. intros a Z. discriminate Z.
  - cbn [starless]. intros S I. apply in_app_iff in I. destruct I as [I | I]; [revert I; apply (o_star _ _ O), S|].
    apply in_app_iff in I. destruct I as [[I | []] | I]; [discriminate I|]. revert I. apply name_no_star, A.
  - exact FD.
  - intros [].
Qed.
Lemma local_markers : forall s, name s -> ident_text s = variable s.
Proof.
  intros s (_ & _ & F & _). unfold ident_text, variable, local_name. change dot_rep with $"__DoTPrefix__". change dollar_rep with $"__REPL_0__".
  change func_call with $"__FuncCall__". change global_rep with $"__GlobalVar__". rewrite F.
  destruct (has_prefix $"__DoTPrefix__" s), (has_prefix $"__REPL_0__" s); reflexivity.
Qed.
Lemma variable_chars : forall s, name s -> forallb name_char (variable s) = true /\ first_not_digit (variable s) /\ variable s <> [].
Proof.
  intros s (N & H & _ & _). unfold variable. destruct (local_name s) eqn:E.
  - split; [exact H|]. split; [exact N | destruct s; [destruct N | discriminate]].
  - split; [rewrite forallb_app, H; reflexivity|]. split; [reflexivity | discriminate].
Qed.
Lemma trim_variable : forall s, name s -> trim_prefix global_rep (variable s) = s.
Proof.
  intros s (_ & _ & _ & G). unfold variable, trim_prefix. change global_rep with $"__GlobalVar__". destruct (local_name s).
  - rewrite G. reflexivity.
  - rewrite has_prefix_app, skipn_app, skipn_all, Nat.sub_diag. reflexivity.
Qed.
Lemma no_dot : forall s, forallb name_char s = true -> contains_byte "."%char s = false.
Proof.
  intros s H. destruct (contains_byte "."%char s) eqn:E; [| reflexivity]. apply contains_byte_In in E.
  rewrite forallb_forall in H. apply H in E. discriminate E.
Qed.
Lemma name_head : forall n, name n -> call_text (ident_text n) = n ++ func_call /\ head_good (Ident n) (n ++ func_call).
Proof.
  intros n Hn. pose proof Hn as (N & H & F & G). rewrite (local_markers n Hn).
  assert (A : forallb name_char (n ++ func_call) = true) by (rewrite forallb_app, H; reflexivity).
  assert (WD : forallb word_char (n ++ func_call) = true) by (apply name_word, A).
  split.
  - unfold call_text. rewrite no_dot by (apply variable_chars, Hn). rewrite (trim_variable n Hn). reflexivity.
  - split.
    + apply ot_word; [destruct n; discriminate | exact WD].
    + left. exists (n ++ func_call). auto.
    + intros _. apply name_no_star, A.
    + apply first_app, N.
    + cbn [plain_name]. intros P. split; [| reflexivity]. apply Forall_forall. intros c I. apply in_app_iff in I. destruct I as [I | I].
      * rewrite forallb_forall in H, P. pose proof (H c I) as X. pose proof (P c I) as Y.
        destruct c as [[] [] [] [] [] [] [] []]; cbv in X, Y; try discriminate X; try discriminate Y; cbv; repeat split; discriminate.
      * revert c I. apply Forall_forall. change func_call with $"__FuncCall__".
        repeat (constructor; [cbv; repeat split; discriminate|]). constructor.
Qed.

Section Translation.
Context {P : PrintEnv}.

Definition star_good (e : expr) : Prop :=
  exists z, node_value e = Ok ($"*" ++ z) /\ op_text z (group (words e)) /\ (starless e = true -> ~ In STAR z).
Definition main (e : expr) : Prop :=
  fine e -> (starred e = false -> exists s, node_value e = Ok s /\ good e s) /\ (starred e = true -> star_good e) /\
            (callable e = true -> exists s, node_value e = Ok s /\ head_good e (call_text s)).
Lemma use : forall x, main x -> usable x -> exists s, internal (node_value x) = Ok s /\ op_good x s.
Proof.
  intros x M (F & S & B). destruct (M F) as [M1 _]. destruct (M1 S) as (s & E & Gd). rewrite E. apply as_operand; assumption.
Qed.

Lemma unary_main : forall op x, main x -> main (Unary op x).
Proof.
  intros op x M F. cbn [fine] in F. destruct F as (KN & U). split; [| split; intro Z; discriminate Z]. intros _.
  destruct (use x M U) as (x' & E & O). destruct (known_name op KN) as (ON & NE & LO & SUB & _).
  cbn [node_value]. rewrite ON. cbn [bind]. rewrite E. cbn [bind]. rewrite SUB.
  destruct (str_eqb op $"-") eqn:OP.
  - destruct O as [OT OS OD OK]. destruct (number x) as [v|] eqn:NU.
    + subst x'. destruct (literal_number x v NU) as (W & c & r & Ev & D). subst v. rewrite D.
      eexists. split; [reflexivity|].
      assert (WD : forallb word_char (c :: r) = true).
      { rewrite W in OT. cbn [group] in OT. inversion OT; subst.
        - assumption.
        - exfalso. match goal with H : quotation _ = true |- _ => apply quote_not_underscore in H; destruct H end. congruence.
        - exfalso. cbn in D. discriminate D. }
      split.
      * cbn [words]. rewrite OP, NU. apply ct_one, ot_word; [discriminate | exact WD].
      * left. exists ($"-" ++ c :: r). cbn [words]. rewrite OP, NU. split; [reflexivity|]. split; [reflexivity|]. left. exact WD.
      * cbn [starless]. intros S [I | I]; [discriminate I | exact (OS S I)].
      * reflexivity.
    + destruct x' as [|c r]; [destruct OD|]. cbn [first_not_digit] in OD. rewrite OD.
      eexists. split; [reflexivity|].
      change ($"sub 0 " ++ c :: r) with ($"sub" ++ $" " ++ join $" " [$"0"; c :: r]).
      apply lower_command with (ts := [Atom $"0"; group (words x)]).
      * discriminate.
      * reflexivity.
      * constructor; [apply ot_word; [discriminate | reflexivity]|]. constructor; [exact OT | constructor].
      * discriminate.
      * cbn [words]. rewrite OP, NU. reflexivity.
      * reflexivity.
      * cbn [starless]. intros S s [<- | [<- | []]]; [intros [I | []]; discriminate I | exact (OS S)].
  - destruct O as [OT OS OD OK]. eexists. split; [reflexivity|].
    change (function_of op ++ $" " ++ x') with (function_of op ++ $" " ++ join $" " [x']).
    apply lower_command with (ts := [group (words x)]); try assumption.
    + constructor; [exact OT | constructor].
    + discriminate.
    + cbn [words]. rewrite OP. reflexivity.
    + reflexivity.
    + cbn [starless]. intros S s [<- | []]. exact (OS S).
Qed.

Lemma filter_none : forall s : str, ~ In STAR s -> filter (fun c => negb (Ascii.eqb c STAR)) s = s.
Proof.
  induction s as [|c s IH]; intros H; [reflexivity|]. cbn [filter]. destruct (Ascii.eqb_spec c STAR); [exfalso; apply H; left; assumption|].
  cbn [negb]. rewrite IH; [reflexivity|]. intros I. apply H. right. exact I.
Qed.
Lemma contains_none : forall c (s : str), ~ In c s -> contains_byte c s = false.
Proof. intros c s H. destruct (contains_byte c s) eqn:E; [| reflexivity]. apply contains_byte_In in E. tauto. Qed.

Lemma binary_main : forall op x y, main x -> main y -> main (Binary op x y).
Proof.
  intros op x y Mx My F. cbn [fine] in F. destruct F as (KN & U & Fy & By & ST & SL). split; [| split; intro Z; discriminate Z]. intros _.
  destruct (use x Mx U) as (x' & E & [OT OS OD OK]). destruct (known_name op KN) as (ON & NE & LO & _ & MUL).
  cbn [node_value]. rewrite ON. cbn [bind]. rewrite E. cbn [bind].
  destruct (starred y) eqn:SY.
  - assert (OP : op = $"*") by (apply ST; reflexivity). subst op.
    destruct (My Fy) as (_ & M2 & _). destruct (M2 SY) as (z & Ez & Tz & Nz). rewrite Ez. specialize (Nz (SL eq_refl)).
    assert (X : exists y', internal (Ok ($"*" ++ z)) = Ok y' /\ contains_byte STAR y' = true /\
                op_text (filter (fun c => negb (Ascii.eqb c STAR)) y') (group (words y)) /\
                ~ In STAR (filter (fun c => negb (Ascii.eqb c STAR)) y')).
    { assert (NF : forall t : str, ~ In STAR (filter (fun c => negb (Ascii.eqb c STAR)) t)).
      { intros t I. apply filter_In in I. destruct I as [_ I]. discriminate I. }
      destruct (internal_other "*"%char z eq_refl) as [I | I]; eexists; (split; [exact I|]).
      - split; [apply contains_byte_In; left; reflexivity|]. split; [| apply NF].
        change (filter (fun c => negb (Ascii.eqb c STAR)) ("*"%char :: z)) with (filter (fun c => negb (Ascii.eqb c STAR)) z).
        rewrite (filter_none z Nz). exact Tz.
      - split; [apply contains_byte_In; apply in_app_iff; right; left; reflexivity|]. split; [| apply NF].
        rewrite !filter_app.
        change (filter (fun c => negb (Ascii.eqb c STAR)) ("*"%char :: z)) with (filter (fun c => negb (Ascii.eqb c STAR)) z).
        rewrite (filter_none z Nz). apply (ot_group z [group (words y)]). apply ct_one, Tz. }
    destruct X as (y' & Ey & CB & Ty & NS). rewrite Ey. cbn [bind]. rewrite CB. change (str_eqb (function_of $"*") $"mul") with true. cbn [andb].
    eexists. split; [reflexivity|].
    set (y2 := filter (fun c => negb (Ascii.eqb c STAR)) y') in *.
    change ($"power " ++ x' ++ $" " ++ y2) with ($"power" ++ $" " ++ join $" " [x'; y2]).
    apply lower_command with (ts := [group (words x); group (words y)]).
    + discriminate.
    + reflexivity.
    + constructor; [exact OT|]. constructor; [exact Ty | constructor].
    + discriminate.
    + cbn [words]. rewrite SY. reflexivity.
    + reflexivity.
    + cbn [starless]. intros S s [<- | [<- | []]]; [| exact NS]. apply andb_true_iff in S. apply OS, S.
  - destruct (use y My (conj Fy (conj SY By))) as (y' & Ey & [OTy OSy ODy OKy]). rewrite Ey. cbn [bind].
    assert (X : str_eqb (function_of op) $"mul" && contains_byte STAR y' = false).
    { rewrite MUL. destruct (str_eqb op $"*") eqn:OP; [| reflexivity]. cbn [andb]. apply contains_none, OSy, SL.
      destruct (str_eqb_spec op $"*"); [assumption | discriminate OP]. }
    rewrite X. eexists. split; [reflexivity|].
    change (function_of op ++ $" " ++ x' ++ $" " ++ y') with (function_of op ++ $" " ++ join $" " [x'; y']).
    apply lower_command with (ts := [group (words x); group (words y)]); try assumption.
    + constructor; [exact OT|]. constructor; [exact OTy | constructor].
    + discriminate.
    + cbn [words]. rewrite SY, andb_false_r. reflexivity.
    + reflexivity.
    + cbn [starless]. intros S s [<- | [<- | []]]; apply andb_true_iff in S; [apply OS, S | apply OSy, S].
Qed.

Lemma ident_main : forall n, main (Ident n).
Proof.
  intros n F. cbn [fine] in F. pose proof (variable_chars n F) as (A & D & N). split; [| split; [intro Z; discriminate Z|]].
  - intros _. cbn [node_value]. rewrite (local_markers n F). eexists. split; [reflexivity|]. split.
    + cbn [words]. apply ct_one, ot_word; [exact N | apply name_word, A].
    + left. exists (variable n). split; [reflexivity|]. split; [reflexivity|]. left. apply name_word, A.
    + intros _. apply name_no_star, A.
    + exact D.
  - intros _. cbn [node_value]. eexists. split; [reflexivity|]. destruct (name_head n F) as [-> H]. exact H.
Qed.

Lemma lit_main : forall v, main (Lit v).
Proof.
  intros v F. cbn [fine] in F. split; [| split; intro Z; discriminate Z]. intros _. cbn [node_value]. eexists. split; [reflexivity|].
  unfold literal in F. destruct v as [|c r]; [destruct F|]. destruct (quotation c) eqn:Q.
  - split.
    + cbn [words]. apply ct_one, ot_lit; assumption.
    + left. exists (c :: r). split; [reflexivity|]. split; [reflexivity|]. right. split; [reflexivity|]. exists c, r. auto.
    + cbn [starless]. intros S I. apply negb_true_iff in S. apply contains_byte_In in I. change STAR with "*"%char in I. congruence.
    + cbn [number]. destruct (is_digit c) eqn:D; [reflexivity | exact D].
  - split.
    + cbn [words]. apply ct_one, ot_word; [discriminate | assumption].
    + left. exists (c :: r). split; [reflexivity|]. split; [reflexivity|]. left. exact F.
    + cbn [starless]. intros S I. apply negb_true_iff in S. apply contains_byte_In in I. change STAR with "*"%char in I. congruence.
    + cbn [number]. destruct (is_digit c) eqn:D; [reflexivity | exact D].
Qed.

Lemma sel_main : forall x s, main x -> main (Sel x s).
Proof.
  intros x s M F. cbn [fine] in F. destruct F as (Fx & Sx & Bx & L & N).
  destruct (use x M (conj Fx (conj Sx Bx))) as (x' & E & O). pose proof N as (N1 & N2 & N3 & N4).
  assert (V : node_value (Sel x s) = Ok (x' ++ $"." ++ s)).
  { cbn [node_value]. rewrite E. cbn [bind]. rewrite (local_markers s N).
    rewrite internal_word by (apply name_word, variable_chars, N). cbn [bind]. rewrite (trim_variable s N). reflexivity. }
  split; [| split; [intro Z; discriminate Z|]].
  - intros _. eexists. split; [exact V|]. apply select_good with (x := x); try assumption; try reflexivity.
    + apply name_like_all, N2.
    + destruct s; [destruct N1 | discriminate].
    + apply name_no_star, N2.
    + intros H; exact H.
  - intros _. eexists. split; [exact V|].
    assert (C : call_text (x' ++ $"." ++ s) = x' ++ $"." ++ s ++ func_call).
    { unfold call_text. replace (contains_byte "."%char (x' ++ $"." ++ s)) with true.
      - rewrite <- !app_assoc. reflexivity.
      - symmetry. apply contains_byte_In. apply in_app_iff. right. left. reflexivity. }
    rewrite C. apply select_head; assumption.
Qed.

Lemma paren_main : forall x, main x -> main (Paren x).
Proof.
  intros x M F. cbn [fine] in F. destruct (M F) as (A & B & C). split; [| split].
  - intros S. destruct (A S) as (s & E & Gd). exists s. split; [exact E|]. destruct Gd as [g1 g2 g3 g4]. split; assumption.
  - intros S. destruct (B S) as (z & E & Gd). exists z. split; [exact E | exact Gd].
  - intros S. destruct (C S) as (z & E & Hd). exists z. split; [exact E|]. destruct Hd as [h1 h2 h3 h4 h5]. split; assumption.
Qed.

Lemma star_main : forall x, main x -> main (Star x).
Proof.
  intros x M F. cbn [fine] in F. destruct (use x M F) as (x' & E & [OT OS OD OK]). split; [intro Z; discriminate Z|]. split; [| intro Z; discriminate Z].
  intros _. exists x'. cbn [node_value]. rewrite E. split; [reflexivity|]. split; [exact OT | exact OS].
Qed.

Lemma index_main : forall x i, main x -> main i -> main (Index x i).
Proof.
  intros x y Mx My F. cbn [fine] in F. destruct F as (Ux & Uy). split; [| split; intro Z; discriminate Z]. intros _.
  destruct (use x Mx Ux) as (x' & E & [OT OS OD OK]). destruct (use y My Uy) as (y' & Ey & [OTy OSy ODy OKy]).
  cbn [node_value]. rewrite E. cbn [bind]. rewrite Ey. cbn [bind]. eexists. split; [reflexivity|].
  change ($"slice " ++ x' ++ $" " ++ y') with ($"slice" ++ $" " ++ join $" " [x'; y']).
  apply lower_command with (ts := [group (words x); group (words y)]); try reflexivity; try discriminate.
  - constructor; [exact OT|]. constructor; [exact OTy | constructor].
  - cbn [starless]. intros S s [<- | [<- | []]]; apply andb_true_iff in S; [apply OS, S | apply OSy, S].
Qed.

Lemma slice_main : forall x low high, main x -> (forall l, low = Some l -> main l) -> (forall h, high = Some h -> main h) -> main (Slice x low high).
Proof.
  intros x low high Mx Ml Mh F. cbn [fine] in F. destruct low as [y|]; [| destruct F]. destruct high as [z|]; [| destruct F].
  destruct F as (Ux & Uy & Uz). split; [| split; intro Z; discriminate Z]. intros _.
  destruct (use x Mx Ux) as (x' & E & [OT OS OD OK]). destruct (use y (Ml y eq_refl) Uy) as (y' & Ey & [OTy OSy ODy OKy]).
  destruct (use z (Mh z eq_refl) Uz) as (z' & Ez & [OTz OSz ODz OKz]).
  cbn [node_value]. rewrite E. cbn [bind]. rewrite Ey. cbn [bind]. rewrite Ez. cbn [bind]. eexists. split; [reflexivity|].
  change ($"slice " ++ x' ++ $" " ++ y' ++ $" " ++ z') with ($"slice" ++ $" " ++ join $" " [x'; y'; z']).
  apply lower_command with (ts := [group (words x); group (words y); group (words z)]); try reflexivity; try discriminate.
  - constructor; [exact OT|]. constructor; [exact OTy|]. constructor; [exact OTz | constructor].
  - cbn [starless]. intros S s H. apply andb_true_iff in S. destruct S as [S Sz]. apply andb_true_iff in S. destruct S as [Sx Sy].
    destruct H as [<- | [<- | [<- | []]]]; auto.
Qed.

Fixpoint values (l : list expr) : res (list str) :=
  match l with
  | [] => Ok []
  | a :: l' => do s <- internal (node_value a); do r <- values l'; Ok (s :: r)
  end.
Lemma node_call : forall f args dots, node_value (Call f args dots) =
  do fn <- node_value f;
  match args with
  | [] => Ok (call_text fn)
  | _ => do vs <- values args;
         Ok (if dots then $"ellipsis " ++ go_quote (call_text fn) ++ $" " ++ join $" " vs else call_text fn ++ $" " ++ join $" " vs)
  end.
Proof. reflexivity. Qed.
Definition all_usable (l : list expr) : Prop :=
  (fix all (l : list expr) : Prop :=
     match l with [] => True | a :: l' => (fine a /\ starred a = false /\ bare (words a) = false) /\ all l' end) l.
Lemma values_good : forall l, Forall main l -> all_usable l ->
  exists vs, values l = Ok vs /\ Forall2 op_text vs (map (fun a => group (words a)) l) /\
             (forallb starless l = true -> forall s, In s vs -> ~ In STAR s).
Proof.
  induction l as [|a l IH]; intros M U.
  - exists []. split; [reflexivity|]. split; [constructor | intros _ s []].
  - inversion M; subst. destruct U as [Ua Ul]. destruct (use a H1 Ua) as (a' & E & [OT OS OD OK]).
    destruct (IH H2 Ul) as (vs & Ev & F & NS). exists (a' :: vs). cbn [values]. rewrite E. cbn [bind]. rewrite Ev. split; [reflexivity|].
    split; [constructor; assumption|]. cbn [forallb]. intros S s I. apply andb_true_iff in S. destruct S as [Sa Sl].
    destruct I as [<- | I]; [apply OS, Sa | apply NS; assumption].
Qed.
Lemma quoted_end : forall s, Forall (fun c => (32 <= N_of_ascii c <= 126)%N /\ c <> DQ /\ c <> BSL) s -> literal_end DQ (s ++ [DQ]) = Some (s ++ [DQ], []).
Proof.
  induction 1 as [|c s (_ & D & B) F IH]; [reflexivity|]. cbn [app literal_end].
  destruct (Ascii.eqb_spec c DQ); [congruence|]. destruct (Ascii.eqb_spec c "\"%char) as [E|E]; [exfalso; apply B; rewrite E; reflexivity|].
  cbn [andb]. rewrite IH. reflexivity.
Qed.
Lemma prefix_space : forall p a r, ~ In SP p -> has_prefix p (a ++ SP :: r) = true -> has_prefix p a = true.
Proof.
  induction p as [|c p IH]; intros a r N H; [reflexivity|]. destruct a as [|d a]; cbn [app has_prefix] in *.
  - apply andb_true_iff in H. destruct H as [H _]. apply Ascii.eqb_eq in H. exfalso. apply N. left. exact H.
  - apply andb_true_iff in H. destruct H as [A B]. rewrite A. cbn [andb]. apply (IH a r); [| exact B]. intros I. apply N. right. exact I.
Qed.
Lemma word_not_quote : forall s, s <> [] -> forallb word_char s = true -> forall r, has_prefix [DQ] (s ++ r) = false.
Proof.
  intros [|c s] N H r; [congruence|]. cbn [app]. rewrite has_prefix_1. destruct (Ascii.eqb_spec DQ c) as [E|]; [| reflexivity].
  cbn [forallb] in H. apply andb_true_iff in H. destruct H as [H _]. rewrite <- E in H. discriminate H.
Qed.

Lemma call_main : forall f args dots, main f -> Forall main args -> main (Call f args dots).
Proof.
  intros f args dots Mf Ma F. change (fine f /\ callable f = true /\ all_usable args /\ (dots = true -> plain_name f)) in F.
  destruct F as (Ff & Cf & Ua & Dp). split; [| split; intro Z; discriminate Z]. intros _.
  destruct (Mf Ff) as (_ & _ & M3). destruct (M3 Cf) as (fn & Ef & [HT HK HS HD HP]).
  rewrite node_call, Ef. cbn [bind].
  destruct args as [|a args].
  - eexists. split; [reflexivity|]. split.
    + rewrite words_call. apply ct_one, HT.
    + destruct HK as [(b & E1 & E2 & W) | (I & (r & E1) & NA)].
      * left. exists b. rewrite words_call, E1. split; [reflexivity|]. split; [exact E2 | left; exact W].
      * right. split; [exact I|]. rewrite E1. split; [reflexivity|]. split; [reflexivity|].
        rewrite words_call. intros b K. apply (NA b). cbn [map call_words] in K. congruence.
    + cbn [starless forallb]. rewrite andb_true_r. exact HS.
    + exact HD.
  - destruct (values_good (a :: args) Ma Ua) as (vs & Ev & FV & NS). rewrite Ev. cbn [bind].
    assert (NV : vs <> []) by (intros ->; inversion FV).
    eexists. split; [reflexivity|]. destruct dots.
    + destruct (HP (Dp eq_refl)) as (PL & HA). rewrite (quote_plain _ PL).
      set (h := call_text fn) in *.
      assert (X : $"ellipsis " ++ (DQ :: h ++ [DQ]) ++ $" " ++ join $" " vs = $"ellipsis" ++ $" " ++ join $" " ((DQ :: h ++ [DQ]) :: vs)).
      { destruct vs; [congruence|]. reflexivity. }
      rewrite X. apply lower_command with (ts := Atom (DQ :: h ++ [DQ]) :: map (fun a => group (words a)) (a :: args)).
      * discriminate.
      * reflexivity.
      * constructor; [| exact FV]. apply ot_lit; [reflexivity | apply quoted_end, PL].
      * discriminate.
      * rewrite words_call, HA. reflexivity.
      * reflexivity.
      * change (starless (Call f (a :: args) true)) with (starless f && forallb starless (a :: args))%bool. intros S s I.
        apply andb_true_iff in S. destruct S as [Sf Sa]. destruct I as [<- | I]; [| apply NS; assumption].
        intros [K | K]; [discriminate K|]. apply in_app_iff in K. destruct K as [K | [K | []]]; [exact (HS Sf K) | discriminate K].
    + set (h := call_text fn) in *.
      assert (W : words (Call f (a :: args) false) = head_tree f :: map (fun a => group (words a)) (a :: args)) by reflexivity.
      assert (NH : h <> []) by (intro Z; rewrite Z in HD; exact HD).
      split.
      * rewrite W. apply ct_more; [exact HT | apply cmd_join; assumption].
      * right. split; [apply in_app_iff; right; left; reflexivity|]. rewrite W.
        destruct HK as [(b & E1 & E2 & WD) | (I & (r & E1) & NA)].
        -- split; [apply word_not_quote; [exact NH | rewrite E2; exact WD]|]. split; [| intros c Z; discriminate Z].
           rewrite E1. cbn [map bare]. intros B. destruct (has_prefix dot_rep (h ++ $" " ++ join $" " vs)) eqn:K; [| reflexivity].
           apply prefix_space in K; [| vm_compute; intuition discriminate]. rewrite E2 in K. change dot_rep with $"__DoTPrefix__" in K. congruence.
        -- rewrite E1. split; [reflexivity|]. split; [reflexivity|]. intros c Z. discriminate Z.
      * change (starless (Call f (a :: args) false)) with (starless f && forallb starless (a :: args))%bool. intros S I.
        apply andb_true_iff in S. destruct S as [Sf Sa]. apply in_app_iff in I. destruct I as [I | I]; [exact (HS Sf I)|].
        apply in_app_iff in I. destruct I as [[I | []] | I]; [discriminate I|]. revert I. apply join_star. apply NS, Sa.
      * apply first_app, HD.
Qed.

Lemma all_main : forall e, main e.
Proof.
  apply expr_ind2.
  - apply unary_main.
  - apply binary_main.
  - apply ident_main.
  - apply lit_main.
  - apply sel_main.
  - apply paren_main.
  - intros; apply call_main; assumption.
  - apply star_main.
  - apply index_main.
  - apply slice_main.
  - intros [].
Qed.

Lemma translation : forall e, fine e -> starred e = false -> exists s, node_value e = Ok s /\ read_command s = Some (words e).
Proof.
  intros e F S. destruct (all_main e F) as [M _]. destruct (M S) as (s & E & Gd). exists s. split; [exact E | apply command_reads, Gd].
Qed.
Lemma operand_translation : forall e, usable e -> exists s, node_value_internal e = Ok s /\ read_command s = Some [call_tree e].
Proof.
  intros e U. destruct (use e (all_main e) U) as (s & E & O). exists s. split; [exact E|]. apply command_reads, ct_one, O.
Qed.
End Translation.

(** ** Which expressions are translated *)
Section Total.
Context {P : PrintEnv}.
Definition outcome (r : res str) (yes : Prop) : Prop :=
  match r with Ok s => s <> [] /\ yes | Err _ => ~ yes | Panic _ => False end.
Lemma outcome_internal : forall r yes, outcome r yes -> outcome (internal r) yes.
Proof.
  intros [s|e|e] yes H; [| exact H | exact H]. destruct H as [N Y]. unfold internal. cbn [bind].
  destruct (_ || _)%bool; [split; assumption|]. destruct (_ && _)%bool; (split; [| exact Y]); [exact N | discriminate].
Qed.
Lemma operator_outcome : forall op, match operator_name op with Ok n => n = function_of op /\ known op | Err _ => ~ known op | Panic _ => False end.
Proof.
  intros op. destruct (in_dec (fun a b => match str_eqb_spec a b with ReflectT _ E => left E | ReflectF _ N => right N end) op (map fst function_names)) as [K | K].
  - destruct (known_name op K) as [-> _]. split; [reflexivity | exact K].
  - unfold operator_name. destruct (op_lookup operators op) as [n|] eqn:E; [| exact K]. exfalso. apply K.
    revert E. unfold operators. cbn [op_lookup].
    repeat match goal with |- context [str_eqb ?a op] => destruct (str_eqb_spec a op) as [<- | _]; [intros _; vm_compute; tauto|] end.
    intros E. discriminate E.
Qed.
Ltac sub H := let s := fresh "s" in let N := fresh "N" in let Y := fresh "Y" in
  match type of H with outcome ?r _ => destruct r as [s|?|?]; cbn [bind]; [destruct H as [N Y] | cbn [outcome] in *; tauto | destruct H] end.
Lemma outcomes : forall e, literals e -> outcome (node_value e) (supported e).
Proof.
  induction e using expr_ind2; intros L.
  - cbn [literals] in L. pose proof (outcome_internal _ _ (IHe L)) as H. pose proof (operator_outcome op) as K.
    cbn [node_value supported]. destruct (operator_name op) as [n| |]; cbn [bind]; [destruct K as [-> K] | cbn [outcome]; tauto | destruct K].
    sub H. destruct (str_eqb _ _).
    + destruct s as [|c s]; [congruence|]. split; [destruct (is_digit c); discriminate | tauto].
    + split; [destruct (function_of op); discriminate | tauto].
  - cbn [literals] in L. destruct L as [L1 L2]. pose proof (outcome_internal _ _ (IHe1 L1)) as H1. pose proof (outcome_internal _ _ (IHe2 L2)) as H2.
    pose proof (operator_outcome op) as K. cbn [node_value supported].
    destruct (operator_name op) as [n| |]; cbn [bind]; [destruct K as [-> K] | cbn [outcome]; tauto | destruct K].
    sub H1. sub H2. destruct (_ && _)%bool; (split; [| tauto]); [discriminate | destruct (function_of op); discriminate].
  - cbn. split; [| exact I]. unfold ident_text. destruct (_ && _)%bool eqn:E; [discriminate|]. intros ->. discriminate E.
  - cbn in *. split; [exact L | exact I].
  - cbn [literals] in L. pose proof (outcome_internal _ _ (IHe L)) as H. cbn [node_value supported]. sub H.
    assert (X : exists t, internal (Ok (ident_text s)) = Ok t).
    { unfold internal. cbn [bind]. destruct (_ || _)%bool; [eexists; reflexivity|]. destruct (_ && _)%bool; eexists; reflexivity. }
    destruct X as [t ->]. cbn [bind]. split; [destruct s0; [congruence | discriminate] | exact Y].
  - exact (IHe L).
  - change (literals e /\ (fix all (l : list expr) : Prop := match l with [] => True | a :: l' => literals a /\ all l' end) args) in L.
    destruct L as [Lf La]. specialize (IHe Lf). rewrite node_call.
    change (supported (Call e args dots)) with (supported e /\ (fix all (l : list expr) : Prop := match l with [] => True | a :: l' => supported a /\ all l' end) args).
    destruct (node_value e) as [fn|?|?]; cbn [bind]; [destruct IHe as [N Y] | cbn [outcome] in *; tauto | destruct IHe].
    assert (X : match values args with
                | Ok vs => (fix all (l : list expr) : Prop := match l with [] => True | a :: l' => supported a /\ all l' end) args
                | Err _ => ~ (fix all (l : list expr) : Prop := match l with [] => True | a :: l' => supported a /\ all l' end) args
                | Panic _ => False end).
    { clear -H La. induction H as [|a l Ha Hl IH]; [exact I|]. destruct La as [L1 L2]. pose proof (outcome_internal _ _ (Ha L1)) as K.
      specialize (IH L2). cbn [values]. destruct (internal (node_value a)) as [s|?|?]; cbn [bind]; [destruct K as [_ K] | cbn [outcome] in K; tauto | destruct K].
      destruct (values l); cbn [bind]; tauto. }
    assert (NC : call_text fn <> []) by (intro Z; apply app_eq_nil in Z; destruct Z as [_ Z]; discriminate Z).
    destruct args as [|a args]; [split; [exact NC | tauto]|].
    destruct (values (a :: args)) as [vs|?|?]; cbn [bind]; [| cbn [outcome]; tauto | destruct X].
    split; [| tauto]. destruct dots; [discriminate|]. intro Z. apply app_eq_nil in Z. destruct Z as [Z _]. exact (NC Z).
  - cbn [literals] in L. pose proof (outcome_internal _ _ (IHe L)) as H. cbn [node_value supported]. sub H. split; [discriminate | exact Y].
  - cbn [literals] in L. destruct L as [L1 L2]. pose proof (outcome_internal _ _ (IHe1 L1)) as H1. pose proof (outcome_internal _ _ (IHe2 L2)) as H2.
    cbn [node_value supported]. sub H1. sub H2. split; [discriminate | tauto].
  - cbn [literals] in L. destruct L as (L1 & L2 & L3). pose proof (outcome_internal _ _ (IHe L1)) as H1.
    destruct low as [l|]; [| cbn [node_value supported]; sub H1; cbn [outcome]; tauto].
    pose proof (outcome_internal _ _ (H l eq_refl L2)) as K2.
    destruct high as [h|]; [| cbn [node_value supported]; sub H1; sub K2; cbn [outcome]; tauto].
    pose proof (outcome_internal _ _ (H0 h eq_refl L3)) as K3. cbn [node_value supported]. sub H1. sub K2. sub K3. split; [discriminate | tauto].
  - cbn. tauto.
Qed.
Lemma translated : forall e, literals e -> supported e -> exists s, node_value e = Ok s.
Proof. intros e L S. pose proof (outcomes e L) as H. destruct (node_value e) as [s| |]; [eauto | destruct (H S) | destruct H]. Qed.
Lemma refused : forall e, literals e -> ~ supported e -> exists m, node_value e = Err m.
Proof. intros e L S. pose proof (outcomes e L) as H. destruct (node_value e) as [s|m|]; [destruct H; tauto | eauto | destruct H]. Qed.
End Total.
Lemma unambiguous : forall {P : PrintEnv} e1 e2, fine e1 -> starred e1 = false -> fine e2 -> starred e2 = false ->
  node_value e1 = node_value e2 -> words e1 = words e2.
Proof.
  intros P e1 e2 F1 S1 F2 S2 E. destruct (translation e1 F1 S1) as (s & E1 & R1). destruct (translation e2 F2 S2) as (t & E2 & R2). congruence.
Qed.
