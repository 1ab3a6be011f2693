From Coq Require Import String Ascii List ZArith NArith Bool Lia Permutation.
From Verif Require Import GoStr GoStrFacts RazorExprModel RazorWordsModel RazorWordsSpec.
Import ListNotations.

(** ** Texts with marks *)
Inductive item : Type := Ch (c : ascii) | Mk (i : nat).
Section Marks.
Variables code word : nat -> str.
Definition enc1 (x : item) : str := match x with Ch c => [c] | Mk i => code i end.
Definition flat1 (x : item) : str := match x with Ch c => [c] | Mk i => word i end.
Definition enc (m : list item) : str := concat (map enc1 m).
Definition flat (m : list item) : str := concat (map flat1 m).
Definition marked (k : str) (m : list item) : Prop := forall i x, In (Mk i) m -> In x (code i) -> ~ In x k.

Lemma enc_app : forall a b, enc (a ++ b) = enc a ++ enc b.
Proof. intros. unfold enc. rewrite map_app, concat_app. reflexivity. Qed.
Lemma flat_app : forall a b, flat (a ++ b) = flat a ++ flat b.
Proof. intros. unfold flat. rewrite map_app, concat_app. reflexivity. Qed.
Lemma enc_chars : forall s, enc (map Ch s) = s.
Proof. induction s as [|c s IH]; [reflexivity|]. unfold enc in *. cbn. rewrite IH. reflexivity. Qed.
Lemma flat_chars : forall s, flat (map Ch s) = s.
Proof. induction s as [|c s IH]; [reflexivity|]. unfold flat in *. cbn. rewrite IH. reflexivity. Qed.

(** A text that has nothing in common with the codes is found among the characters only. *)
Lemma prefix_chars : forall k m, (forall i, In (Mk i) m -> code i <> []) -> marked k m -> has_prefix k (enc m) = true ->
  exists m', m = map Ch k ++ m'.
Proof.
  induction k as [|c k IH]; intros m NE K H; [exists m; reflexivity|].
  destruct m as [|[d|i] m]; cbn [enc map concat enc1] in H; [discriminate H|..].
  - change (has_prefix (c :: k) (d :: enc m) = true) in H. cbn [has_prefix] in H. apply andb_true_iff in H. destruct H as [E H].
    apply Ascii.eqb_eq in E. subst d. destruct (IH m) as [m' ->].
    + intros i I. apply NE. right. exact I.
    + intros i x I J Z. apply (K i x); [right; exact I | exact J | right; exact Z].
    + exact H.
    + exists m'. reflexivity.
  - exfalso. pose proof (NE i (or_introl eq_refl)) as N. destruct (code i) as [|d r] eqn:E; [congruence|]. cbn [app has_prefix] in H.
    apply andb_true_iff in H. destruct H as [H _]. apply Ascii.eqb_eq in H. subst d.
    apply (K i c); [left; reflexivity | rewrite E; left; reflexivity | left; reflexivity].
Qed.
Lemma replace_pass : forall k v a b, k <> [] -> (forall x, In x a -> ~ In x k) -> replace_all k v (a ++ b) = a ++ replace_all k v b.
Proof.
  intros k v a b N. induction a as [|c a IH]; intros H; [reflexivity|]. cbn [app].
  rewrite replace_all_cons.
  - rewrite IH; [reflexivity|]. intros x I. apply H. right. exact I.
  - destruct k as [|d k]; [congruence|]. cbn [has_prefix]. destruct (Ascii.eqb_spec d c); [| reflexivity].
    exfalso. apply (H c); [left; reflexivity | left; assumption].
Qed.
Lemma mark_step : forall n j m, List.length m < n -> word j <> [] -> (forall i, In (Mk i) m -> code i <> []) -> marked (word j) m ->
  exists m', replace_all (word j) (code j) (enc m) = enc m' /\ flat m' = flat m /\ (forall c, In (Ch c) m' -> In (Ch c) m) /\
             (forall i, In (Mk i) m' -> i = j \/ In (Mk i) m) /\ (forall c, word j = [c] -> ~ In (Ch c) m').
Proof.
  induction n as [|n IH]; intros j m L N NE K; [lia|]. destruct m as [|x m].
  - exists []. repeat split; auto.
  - assert (NE' : forall i, In (Mk i) m -> code i <> []) by (intros i I; apply NE; right; exact I).
    assert (K' : marked (word j) m) by (intros i y I; apply K; right; exact I).
    cbn [List.length] in L. destruct x as [c|i].
    + destruct (has_prefix (word j) (enc (Ch c :: m))) eqn:P.
      * destruct (prefix_chars _ _ NE K P) as [m2 E].
        assert (L2 : List.length m2 < n).
        { apply (f_equal (@List.length item)) in E. rewrite app_length, map_length in E. cbn [List.length] in E.
          destruct (word j); [congruence|]. cbn [List.length] in E. lia. }
        assert (S2 : forall y, In y m2 -> In y (Ch c :: m)) by (intros y I; rewrite E; apply in_app_iff; right; exact I).
        destruct (IH j m2 L2 N) as (m' & A & B & C & D & F).
        { intros i I. apply NE, S2, I. }
        { intros i y I. apply K, S2, I. }
        exists (Mk j :: m'). split; [| split; [| split; [| split]]].
        -- rewrite E, enc_app, enc_chars, replace_all_sep by exact N. rewrite A. reflexivity.
        -- rewrite E, flat_app, flat_chars. change (flat (Mk j :: m')) with (word j ++ flat m'). rewrite B. reflexivity.
        -- intros d [I | I]; [discriminate I | apply S2, C, I].
        -- intros i [I | I]; [left; congruence|]. destruct (D i I) as [-> | I2]; [left; reflexivity | right; apply S2, I2].
        -- intros d Wd [I | I]; [discriminate I | exact (F d Wd I)].
      * destruct (IH j m) as (m' & A & B & C & D & F); [lia | exact N | exact NE' | exact K' |].
        exists (Ch c :: m'). split; [| split; [| split; [| split]]].
        -- change (enc (Ch c :: m)) with (c :: enc m) in *. rewrite replace_all_cons by exact P. rewrite A. reflexivity.
        -- change (flat (Ch c :: m')) with (c :: flat m'). change (flat (Ch c :: m)) with (c :: flat m). rewrite B. reflexivity.
        -- intros d [I | I]; [left; exact I | right; apply C, I].
        -- intros i [I | I]; [discriminate I|]. destruct (D i I); [left | right; right]; assumption.
        -- intros d Wd [I | I]; [| exact (F d Wd I)]. inversion I; subst d. change (enc (Ch c :: m)) with (c :: enc m) in P.
           rewrite Wd, has_prefix_1, Ascii.eqb_refl in P. discriminate P.
    + destruct (IH j m) as (m' & A & B & C & D & F); [lia | exact N | exact NE' | exact K' |].
      exists (Mk i :: m'). split; [| split; [| split; [| split]]].
      * change (enc (Mk i :: m)) with (code i ++ enc m). change (enc (Mk i :: m')) with (code i ++ enc m').
        rewrite replace_pass; [rewrite A; reflexivity | exact N |]. intros y I. apply (K i y); [left; reflexivity | exact I].
      * change (flat (Mk i :: m')) with (word i ++ flat m'). change (flat (Mk i :: m)) with (word i ++ flat m). rewrite B. reflexivity.
      * intros d [I | I]; [discriminate I | right; apply C, I].
      * intros k [I | I]; [right; left; exact I|]. destruct (D k I); [left | right; right]; assumption.
      * intros d Wd [I | I]; [discriminate I | exact (F d Wd I)].
Qed.
End Marks.

(** ** Reserved words *)
Definition code (i : nat) : str := nth i (map snd reserved) [].
Definition word (i : nat) : str := nth i (map fst reserved) [].

Definition prefix : str := $"__REPL_".
Lemma codes : forall i, i < 8 -> exists d, code i = prefix ++ [d; "_"%char; "_"%char] /\ Ascii.eqb d "_"%char = false.
Proof. intros i H. do 8 (destruct i as [|i]; [eexists; split; reflexivity|]). lia. Qed.
Lemma code_inj : forall i j, i < 8 -> j < 8 -> code i = code j -> i = j.
Proof. intros i j Hi Hj. do 8 (destruct i as [|i]; [do 8 (destruct j as [|j]; [first [reflexivity | discriminate]|]); lia|]). lia. Qed.
Lemma disjoint : forall i j x, i < 8 -> j < 8 -> In x (code i) -> ~ In x (word j).
Proof.
  intros i j x Hi Hj I J.
  assert (A : forallb (fun i => forallb (fun j => forallb (fun x => negb (contains_byte x (word j))) (code i)) (seq 0 8)) (seq 0 8) = true) by (vm_compute; reflexivity).
  rewrite forallb_forall in A. specialize (A i ltac:(apply in_seq; lia)). cbv beta in A. rewrite forallb_forall in A.
  specialize (A j ltac:(apply in_seq; lia)). cbv beta in A. rewrite forallb_forall in A. specialize (A x I). cbv beta in A.
  apply negb_true_iff in A. apply contains_byte_In in J. congruence.
Qed.
Definition valid (m : list item) : Prop := forall i, In (Mk i) m -> i < 8.

Lemma code_nonempty : forall i, i < 8 -> code i <> [].
Proof. intros i H. destruct (codes i H) as (d & -> & _). discriminate. Qed.
Lemma reserved_words : forall kv, In kv reserved -> exists i, i < 8 /\ kv = (word i, code i) /\ word i <> [].
Proof.
  intros kv H. unfold reserved in H. cbn [In] in H.
  destruct H as [<- | [<- | [<- | [<- | [<- | [<- | [<- | [<- | []]]]]]]]];
    [exists 0 | exists 1 | exists 2 | exists 3 | exists 4 | exists 5 | exists 6 | exists 7]; (split; [lia|]); split; [reflexivity | discriminate | reflexivity | discriminate | reflexivity | discriminate | reflexivity | discriminate
    | reflexivity | discriminate | reflexivity | discriminate | reflexivity | discriminate | reflexivity | discriminate].
Qed.
Lemma protect_marks : forall order, (forall kv, In kv order -> In kv reserved) -> forall m, valid m ->
  exists m', replace_each order (enc code m) = enc code m' /\ flat word m' = flat word m /\ valid m' /\
             (forall c, In (Ch c) m' -> In (Ch c) m) /\ (In ($"$", $"__REPL_0__") order -> ~ In (Ch "$"%char) m').
Proof.
  induction order as [|kv order IH]; intros H m V.
  - exists m. repeat split; auto; intros [].
  - destruct (reserved_words kv (H kv (or_introl eq_refl))) as (j & Lj & -> & Nj).
    destruct (mark_step code word (S (List.length m)) j m ltac:(lia) Nj) as (m1 & A & B & C & D & F).
    { intros i I. apply code_nonempty, V, I. }
    { intros i x I. apply disjoint; [apply V, I | exact Lj]. }
    assert (V1 : valid m1) by (intros i I; destruct (D i I) as [-> | I2]; [exact Lj | apply V, I2]).
    destruct (IH (fun kv I => H kv (or_intror I)) m1 V1) as (m2 & A2 & B2 & V2 & C2 & D2).
    exists m2. split; [| split; [| split; [| split]]].
    + cbn [replace_each fold_left fst snd]. unfold replace_each in A2. rewrite A. exact A2.
    + congruence.
    + exact V2.
    + intros c I. apply C, C2, I.
    + intros [I | I]; [| apply D2, I]. intro Z. apply C2 in Z. revert Z. apply F. transitivity $"$"; [exact (f_equal fst I) | reflexivity].
Qed.

(** The texts that come back: the dollar sign twice. *)
Definition back (i : nat) : str := match i with 0 => $"$$" | _ => word i end.
Definition unmark1 (j : nat) (w : str) (x : item) : list item := match x with Mk i => if Nat.eqb i j then map Ch w else [x] | Ch _ => [x] end.
Definition unmark (j : nat) (w : str) (m : list item) : list item := concat (map (unmark1 j w) m).
Lemma unmark_flat : forall j m, flat back (unmark j (back j) m) = flat back m.
Proof.
  intros j. induction m as [|x m IH]; [reflexivity|]. change (unmark j (back j) (x :: m)) with (unmark1 j (back j) x ++ unmark j (back j) m). rewrite flat_app, IH.
  change (flat back (x :: m)) with (flat1 back x ++ flat back m). f_equal. destruct x as [c|i]; [reflexivity|]. cbn [unmark1 flat1].
  destruct (Nat.eqb_spec i j); [subst; apply flat_chars | unfold flat; cbn; apply app_nil_r].
Qed.
Lemma unmark_marks : forall j w m i, In (Mk i) (unmark j w m) -> In (Mk i) m /\ i <> j.
Proof.
  intros j w m i H. unfold unmark in H. apply in_concat in H. destruct H as (l & A & B). apply in_map_iff in A. destruct A as (x & <- & I).
  destruct x as [c|k]; cbn [unmark1] in B; [destruct B as [B | []]; discriminate B|].
  destruct (Nat.eqb_spec k j) as [->|N].
  - apply in_map_iff in B. destruct B as (y & Z & _). discriminate Z.
  - destruct B as [B | []]. inversion B; subst. split; assumption.
Qed.

Lemma unmark_none : forall j w m, ~ In (Mk j) m -> unmark j w m = m.
Proof.
  intros j w. induction m as [|x m IH]; intros H; [reflexivity|]. change (unmark j w (x :: m)) with (unmark1 j w x ++ unmark j w m).
  rewrite IH by (intro I; apply H; right; exact I). destruct x as [c|i]; [reflexivity|]. cbn [unmark1].
  destruct (Nat.eqb_spec i j) as [->|]; [exfalso; apply H; left; reflexivity | reflexivity].
Qed.

Lemma occurs_skip : forall t a s, occurs t s -> occurs t (a ++ s).
Proof. intros t a s (x & y & ->). exists (a ++ x), y. rewrite <- app_assoc. reflexivity. Qed.
Definition digit_like (d : ascii) : Prop := Ascii.eqb d "_"%char = false.
Lemma no_repl : forall m d, valid m -> digit_like d -> ~ occurs $"REPL_" (flat back m) -> has_prefix ($"REPL_" ++ [d]) (enc code m) = false.
Proof.
  intros m d V D N. destruct (has_prefix ($"REPL_" ++ [d]) (enc code m)) eqn:H; [| reflexivity]. exfalso.
  assert (ST : forall c p m, Ascii.eqb c "_"%char = false -> valid m -> has_prefix (c :: p) (enc code m) = true -> exists m', m = Ch c :: m' /\ has_prefix p (enc code m') = true /\ valid m').
  { clear. intros c p m U V H. destruct m as [|[x|i] m]; [discriminate H|..].
    - change (enc code (Ch x :: m)) with (x :: enc code m) in H. cbn [has_prefix] in H. apply andb_true_iff in H. destruct H as [A B].
      apply Ascii.eqb_eq in A. subst x. exists m. split; [reflexivity|]. split; [exact B|]. intros i I. apply V. right. exact I.
    - exfalso. destruct (codes i (V i (or_introl eq_refl))) as (e & E & _). change (enc code (Mk i :: m)) with (code i ++ enc code m) in H.
      rewrite E in H. change prefix with ("_"%char :: $"_REPL_") in H. cbn [app has_prefix] in H. rewrite U in H. discriminate H. }
  change ($"REPL_" ++ [d]) with ("R"%char :: "E"%char :: "P"%char :: "L"%char :: "_"%char :: [d]) in H.
  apply ST in H; [| reflexivity | exact V]. destruct H as (m1 & -> & H & V1).
  apply ST in H; [| reflexivity | exact V1]. destruct H as (m2 & -> & H & V2).
  apply ST in H; [| reflexivity | exact V2]. destruct H as (m3 & -> & H & V3).
  apply ST in H; [| reflexivity | exact V3]. destruct H as (m4 & -> & H & V4).
  destruct m4 as [|[x|i] m4]; [discriminate H|..].
  - change (enc code (Ch x :: m4)) with (x :: enc code m4) in H. cbn [has_prefix] in H. apply andb_true_iff in H. destruct H as [A _].
    apply Ascii.eqb_eq in A. subst x. apply N. exists [], (flat back m4). reflexivity.
  - destruct (codes i (V4 i (or_introl eq_refl))) as (e & E & _). change (enc code (Mk i :: m4)) with (code i ++ enc code m4) in H.
    rewrite E in H. change prefix with ("_"%char :: "_"%char :: $"REPL_") in H. cbn [app has_prefix] in H. unfold digit_like in D.
    rewrite D in H. discriminate H.
Qed.
Lemma no_repl2 : forall m d, valid m -> digit_like d -> ~ occurs $"REPL_" (flat back m) -> has_prefix ($"_REPL_" ++ [d]) (enc code m) = false.
Proof.
  intros m d V D N. destruct m as [|[x|i] m]; [reflexivity|..].
  - change (enc code (Ch x :: m)) with (x :: enc code m). change ($"_REPL_" ++ [d]) with ("_"%char :: ($"REPL_" ++ [d])). cbn [has_prefix].
    rewrite (no_repl m d); [apply andb_false_r | intros k I; apply V; right; exact I | exact D |].
    intro O. apply N. change (flat back (Ch x :: m)) with ([x] ++ flat back m). apply occurs_skip, O.
  - destruct (codes i (V i (or_introl eq_refl))) as (e & E & _). change (enc code (Mk i :: m)) with (code i ++ enc code m). rewrite E. reflexivity.
Qed.
Lemma prefix_longer : forall p q s, has_prefix p s = false -> has_prefix (p ++ q) s = false.
Proof.
  intros p q s H. destruct (has_prefix (p ++ q) s) eqn:E; [| reflexivity]. apply has_prefix_iff in E. destruct E as [t ->].
  rewrite <- app_assoc, has_prefix_app in H. discriminate H.
Qed.
Lemma pass_code : forall d e w rest, Ascii.eqb d e = false -> digit_like d -> digit_like e ->
  has_prefix ($"REPL_" ++ [d]) rest = false -> has_prefix ($"_REPL_" ++ [d]) rest = false ->
  replace_all (prefix ++ [d; "_"; "_"]%char) w ((prefix ++ [e; "_"; "_"]%char) ++ rest) = (prefix ++ [e; "_"; "_"]%char) ++ replace_all (prefix ++ [d; "_"; "_"]%char) w rest.
Proof.
  intros d e w rest DE D E A B.
  assert (A' : has_prefix ($"REPL_" ++ [d; "_"; "_"]%char) rest = false) by (apply (prefix_longer ($"REPL_" ++ [d]) ["_"; "_"]%char rest A)).
  assert (B' : has_prefix ($"_REPL_" ++ [d; "_"; "_"]%char) rest = false) by (apply (prefix_longer ($"_REPL_" ++ [d]) ["_"; "_"]%char rest B)).
  unfold digit_like in D, E.
  assert (E2 : Ascii.eqb "_" e = false) by (rewrite Ascii.eqb_sym; exact E).
  change ((prefix ++ [e; "_"; "_"]%char) ++ rest) with ("_"%char :: "_"%char :: "R"%char :: "E"%char :: "P"%char :: "L"%char :: "_"%char :: e :: "_"%char :: "_"%char :: rest).
  set (p := prefix ++ [d; "_"; "_"]%char) in *.
  assert (P : p = "_"%char :: "_"%char :: ($"REPL_" ++ [d; "_"; "_"]%char)) by reflexivity.
  change ($"_REPL_" ++ [d; "_"; "_"]%char) with ("_"%char :: ($"REPL_" ++ [d; "_"; "_"]%char)) in B'.
  assert (H0 : forall t, has_prefix p ("_"%char :: "_"%char :: "R"%char :: "E"%char :: "P"%char :: "L"%char :: "_"%char :: e :: t) = false) by (intros t; cbn; rewrite DE; reflexivity).
  assert (H1 : forall c t, Ascii.eqb "_" c = false -> has_prefix p (c :: t) = false) by (intros c t X; rewrite P; cbn [has_prefix]; rewrite X; reflexivity).
  assert (H2 : forall c t, Ascii.eqb "_" c = false -> has_prefix p ("_"%char :: c :: t) = false) by (intros c t X; rewrite P; cbn [has_prefix]; rewrite X; reflexivity).
  assert (H8 : has_prefix p ("_"%char :: "_"%char :: rest) = false) by (rewrite P; cbn [has_prefix]; exact A').
  assert (H9 : has_prefix p ("_"%char :: rest) = false) by (rewrite P; exact B').
  rewrite replace_all_cons by apply H0. rewrite replace_all_cons by (apply H2; reflexivity).
  do 4 (rewrite replace_all_cons by (apply H1; reflexivity)).
  rewrite replace_all_cons by (apply H2; exact E2). rewrite replace_all_cons by (apply H1; exact E2).
  rewrite replace_all_cons by exact H8. rewrite replace_all_cons by exact H9. reflexivity.
Qed.
Lemma restore_step : forall j w m, j < 8 -> valid m -> ~ occurs $"REPL_" (flat back m) ->
  replace_all (code j) w (enc code m) = enc code (unmark j w m).
Proof.
  intros j w m J. destruct (codes j J) as (d & Ej & Dj). induction m as [|x m IH]; intros V N; [reflexivity|].
  assert (V' : valid m) by (intros i I; apply V; right; exact I).
  assert (N' : ~ occurs $"REPL_" (flat back m)).
  { intro O. apply N. change (flat back (x :: m)) with (flat1 back x ++ flat back m). apply occurs_skip, O. }
  specialize (IH V' N'). change (unmark j w (x :: m)) with (unmark1 j w x ++ unmark j w m). rewrite enc_app, <- IH.
  change (enc code (x :: m)) with (enc1 code x ++ enc code m). destruct x as [c|i].
  - change (enc code (unmark1 j w (Ch c))) with [c]. cbn [enc1 app]. apply replace_all_cons. rewrite Ej.
    change (prefix ++ [d; "_"; "_"]%char) with ("_"%char :: (($"_REPL_" ++ [d]) ++ ["_"; "_"]%char)). cbn [has_prefix].
    rewrite (prefix_longer ($"_REPL_" ++ [d]) _ _ (no_repl2 m d V' Dj N')). apply andb_false_r.
  - cbn [unmark1 enc1]. destruct (Nat.eqb_spec i j) as [->|NE].
    + rewrite enc_chars. apply replace_all_sep. apply code_nonempty, J.
    + change (enc code [Mk i]) with (code i ++ []). rewrite app_nil_r.
      assert (I8 : i < 8) by (apply V; left; reflexivity). destruct (codes i I8) as (e & Ei & Di).
      rewrite Ei, Ej. apply pass_code; [| exact Dj | exact Di | apply no_repl; assumption | apply no_repl2; assumption].
      destruct (Ascii.eqb_spec d e) as [->|]; [| reflexivity]. exfalso. apply NE, code_inj; congruence.
Qed.
Lemma restore_list : forall js m, (forall j, In j js -> j < 8) -> valid m -> ~ occurs $"REPL_" (flat back m) ->
  exists m', fold_left (fun s j => replace_all (code j) (back j) s) js (enc code m) = enc code m' /\ flat back m' = flat back m /\
             (forall i, In (Mk i) m' -> In (Mk i) m /\ ~ In i js).
Proof.
  induction js as [|j js IH]; intros m J V N.
  - exists m. split; [reflexivity|]. split; [reflexivity|]. intros i I. split; [exact I | intros []].
  - cbn [fold_left]. rewrite restore_step by (try assumption; apply J; left; reflexivity).
    destruct (IH (unmark j (back j) m)) as (m' & A & B & C).
    + intros k I. apply J. right. exact I.
    + intros i I. apply V. apply (unmark_marks j (back j) m i I).
    + rewrite unmark_flat. exact N.
    + exists m'. split; [exact A|]. split; [rewrite B; apply unmark_flat|]. intros i I. destruct (C i I) as [I1 I2].
      destruct (unmark_marks j (back j) m i I1) as [I3 I4]. split; [exact I3|]. intros [Z | Z]; [congruence | contradiction].
Qed.
Lemma no_marks : forall m, (forall i, ~ In (Mk i) m) -> enc code m = flat back m.
Proof.
  induction m as [|x m IH]; intros H; [reflexivity|]. change (enc code (x :: m)) with (enc1 code x ++ enc code m).
  change (flat back (x :: m)) with (flat1 back x ++ flat back m). rewrite IH by (intros i I; apply (H i); right; exact I).
  destruct x as [c|i]; [reflexivity|]. exfalso. apply (H i). left. reflexivity.
Qed.

Lemma doubled_app : forall a b, doubled (a ++ b) = doubled a ++ doubled b.
Proof. induction a as [|c a IH]; intros b; [reflexivity|]. cbn [app doubled]. destruct (Ascii.eqb c "$"%char); rewrite IH; reflexivity. Qed.
Lemma doubled_marks : forall m, valid m -> ~ In (Ch "$"%char) m -> flat back m = doubled (flat word m).
Proof.
  induction m as [|x m IH]; intros V N; [reflexivity|]. change (flat back (x :: m)) with (flat1 back x ++ flat back m).
  change (flat word (x :: m)) with (flat1 word x ++ flat word m). rewrite doubled_app, IH.
  - f_equal. destruct x as [c|i].
    + cbn [flat1 doubled]. destruct (Ascii.eqb_spec c "$"%char) as [->|]; [exfalso; apply N; left; reflexivity | reflexivity].
    + assert (I8 : i < 8) by (apply V; left; reflexivity). do 8 (destruct i as [|i]; [reflexivity|]). lia.
  - intros i I. apply V. right. exact I.
  - intro I. apply N. right. exact I.
Qed.
Lemma occurs_doubled : forall t s, ~ In "$"%char t -> occurs t (doubled s) -> t <> [] -> occurs t s.
Proof.
  assert (P : forall t s, ~ In "$"%char t -> has_prefix t (doubled s) = true -> has_prefix t s = true).
  { induction t as [|c t IH]; intros s N H; [reflexivity|]. destruct s as [|d s]; [discriminate H|]. cbn [doubled] in H.
    destruct (Ascii.eqb_spec d "$"%char) as [->|].
    - exfalso. cbn [has_prefix] in H. apply andb_true_iff in H. destruct H as [H _]. apply Ascii.eqb_eq in H. apply N. left. exact H.
    - cbn [has_prefix] in *. apply andb_true_iff in H. destruct H as [A B]. rewrite A. apply IH; [| exact B]. intro I. apply N. right. exact I. }
  intros t s N (a & b & E) NE. revert a E. induction s as [|c s IH]; intros a E.
  - cbn in E. destruct a; destruct t; try congruence; discriminate E.
  - destruct a as [|x a].
    + assert (H : has_prefix t (c :: s) = true) by (apply P; [exact N|]; change ([] ++ t ++ b) with (t ++ b) in E; rewrite E; apply has_prefix_app).
      apply has_prefix_iff in H. destruct H as [r H]. exists [], r. exact H.
    + cbn [doubled] in E. destruct (Ascii.eqb_spec c "$"%char) as [->|].
      * inversion E as [[Ex E1]]. destruct a as [|y a].
        -- exfalso. cbn [app] in E1. destruct t as [|z t]; [congruence|]. inversion E1; subst. apply N. left. reflexivity.
        -- inversion E1 as [[Ey E2]]. destruct (IH a E2) as (u & v & ->). exists ("$"%char :: u), v. reflexivity.
      * inversion E as [[Ex E1]]. destruct (IH a E1) as (u & v & ->). exists (x :: u), v. reflexivity.
Qed.

(** The words come back, whatever the order. *)
Lemma restored_marks : forall m, valid m -> ~ occurs $"REPL_" (flat back m) ->
  replace_each (map (fun kv => (snd kv, fst kv)) reserved) (replace_all $"__REPL_0__" $"$$" (replace_all $"__REPL_1__" $"..." (enc code m))) = flat back m.
Proof.
  intros m V N.
  destruct (restore_list [1; 0] m ltac:(intros j [<- | [<- | []]]; lia) V N) as (m1 & A1 & B1 & C1).
  cbn [fold_left] in A1. change (code 0) with $"__REPL_0__" in A1. change (code 1) with $"__REPL_1__" in A1.
  change (back 0) with $"$$" in A1. change (back 1) with $"..." in A1. rewrite A1.
  assert (V1 : valid m1) by (intros i I; apply V; apply (C1 i I)).
  assert (N1 : ~ occurs $"REPL_" (flat back m1)) by (rewrite B1; exact N).
  change (replace_each (map (fun kv => (snd kv, fst kv)) reserved) (enc code m1))
    with (fold_left (fun s j => replace_all (code j) (back j) s) [1; 2; 3; 4; 5; 6; 7] (replace_all (code 0) $"$" (enc code m1))).
  rewrite restore_step by (try assumption; lia).
  rewrite unmark_none by (intro I; apply (C1 0 I); right; left; reflexivity).
  destruct (restore_list [1; 2; 3; 4; 5; 6; 7] m1 ltac:(cbn; intros j J; lia) V1 N1) as (m2 & A2 & B2 & C2).
  rewrite A2, no_marks; [congruence|]. intros i I. destruct (C2 i I) as [I1 I2]. destruct (C1 i I1) as [I3 I4].
  specialize (V i I3). cbn [In] in I2, I4. lia.
Qed.
Lemma restored : forall order s, Permutation order reserved -> ~ occurs $"REPL_" s -> ~ occurs $"__DoTPrefix__" s -> ~ occurs $"__GlobalVar__" s ->
  restore_words (replace_all $"__REPL_1__" $"..." (protect_words order s)) = doubled s.
Proof.
  intros order s PE N ND NG. destruct (protect_marks order) with (m := map Ch s) as (m & A & B & V & _ & D).
  - intros kv I. eapply Permutation_in; eassumption.
  - intros i I. apply in_map_iff in I. destruct I as (x & Z & _). discriminate Z.
  - rewrite enc_chars in A. rewrite flat_chars in B. unfold protect_words. rewrite A.
    assert (NC : ~ In (Ch "$"%char) m).
    { apply D. eapply Permutation_in; [symmetry; exact PE | left; reflexivity]. }
    pose proof (doubled_marks m V NC) as F. rewrite B in F.
    assert (N2 : ~ occurs $"REPL_" (flat back m)).
    { rewrite F. intro O. apply N. apply occurs_doubled; [| exact O | discriminate]. cbn. intuition discriminate. }
    unfold restore_words. rewrite (restored_marks m V N2), F.
    assert (NO : forall t w, t <> [] -> ~ In "$"%char t -> ~ occurs t s -> replace_all t w (doubled s) = doubled s).
    { intros t w T1 T2 T3. apply replace_all_no. destruct (contains t (doubled s)) eqn:C; [| reflexivity]. exfalso. apply contains_iff in C. apply T3. apply occurs_doubled; [exact T2 | exact C | exact T1]. }
    rewrite (NO dot_rep); [| discriminate | cbn; intuition discriminate | exact ND].
    rewrite (NO global_rep); [reflexivity | discriminate | cbn; intuition discriminate | exact NG].
Qed.
Lemma expanded_go : forall groups s n, List.length (doubled s) <= n -> expand_go n groups (doubled s) = s.
Proof.
  intros groups. induction s as [|c s IH]; intros n L; [destruct n; reflexivity|]. cbn [doubled] in *.
  destruct (Ascii.eqb_spec c "$"%char) as [->|E].
  - cbn [List.length] in L. destruct n as [|n]; [lia|]. cbn [expand_go]. rewrite Ascii.eqb_refl. f_equal. apply IH. lia.
  - cbn [List.length] in L. destruct n as [|n]; [lia|]. cbn [expand_go]. destruct (Ascii.eqb_spec c "$"%char); [contradiction|]. f_equal. apply IH. lia.
Qed.
Lemma expanded : forall groups s, expand groups (doubled s) = s.
Proof. intros. apply expanded_go. lia. Qed.
