(** Words of operators: the order of the replacements does not matter when no two words are adjacent. *)
From Coq Require Import String Ascii List ZArith NArith Bool Lia Permutation.
From Verif Require Import GoStr GoStrFacts RazorExprModel RazorWordsModel RazorWordsSpec RazorWordsProofs.
Import ListNotations.

Section Relation.
Variables code word : nat -> str.
Notation enc := (enc code). Notation flat := (flat word).
(** The occurrences of the word j among the characters become marks, from left to right. *)
Inductive step (j : nat) : list item -> list item -> Prop :=
| st_nil : step j [] []
| st_keep x m m' : ~ (exists b, x :: m = map Ch (word j) ++ b) -> step j m m' -> step j (x :: m) (x :: m')
| st_mark m m' : step j m m' -> step j (map Ch (word j) ++ m) (Mk j :: m').

Lemma stepped : forall n j m, List.length m < n -> word j <> [] -> (forall i, In (Mk i) m -> code i <> []) -> marked code (word j) m ->
  exists m', replace_all (word j) (code j) (enc m) = enc m' /\ step j m m'.
Proof.
  induction n as [|n IH]; intros j m L N NE K; [lia|]. destruct m as [|x m].
  - exists []. split; [reflexivity | constructor].
  - assert (NE' : forall i, In (Mk i) m -> code i <> []) by (intros i I; apply NE; right; exact I).
    assert (K' : marked code (word j) m) by (intros i y I; apply K; right; exact I).
    cbn [List.length] in L. destruct x as [c|i].
    + destruct (has_prefix (word j) (enc (Ch c :: m))) eqn:P.
      * destruct (prefix_chars _ _ _ NE K P) as [m2 E].
        assert (L2 : List.length m2 < n).
        { apply (f_equal (@List.length item)) in E. rewrite app_length, map_length in E. cbn [List.length] in E.
          destruct (word j); [congruence|]. cbn [List.length] in E. lia. }
        assert (S2 : forall y, In y m2 -> In y (Ch c :: m)) by (intros y I; rewrite E; apply in_app_iff; right; exact I).
        destruct (IH j m2 L2 N) as (m' & A & B).
        { intros i I. apply NE, S2, I. }
        { intros i y I. apply K, S2, I. }
        exists (Mk j :: m'). split.
        -- rewrite E, enc_app, enc_chars, replace_all_sep by exact N. rewrite A. reflexivity.
        -- rewrite E. constructor. exact B.
      * destruct (IH j m) as (m' & A & B); [lia | exact N | exact NE' | exact K' |].
        exists (Ch c :: m'). split.
        -- change (enc (Ch c :: m)) with (c :: enc m) in *. rewrite replace_all_cons by exact P. rewrite A. reflexivity.
        -- constructor; [| exact B]. intros (b & E). rewrite E, enc_app, enc_chars, has_prefix_app in P. discriminate P.
    + destruct (IH j m) as (m' & A & B); [lia | exact N | exact NE' | exact K' |].
      exists (Mk i :: m'). split.
      * change (enc (Mk i :: m)) with (code i ++ enc m). change (enc (Mk i :: m')) with (code i ++ enc m').
        rewrite replace_pass; [rewrite A; reflexivity | exact N |]. intros y I. apply (K i y); [left; reflexivity | exact I].
      * constructor; [| exact B]. intros (b & E). destruct (word j); [congruence | discriminate E].
Qed.
Lemma step_flat : forall j m m', step j m m' -> flat m' = flat m.
Proof.
  intros j m m' H. induction H as [|x m m' N H IH|m m' H IH]; [reflexivity|..].
  - change (flat1 word x ++ flat m' = flat1 word x ++ flat m). rewrite IH. reflexivity.
  - rewrite flat_app, flat_chars. change (word j ++ flat m' = word j ++ flat m). rewrite IH. reflexivity.
Qed.
Lemma step_marks : forall j m m', step j m m' -> forall i, In (Mk i) m' -> i = j \/ In (Mk i) m.
Proof.
  intros j m m' H. induction H as [|x m m' N H IH|m m' H IH]; intros i I; [destruct I|..].
  - destruct I as [I | I]; [right; left; exact I|]. destruct (IH i I); [left | right; right]; assumption.
  - destruct I as [I | I]; [left; congruence|]. destruct (IH i I); [left; assumption | right; apply in_app_iff; right; assumption].
Qed.
(** Characters stay together. *)
Lemma step_start : forall j m m', step j m m' -> forall k b, m' = map Ch k ++ b -> exists b', m = map Ch k ++ b'.
Proof.
  intros j m m' H. induction H as [|x m m' N H IH|m m' H IH]; intros k b E.
  - destruct k; [| discriminate E]. exists []. reflexivity.
  - destruct k as [|c k]; [exists (x :: m); reflexivity|]. cbn [map app] in E. inversion E as [[E1 E2]].
    destruct (IH k b E2) as [b' ->]. exists b'. reflexivity.
  - destruct k as [|c k]; [eexists; reflexivity | discriminate E].
Qed.
Lemma step_inside : forall j m m', step j m m' -> forall k a b, m' = a ++ map Ch k ++ b -> exists a' b', m = a' ++ map Ch k ++ b'.
Proof.
  intros j m m' H. induction H as [|x m m' N H IH|m m' H IH]; intros k a b E.
  - destruct a; [| discriminate E]. destruct k; [| discriminate E]. exists [], []. reflexivity.
  - destruct a as [|y a].
    + destruct (step_start j (x :: m) (x :: m') (st_keep j x m m' N H) k b E) as [b' ->]. exists [], b'. reflexivity.
    + cbn [app] in E. inversion E as [[E1 E2]]. destruct (IH k a b E2) as (a' & b' & ->). exists (y :: a'), b'. reflexivity.
  - destruct a as [|y a].
    + destruct k as [|c k]; [exists [], (map Ch (word j) ++ m); reflexivity | discriminate E].
    + cbn [app] in E. inversion E as [[E1 E2]]. destruct (IH k a b E2) as (a' & b' & ->). exists (map Ch (word j) ++ a'), b'. rewrite <- app_assoc. reflexivity.
Qed.
Lemma step_done : forall j m m', word j <> [] -> step j m m' -> forall a b, m' <> a ++ map Ch (word j) ++ b.
Proof.
  intros j m m' W H. induction H as [|x m m' N H IH|m m' H IH]; intros a b E.
  - destruct a; [| discriminate E]. destruct (word j); [congruence | discriminate E].
  - destruct a as [|y a].
    + destruct (step_start j (x :: m) (x :: m') (st_keep j x m m' N H) _ b E) as [b' E']. apply N. exists b'. exact E'.
    + cbn [app] in E. inversion E as [[E1 E2]]. exact (IH a b E2).
  - destruct a as [|y a].
    + destruct (word j); [congruence | discriminate E].
    + cbn [app] in E. inversion E as [[E1 E2]]. exact (IH a b E2).
Qed.
End Relation.

(** ** The table *)
Definition oname (i : nat) : str := fst (nth i operator_names ([], [])).
Definition op_text (i : nat) : str := snd (nth i operator_names ([], [])).
Definition oword (i : nat) : str := $" " ++ oname i ++ $" ".
Definition letter (c : ascii) : bool := let n := N_of_ascii c in (N.leb 97 n && N.leb n 122)%bool.
Ltac each i := do 20 (destruct i as [|i]; [vm_compute; try reflexivity; try discriminate|]); lia.
Lemma names_letters : forall i, i < 20 -> forallb letter (oname i) = true.
Proof. intros i H. each i. Qed.
Lemma names_nonempty : forall i, i < 20 -> oname i <> [].
Proof. intros i H. each i. Qed.
Lemma texts_nonempty : forall i, i < 20 -> op_text i <> [].
Proof. intros i H. each i. Qed.
Lemma texts_symbols : forall i, i < 20 -> forallb (fun c => negb (letter c || Ascii.eqb c " ")) (op_text i) = true.
Proof. intros i H. each i. Qed.
Lemma blank_not_letter : forall c, letter c = true -> c <> " "%char.
Proof. intros c H ->. discriminate H. Qed.
Lemma word_letters : forall i c, i < 20 -> In c (oword i) -> letter c || Ascii.eqb c " " = true.
Proof.
  intros i c H I. unfold oword in I. apply in_app_iff in I. destruct I as [[<- | []] | I]; [reflexivity|].
  apply in_app_iff in I. destruct I as [I | [<- | []]]; [| reflexivity]. pose proof (names_letters i H) as L.
  rewrite forallb_forall in L. rewrite (L c I). reflexivity.
Qed.
Lemma apart : forall i j x, i < 20 -> j < 20 -> In x (op_text i) -> ~ In x (oword j).
Proof.
  intros i j x Hi Hj I J. pose proof (texts_symbols i Hi) as T. rewrite forallb_forall in T. specialize (T x I). cbv beta in T.
  rewrite (word_letters j x Hj J) in T. discriminate T.
Qed.
Lemma table_in : forall kv, In kv operator_words -> exists i, i < 20 /\ kv = (oword i, op_text i).
Proof.
  intros [k v] I.
  assert (A : forallb (fun kv => existsb (fun i => str_eqb (fst kv) (oword i) && str_eqb (snd kv) (op_text i)) (seq 0 20)) operator_words = true) by (vm_compute; reflexivity).
  rewrite forallb_forall in A. specialize (A _ I). cbv beta in A. apply existsb_exists in A. destruct A as (i & J & E).
  apply andb_true_iff in E. destruct E as [E1 E2]. apply str_eqb_eq in E1. apply str_eqb_eq in E2. cbn [fst snd] in E1, E2.
  exists i. split; [apply in_seq in J; lia|]. rewrite E1, E2. reflexivity.
Qed.
Lemma table_all : forall i, i < 20 -> In (oword i, op_text i) operator_words.
Proof.
  intros i H.
  assert (A : forallb (fun i => existsb (fun kv => str_eqb (fst kv) (oword i) && str_eqb (snd kv) (op_text i)) operator_words) (seq 0 20) = true) by (vm_compute; reflexivity).
  rewrite forallb_forall in A. specialize (A i ltac:(apply in_seq; lia)). cbv beta in A. apply existsb_exists in A. destruct A as ([k v] & J & E).
  apply andb_true_iff in E. destruct E as [E1 E2]. apply str_eqb_eq in E1. apply str_eqb_eq in E2. cbn [fst snd] in E1, E2. rewrite <- E1, <- E2. exact J.
Qed.
Lemma names_in : forall i, i < 20 -> In (oname i, op_text i) operator_names.
Proof. intros i H. unfold oname, op_text. rewrite <- surjective_pairing. apply nth_In. exact H. Qed.
Lemma names_all : forall kv, In kv operator_names -> exists i, i < 20 /\ kv = (oname i, op_text i).
Proof.
  intros kv I. apply (In_nth _ _ ([], [])) in I. destruct I as (i & L & E). exists i. split; [exact L|]. unfold oname, op_text. assert (E2 : nth i operator_names ([], []) = kv) by exact E. rewrite <- E2. apply surjective_pairing.
Qed.
Lemma names_inj : forall i j, i < 20 -> j < 20 -> oname i = oname j -> i = j.
Proof.
  intros i j Hi Hj E.
  assert (A : forallb (fun i => forallb (fun j => Nat.eqb i j || negb (str_eqb (oname i) (oname j))) (seq 0 20)) (seq 0 20) = true) by (vm_compute; reflexivity).
  rewrite forallb_forall in A. specialize (A i ltac:(apply in_seq; lia)). cbv beta in A. rewrite forallb_forall in A. specialize (A j ltac:(apply in_seq; lia)). cbv beta in A.
  rewrite E, str_eqb_refl in A. rewrite orb_false_r in A. apply Nat.eqb_eq, A.
Qed.

Definition ovalid (m : list item) : Prop := forall i, In (Mk i) m -> i < 20.
Lemma all_steps : forall order, (forall kv, In kv order -> In kv operator_words) -> forall m, ovalid m ->
  exists m', replace_each order (enc op_text m) = enc op_text m' /\ flat oword m' = flat oword m /\ ovalid m' /\
             (forall k a b, m' = a ++ map Ch k ++ b -> exists a' b', m = a' ++ map Ch k ++ b') /\
             (forall i, i < 20 -> In (oword i, op_text i) order -> forall a b, m' <> a ++ map Ch (oword i) ++ b).
Proof.
  induction order as [|kv order IH]; intros H m V.
  - exists m. split; [reflexivity|]. split; [reflexivity|]. split; [exact V|]. split; [intros k a b E; exists a, b; exact E | intros i _ []].
  - destruct (table_in kv (H kv (or_introl eq_refl))) as (j & Lj & ->).
    assert (Nj : oword j <> []) by (unfold oword; discriminate).
    destruct (stepped op_text oword (S (List.length m)) j m ltac:(lia) Nj) as (m1 & A & B).
    { intros i I. apply texts_nonempty, V, I. }
    { intros i x I. apply apart; [apply V, I | exact Lj]. }
    assert (V1 : ovalid m1) by (intros i I; destruct (step_marks oword j m m1 B i I) as [-> | I2]; [exact Lj | apply V, I2]).
    destruct (IH (fun kv I => H kv (or_intror I)) m1 V1) as (m2 & A2 & B2 & V2 & C2 & D2).
    exists m2. split; [| split; [| split; [| split]]].
    + cbn [replace_each fold_left fst snd]. unfold replace_each in A2. rewrite A. exact A2.
    + rewrite B2. apply (step_flat oword j m m1 B).
    + exact V2.
    + intros k a b E. destruct (C2 k a b E) as (a' & b' & E'). exact (step_inside oword j m m1 B k a' b' E').
    + intros i Li [I | I] a b E; [| exact (D2 i Li I a b E)].
      destruct (C2 (oword i) a b E) as (a' & b' & E'). assert (EQ : oword j = oword i) by exact (f_equal fst I).
      rewrite <- EQ in E'. exact (step_done oword j m m1 Nj B a' b' E').
Qed.

(** ** The final text *)
Lemma adjacent_skip : forall a s, adjacent s -> adjacent (a ++ s).
Proof. intros a s (x & y & u & v & A & B & C). exists x, y, u, v. split; [exact A|]. split; [exact B|]. apply occurs_skip, C. Qed.
(** A word at the start of the text of items is among the characters, is the first mark, or is adjacent to one. *)
Lemma word_split : forall i j n r, i < 20 -> j < 20 -> has_prefix (oword i) (oword j ++ r) = n -> n = true -> i = j.
Proof.
  intros i j n r Hi Hj E ->. apply names_inj; try assumption. unfold oword in E. apply has_prefix_iff in E. destruct E as [t E].
  rewrite <- !app_assoc in E. change ($" " ++ oname j ++ $" " ++ r) with (" "%char :: oname j ++ $" " ++ r) in E.
  change ($" " ++ oname i ++ $" " ++ t) with (" "%char :: oname i ++ $" " ++ t) in E. inversion E as [E1]. clear E.
  pose proof (names_letters i Hi) as A. pose proof (names_letters j Hj) as B. revert A B E1. generalize (oname i) (oname j). clear. intros l.
  induction l as [|c l IH]; intros [|d k] A B E.
  - reflexivity.
  - exfalso. cbn in E. inversion E; subst d. discriminate B.
  - exfalso. cbn in E. inversion E; subst c. discriminate A.
  - cbn [app] in E. inversion E as [[E1 E2]]. cbn [forallb] in A, B. apply andb_true_iff in A. apply andb_true_iff in B. f_equal. apply IH; tauto.
Qed.
Lemma crossing : forall i u m, i < 20 -> ovalid m -> forall k, oname i = u ++ k -> has_prefix (k ++ $" ") (flat oword m) = true ->
  (exists b, m = map Ch (k ++ $" ") ++ b) \/ (exists j b, j < 20 /\ m = map Ch k ++ Mk j :: b).
Proof.
  intros i u m Hi V k. revert u m V. induction k as [|c k IH]; intros u m V E H.
  - destruct m as [|[x|j] m]; [discriminate H|..].
    + change (flat oword (Ch x :: m)) with (x :: flat oword m) in H. cbn [app has_prefix] in H. apply andb_true_iff in H. destruct H as [H _].
      apply Ascii.eqb_eq in H. subst x. left. exists m. reflexivity.
    + right. exists j, m. split; [apply V; left; reflexivity | reflexivity].
  - destruct m as [|[x|j] m]; [discriminate H|..].
    + change (flat oword (Ch x :: m)) with (x :: flat oword m) in H. cbn [app has_prefix] in H. apply andb_true_iff in H. destruct H as [H1 H2].
      apply Ascii.eqb_eq in H1. subst x. destruct (IH (u ++ [c]) m) as [(b & ->) | (j & b & L & ->)].
      * intros i' I. apply V. right. exact I.
      * rewrite <- app_assoc. exact E.
      * exact H2.
      * left. exists b. reflexivity.
      * right. exists j, b. split; [exact L | reflexivity].
    + exfalso. change (flat oword (Mk j :: m)) with (oword j ++ flat oword m) in H. unfold oword in H. cbn [app has_prefix] in H.
      apply andb_true_iff in H. destruct H as [H _]. apply Ascii.eqb_eq in H. subst c.
      pose proof (names_letters i Hi) as L. rewrite E in L. rewrite forallb_app in L. apply andb_true_iff in L. destruct L as [_ L]. discriminate L.
Qed.
Lemma spelled_skip : forall a s, spelled (List.length a) (a ++ s) = spelled 0 s.
Proof. induction a as [|c a IH]; intros s; [reflexivity|]. cbn [List.length app]. exact (IH s). Qed.
Lemma final : forall m, ovalid m -> (forall i, i < 20 -> forall a b, m <> a ++ map Ch (oword i) ++ b) -> ~ adjacent (flat oword m) ->
  enc op_text m = spelled 0 (flat oword m).
Proof.
  induction m as [|x m IH]; intros V D NA; [reflexivity|].
  assert (V' : ovalid m) by (intros i I; apply V; right; exact I).
  assert (D' : forall i, i < 20 -> forall a b, m <> a ++ map Ch (oword i) ++ b) by (intros i Hi a b E; apply (D i Hi (x :: a) b); rewrite E; reflexivity).
  assert (NA' : ~ adjacent (flat oword m)).
  { intro A. apply NA. change (flat oword (x :: m)) with (flat1 oword x ++ flat oword m). apply adjacent_skip, A. }
  specialize (IH V' D' NA'). destruct x as [c|i].
  - change (enc op_text (Ch c :: m)) with (c :: enc op_text m). change (flat oword (Ch c :: m)) with (c :: flat oword m) in *.
    cbn [spelled]. destruct (word_at (c :: flat oword m)) as [[w op]|] eqn:W; [| f_equal; exact IH]. exfalso.
    unfold word_at in W. apply find_some in W. destruct W as [I P]. destruct (names_all _ I) as (i & Hi & E). inversion E as [[Ew Eo]]. clear E.
    cbn [fst] in P. rewrite Ew in P. change ($" " ++ oname i ++ $" ") with (" "%char :: oname i ++ $" ") in P. cbn [has_prefix] in P.
    apply andb_true_iff in P. destruct P as [P1 P2]. apply Ascii.eqb_eq in P1. subst c.
    destruct (crossing i [] m Hi V' (oname i) eq_refl P2) as [(b & E) | (j & b & Lj & E)].
    + apply (D i Hi [] b). rewrite E. reflexivity.
    + apply NA. exists (oname i), (oname j), (op_text i), (op_text j). split; [apply names_in, Hi|]. split; [apply names_in, Lj|].
      exists [], (flat oword b). rewrite E, flat_app, flat_chars. change (flat oword (Mk j :: b)) with (oword j ++ flat oword b). unfold oword.
      rewrite <- !app_assoc. reflexivity.
  - change (enc op_text (Mk i :: m)) with (op_text i ++ enc op_text m). change (flat oword (Mk i :: m)) with (oword i ++ flat oword m) in *.
    assert (Hi : i < 20) by (apply V; left; reflexivity).
    assert (W : word_at (oword i ++ flat oword m) = Some (oname i, op_text i)).
    { destruct (word_at (oword i ++ flat oword m)) as [[w op]|] eqn:W; unfold word_at in W.
      - apply find_some in W. destruct W as [I P]. destruct (names_all _ I) as (j & Hj & E). inversion E as [[Ew Eo]]. clear E. cbn [fst] in P.
        rewrite Ew in P. change ($" " ++ oname j ++ $" ") with (oword j) in P.
        rewrite (word_split j i true (flat oword m) Hj Hi P eq_refl). reflexivity.
      - exfalso. pose proof (find_none _ _ W _ (names_in i Hi)) as Z. cbn [fst] in Z. change ($" " ++ oname i ++ $" ") with (oword i) in Z.
        rewrite has_prefix_app in Z. discriminate Z. }
    change (oword i ++ flat oword m) with (" "%char :: (oname i ++ $" ") ++ flat oword m) in *.
    cbn [spelled]. rewrite W. f_equal. rewrite IH. replace (List.length (oname i) + 1) with (List.length (oname i ++ $" ")) by (rewrite app_length; reflexivity).
    symmetry. apply spelled_skip.
Qed.
Lemma any_order : forall order s, Permutation order operator_words -> ~ adjacent s -> replace_each order s = spelled 0 s.
Proof.
  intros order s PE NA. destruct (all_steps order) with (m := map Ch s) as (m & A & B & V & _ & D).
  - intros kv I. eapply Permutation_in; eassumption.
  - intros i I. apply in_map_iff in I. destruct I as (x & Z & _). discriminate Z.
  - rewrite enc_chars in A. rewrite flat_chars in B. rewrite A, <- B. apply final; [exact V | | rewrite B; exact NA].
    intros i Hi. apply (D i Hi). eapply Permutation_in; [symmetry; exact PE | apply table_all, Hi].
Qed.
