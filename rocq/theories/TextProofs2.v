(** Proofs: searching, words, contexts, protected strings. *)
From Coq Require Import String Ascii List ZArith NArith Bool Lia Sorted.
From Coq Require DecimalString DecimalPos.
From Verif Require Import GoStr GoStrFacts Utf8 Utf8Facts TextModel TextSpec.
Import ListNotations.

Notation len := (@List.length ascii).

Lemma occurs_at_iff : forall sub s k,
  occurs_at sub s k <-> has_prefix sub (skipn k s) = true /\ k <= len s.
Proof.
  intros sub s k. split.
  - intros (a & b & -> & <-). rewrite skipn_app, skipn_all, Nat.sub_diag. cbn [app skipn].
    rewrite has_prefix_app, app_length. split; [reflexivity|lia].
  - intros [H L]. apply has_prefix_iff in H as [t H]. exists (firstn k s), t. split.
    + rewrite <- H. symmetry. apply firstn_skipn.
    + apply firstn_length_le. exact L.
Qed.

Lemma not_occurs_at : forall sub s k, ~ occurs_at sub s k -> k <= len s -> has_prefix sub (skipn k s) = false.
Proof.
  intros sub s k H L. destruct (has_prefix sub (skipn k s)) eqn:E; [|reflexivity].
  exfalso. apply H. apply occurs_at_iff. split; assumption.
Qed.

(** ** IndexAll *)

Lemma skipn_plus : forall (A : Type) n m (s : list A), skipn n (skipn m s) = skipn (m + n) s.
Proof.
  intros A n m. revert n. induction m as [|m IH]; intros n s; [reflexivity|].
  destruct s as [|x s]; [rewrite skipn_nil; destruct n; reflexivity|]. cbn [skipn Nat.add]. apply IH.
Qed.

Lemma index_all_go_spec : forall f sub s start, sub <> [] -> len s <= f ->
  let L := index_all_go f sub s start in
  (forall k, In k L -> exists j, k = start + j /\ occurs_at sub s j) /\
  StronglySorted (fun a b => a + len sub <= b) L /\
  (forall j, occurs_at sub s j -> exists p, In p L /\ p <= start + j < p + len sub).
Proof.
  induction f as [|f IH]; intros sub s start Hs Hl.
  - destruct s; [|simpl in Hl; lia]. cbn [index_all_go]. repeat split; [intros k []|constructor|].
    intros j (a & b & E & _). apply (f_equal (@List.length _)) in E. rewrite !app_length in E. simpl in E.
    destruct sub; [congruence|]. simpl in E. lia.
  - cbn [index_all_go]. destruct (index sub s) as [pos|] eqn:I.
    + destruct (index_Some _ _ _ I) as (a & b & E & La & F).
      assert (SL : 0 < len sub) by (destruct sub; [congruence|simpl; lia]).
      assert (LL : len s = pos + len sub + len b).
      { rewrite E, !app_length. lia. }
      destruct (IH sub (skipn (pos + len sub) s) (start + (pos + len sub)) Hs) as (H1 & H2 & H3).
      { rewrite skipn_length. lia. }
      set (L' := index_all_go f sub (skipn (pos + len sub) s) (start + (pos + len sub))) in *.
      split; [|split].
      * intros k [<-|Hk].
        { exists pos. split; [reflexivity|]. exists a, b. split; assumption. }
        destruct (H1 k Hk) as (j & -> & O). exists (pos + len sub + j). split; [lia|].
        apply occurs_at_iff in O as [O1 O2]. apply occurs_at_iff. rewrite skipn_plus in O1.
        rewrite skipn_length in O2. split; [exact O1|lia].
      * constructor; [exact H2|]. apply Forall_forall. intros k Hk. destruct (H1 k Hk) as (j & -> & _). lia.
      * intros j O. pose proof O as O'. apply occurs_at_iff in O as [O1 O2].
        destruct (Nat.le_gt_cases pos j) as [G|G]; [|rewrite (F j G) in O1; discriminate].
        destruct (Nat.le_gt_cases (pos + len sub) j) as [G2|G2].
        { destruct (H3 (j - (pos + len sub))) as (p & Hp & R).
          - apply occurs_at_iff. rewrite skipn_plus, skipn_length.
            replace (pos + len sub + (j - (pos + len sub))) with j by lia. split; [exact O1|lia].
          - exists p. split; [right; exact Hp|]. lia. }
        { exists (start + pos). split; [left; reflexivity|lia]. }
    + repeat split; [intros k []|constructor|].
      intros j O. apply occurs_at_iff in O as [O1 O2]. rewrite index_None in I. rewrite (I j O2) in O1. discriminate.
Qed.

Lemma index_all_spec : forall s sub, sub <> [] ->
  (forall k, In k (index_all s sub) -> occurs_at sub s k) /\
  StronglySorted (fun a b => a + len sub <= b) (index_all s sub) /\
  (forall k, occurs_at sub s k -> exists p, In p (index_all s sub) /\ p <= k < p + len sub).
Proof.
  intros s sub Hs.
  destruct (index_all_go_spec (len s) sub s 0 Hs (Nat.le_refl _)) as (H1 & H2 & H3).
  assert (E : index_all s sub = index_all_go (len s) sub s 0).
  { unfold index_all. destruct sub as [|c sub]; [congruence|]. destruct s; reflexivity. }
  rewrite E. split; [|split; [exact H2|exact H3]].
  intros k Hk. destruct (H1 k Hk) as (j & -> & O). exact O.
Qed.

Lemma index_all_empty : forall s, index_all s [] = [] /\ forall sub, index_all [] sub = [].
Proof. intro s. split; [reflexivity|]. intro sub. destruct sub; reflexivity. Qed.

(** At most one list has these three properties. *)
Lemma scan_unique : forall (P : nat -> Prop) d (l1 l2 : list nat), 0 < d ->
  (forall k, In k l1 -> P k) -> (forall k, In k l2 -> P k) ->
  StronglySorted (fun a b => a + d <= b) l1 -> StronglySorted (fun a b => a + d <= b) l2 ->
  (forall k, P k -> (forall p, In p l1 -> ~ (p <= k < p + d)) -> False) ->
  (forall k, P k -> (forall p, In p l2 -> ~ (p <= k < p + d)) -> False) -> l1 = l2.
Proof.
  intros P d l1 l2 Hd A1 A2 S1 S2 C1 C2.
  assert (G : forall l1 l2 m, StronglySorted (fun a b => a + d <= b) l1 -> StronglySorted (fun a b => a + d <= b) l2 ->
     (forall k, In k l1 -> P k /\ m <= k) -> (forall k, In k l2 -> P k /\ m <= k) ->
     (forall k, P k -> m <= k -> (forall p, In p l1 -> ~ (p <= k < p + d)) -> False) ->
     (forall k, P k -> m <= k -> (forall p, In p l2 -> ~ (p <= k < p + d)) -> False) -> l1 = l2).
  { clear. induction l1 as [|x l1 IH]; intros l2 m S1 S2 A1 A2 C1 C2.
    - destruct l2 as [|y l2]; [reflexivity|]. exfalso. destruct (A2 y (or_introl eq_refl)) as [Py My].
      apply (C1 y Py My). intros p [].
    - destruct l2 as [|y l2].
      { exfalso. destruct (A1 x (or_introl eq_refl)) as [Px Mx]. apply (C2 x Px Mx). intros p []. }
      inversion S1 as [|? ? S1' F1]; subst. inversion S2 as [|? ? S2' F2]; subst.
      rewrite Forall_forall in F1, F2.
      assert (x = y).
      { destruct (A1 x (or_introl eq_refl)) as [Px Mx]. destruct (A2 y (or_introl eq_refl)) as [Py My].
        destruct (Nat.lt_trichotomy x y) as [L|[E|L]]; [|exact E|]; exfalso.
        - apply (C2 x Px Mx). intros p [<-|Hp]; [lia|]. specialize (F2 p Hp). lia.
        - apply (C1 y Py My). intros p [<-|Hp]; [lia|]. specialize (F1 p Hp). lia. }
      subst y. f_equal. apply (IH l2 (x + d)); auto.
      + intros k Hk. destruct (A1 k (or_intror Hk)). split; [assumption|]. apply F1. exact Hk.
      + intros k Hk. destruct (A2 k (or_intror Hk)). split; [assumption|]. apply F2. exact Hk.
      + intros k Pk Mk Q. destruct (A1 x (or_introl eq_refl)) as [_ Mx]. apply (C1 k Pk ltac:(lia)).
        intros p [<-|Hp]; [lia|]. apply Q. exact Hp.
      + intros k Pk Mk Q. destruct (A1 x (or_introl eq_refl)) as [_ Mx]. apply (C2 k Pk ltac:(lia)).
        intros p [<-|Hp]; [lia|]. apply Q. exact Hp. }
  apply (G l1 l2 0); [exact S1|exact S2| | | |].
  - intros k Hk. split; [apply A1; exact Hk|lia].
  - intros k Hk. split; [apply A2; exact Hk|lia].
  - intros k Pk _. exact (C1 k Pk).
  - intros k Pk _. exact (C2 k Pk).
Qed.

Lemma index_all_unique : forall s sub L, sub <> [] ->
  (forall k, In k L -> occurs_at sub s k) -> StronglySorted (fun a b => a + len sub <= b) L ->
  (forall k, occurs_at sub s k -> exists p, In p L /\ p <= k < p + len sub) -> index_all s sub = L.
Proof.
  intros s sub L Hs H1 H2 H3. destruct (index_all_spec s sub Hs) as (G1 & G2 & G3).
  apply (scan_unique (occurs_at sub s) (len sub)); auto.
  - destruct sub; [congruence|simpl; lia].
  - intros k O Q. destruct (G3 k O) as (p & Hp & R). exact (Q p Hp R).
  - intros k O Q. destruct (H3 k O) as (p & Hp & R). exact (Q p Hp R).
Qed.

(** ** Words *)

Lemma run_split : forall p s, exists a b, s = a ++ b /\ len a = run_length p s /\
  Forall (fun c => p c = true) a /\ match b with [] => True | c :: _ => p c = false end.
Proof.
  intros p s. induction s as [|c s IH]; cbn [run_length].
  - exists [], []. repeat split. constructor.
  - destruct (p c) eqn:E.
    + destruct IH as (a & b & -> & L & F & B). exists (c :: a), b. repeat split; [simpl; rewrite L; reflexivity| |exact B].
      constructor; assumption.
    + exists [], (c :: s). repeat split; [constructor|exact E].
Qed.

Lemma app_inv_len : forall (A : Type) (a b c d : list A), a ++ b = c ++ d -> List.length a = List.length c -> a = c /\ b = d.
Proof.
  intros A a. induction a as [|x a IH]; intros b c d H L; destruct c as [|y c]; try discriminate L.
  - split; [reflexivity|exact H].
  - cbn [app] in H. injection H as -> H. injection L as L. destruct (IH _ _ _ H L) as [-> ->]. split; reflexivity.
Qed.

Lemma skipn_exact : forall (A : Type) (a b : list A), skipn (List.length a) (a ++ b) = b.
Proof. intros. rewrite skipn_app, skipn_all, Nat.sub_diag. reflexivity. Qed.
Lemma firstn_exact : forall (A : Type) (a b : list A), firstn (List.length a) (a ++ b) = a.
Proof. intros. rewrite firstn_app, firstn_all, Nat.sub_diag, firstn_O, app_nil_r. reflexivity. Qed.

Lemma word_at_out : forall s pos accept, (pos < 0 \/ Z.of_nat (len s) <= pos)%Z -> word_at s pos accept = ([], (-1)%Z).
Proof.
  intros s pos accept H. unfold word_at, slen.
  replace ((pos <? 0)%Z || (Z.of_nat (len s) <=? pos)%Z) with true; [reflexivity|].
  symmetry. apply orb_true_iff. destruct H; [left; apply Z.ltb_lt|right; apply Z.leb_le]; assumption.
Qed.

Lemma word_at_in : forall s x c y accept, s = x ++ c :: y ->
  (is_break (concat accept) c = true /\ word_at s (Z.of_nat (len x)) accept = ([], Z.of_nat (len x))) \/
  (is_break (concat accept) c = false /\ exists a w b,
     s = a ++ w ++ b /\ word_at s (Z.of_nat (len x)) accept = (w, Z.of_nat (len a)) /\
     len a <= len x < len a + len w /\
     Forall (fun d => is_break (concat accept) d = false) w /\
     (a = [] \/ exists a' d, a = a' ++ [d] /\ is_break (concat accept) d = true) /\
     match b with [] => True | d :: _ => is_break (concat accept) d = true end).
Proof.
  intros s x c y accept E. set (brk := is_break (concat accept)).
  assert (R : ((Z.of_nat (len x) <? 0)%Z || (slen s <=? Z.of_nat (len x))%Z) = false).
  { apply orb_false_iff. split; [apply Z.ltb_ge; lia|]. apply Z.leb_gt. unfold slen. rewrite E, app_length. simpl. lia. }
  unfold word_at. rewrite R, Nat2Z.id. fold brk.
  assert (F1 : firstn (S (len x)) s = x ++ [c]).
  { rewrite E. change (x ++ c :: y) with (x ++ [c] ++ y). rewrite app_assoc.
    replace (S (len x)) with (len (x ++ [c])) by (rewrite app_length; simpl; lia). apply firstn_exact. }
  assert (F2 : skipn (len x) s = c :: y) by (rewrite E; apply skipn_exact).
  rewrite F1, F2, rev_app_distr. cbn [rev app].
  destruct (brk c) eqn:B.
  - left. split; [reflexivity|]. cbn [run_length]. rewrite B. cbn [negb].
    rewrite Z.sub_0_r, Z.add_0_r, Z.eqb_refl, Z.sub_diag. reflexivity.
  - right. split; [reflexivity|].
    cbn [run_length]. rewrite B. cbn [negb].
    destruct (run_split (fun d => negb (brk d)) (rev x)) as (a1 & b1 & E1 & L1 & Fa & B1).
    destruct (run_split (fun d => negb (brk d)) y) as (a2 & b2 & E2 & L2 & Fb & B2).
    rewrite <- L1, <- L2.
    assert (EX : x = rev b1 ++ rev a1).
    { rewrite <- rev_app_distr, <- E1, rev_involutive. reflexivity. }
    exists (rev b1), (rev a1 ++ c :: a2), b2.
    assert (LX : len x = len b1 + len a1) by (rewrite EX, app_length, !rev_length; lia).
    assert (Bg : (Z.of_nat (len x) - Z.of_nat (S (len a1)) =? Z.of_nat (len x) + Z.of_nat (S (len a2)))%Z = false)
      by (apply Z.eqb_neq; lia).
    rewrite Bg.
    assert (ES : s = rev b1 ++ (rev a1 ++ c :: a2) ++ b2).
    { rewrite E, EX, E2. rewrite <- !app_assoc. reflexivity. }
    split; [exact ES|]. split.
    { f_equal.
      - replace (Z.to_nat (Z.of_nat (len x) - Z.of_nat (S (len a1)) + 1)) with (len (rev b1)) by (rewrite rev_length; lia).
        replace (Z.to_nat (Z.of_nat (len x) + Z.of_nat (S (len a2)) - (Z.of_nat (len x) - Z.of_nat (S (len a1)) + 1)))
          with (len (rev a1 ++ c :: a2)) by (rewrite app_length, rev_length; simpl; lia).
        rewrite ES, skipn_exact, firstn_exact. reflexivity.
      - rewrite rev_length. lia. }
    split; [rewrite app_length, !rev_length; simpl; lia|].
    split.
    { apply Forall_app. split.
      - apply Forall_rev. eapply Forall_impl; [|exact Fa]. intros d Hd. apply negb_true_iff. exact Hd.
      - constructor; [exact B|]. eapply Forall_impl; [|exact Fb]. intros d Hd. apply negb_true_iff. exact Hd. }
    split.
    { destruct b1 as [|d b1]; [left; reflexivity|right]. exists (rev b1), d. split; [reflexivity|].
      apply negb_false_iff. exact B1. }
    destruct b2 as [|d b2]; [exact I|]. apply negb_false_iff. exact B2.
Qed.

(** The word is determined by these conditions. *)
Lemma word_unique : forall (brk : ascii -> bool) a w b a2 w2 b2 p,
  a ++ w ++ b = a2 ++ w2 ++ b2 ->
  len a <= p < len a + len w -> len a2 <= p < len a2 + len w2 ->
  Forall (fun d => brk d = false) w -> Forall (fun d => brk d = false) w2 ->
  (a = [] \/ exists a' d, a = a' ++ [d] /\ brk d = true) -> (a2 = [] \/ exists a' d, a2 = a' ++ [d] /\ brk d = true) ->
  match b with [] => True | d :: _ => brk d = true end -> match b2 with [] => True | d :: _ => brk d = true end ->
  a = a2 /\ w = w2 /\ b = b2.
Proof.
  assert (G : forall (brk : ascii -> bool) a w b a2 w2 b2 p, a ++ w ++ b = a2 ++ w2 ++ b2 ->
    len a <= p < len a + len w -> len a2 <= p < len a2 + len w2 ->
    Forall (fun d => brk d = false) w -> (a2 = [] \/ exists a' d, a2 = a' ++ [d] /\ brk d = true) -> len a2 <= len a).
  { intros brk a w b a2 w2 b2 p E P1 P2 F [->|(a' & d & -> & Hd)]; [simpl; lia|].
    rewrite app_length in *. cbn [List.length] in *.
    destruct (Nat.le_gt_cases (len a' + 1) (len a)) as [L|L]; [exact L|exfalso].
    assert (N1 : nth_error ((a' ++ [d]) ++ w2 ++ b2) (len a') = Some d).
    { rewrite <- app_assoc, nth_error_app2 by lia. rewrite Nat.sub_diag. reflexivity. }
    rewrite <- E in N1. rewrite nth_error_app2 in N1 by lia. rewrite nth_error_app1 in N1 by lia.
    apply nth_error_In in N1. rewrite Forall_forall in F. rewrite (F d N1) in Hd. discriminate. }
  assert (H : forall (brk : ascii -> bool) a w b w2 b2, a ++ w ++ b = a ++ w2 ++ b2 ->
    Forall (fun d => brk d = false) w2 -> match b with [] => True | d :: _ => brk d = true end -> len w2 <= len w).
  { intros brk a w b w2 b2 E F Hb. apply app_inv_head in E.
    destruct (Nat.le_gt_cases (len w2) (len w)) as [L|L]; [exact L|exfalso].
    destruct b as [|d b].
    - rewrite app_nil_r in E. apply (f_equal (@List.length _)) in E. rewrite app_length in E. lia.
    - assert (N1 : nth_error (w ++ d :: b) (len w) = Some d)
        by (rewrite nth_error_app2 by lia; rewrite Nat.sub_diag; reflexivity).
      rewrite E in N1. rewrite nth_error_app1 in N1 by lia. apply nth_error_In in N1.
      rewrite Forall_forall in F. rewrite (F d N1) in Hb. discriminate. }
  intros brk a w b a2 w2 b2 p E P1 P2 F1 F2 A1 A2 B1 B2.
  assert (L : len a = len a2).
  { pose proof (G brk _ _ _ _ _ _ p E P1 P2 F1 A2). pose proof (G brk _ _ _ _ _ _ p (eq_sym E) P2 P1 F2 A1). lia. }
  destruct (app_inv_len _ _ _ _ _ E L) as [-> E2]. split; [reflexivity|].
  assert (L2 : len w = len w2).
  { pose proof (H brk _ _ _ _ _ E F2 B1). pose proof (H brk _ _ _ _ _ (eq_sym E) F1 B2). lia. }
  exact (app_inv_len _ _ _ _ _ E2 L2).
Qed.

(** What breaks words among the ASCII characters. *)
Lemma is_break_ascii : forall accept c, (N_of_ascii c < 128)%N -> Forall (fun d => N_of_ascii d < 128)%N accept ->
  is_break accept c = true <->
  In c ($" " ++ [TAB; NL; ascii_of_N 11; ascii_of_N 12; CR]) \/
  (In c (DQ :: BSL :: $"!#%&'()*,-./:;?@[]_{}") /\ ~ In c accept).
Proof.
  intros accept c Hc F. unfold is_break. rewrite orb_true_iff, andb_true_iff, negb_true_iff.
  assert (EC : encode_latin1 c = [c]).
  { unfold encode_latin1. replace (N_of_ascii c <? 128)%N with true by (symmetry; apply N.ltb_lt; exact Hc). reflexivity. }
  rewrite EC, contains_1_notIn. clear F EC.
  destruct c as [[] [] [] [] [] [] [] []]; try (vm_compute in Hc; discriminate Hc); vm_compute; clear Hc;
    intuition (try discriminate).
Qed.

(** ** Contexts *)

Lemma last_index_None : forall sub s, sub <> [] -> last_index sub s = None -> forall k, ~ occurs_at sub s k.
Proof.
  intros sub s Hs. induction s as [|c s IH]; intros H k O; cbn [last_index] in H.
  - destruct O as (a & b & E & _). apply (f_equal (@List.length _)) in E. rewrite !app_length in E.
    destruct sub; [congruence|]. simpl in E. lia.
  - destruct (last_index sub s) eqn:E; [discriminate|]. destruct (has_prefix sub (c :: s)) eqn:P; [discriminate|].
    apply occurs_at_iff in O as [O1 O2]. destruct k as [|k]; [cbn [skipn] in O1; congruence|].
    apply (IH eq_refl k). apply occurs_at_iff. cbn [skipn List.length] in *. split; [exact O1|lia].
Qed.

Lemma last_index_Some : forall sub s n, sub <> [] -> last_index sub s = Some n ->
  occurs_at sub s n /\ forall k, n < k -> ~ occurs_at sub s k.
Proof.
  intros sub s n Hs. revert n. induction s as [|c s IH]; intros n H; cbn [last_index] in H.
  - destruct sub; [congruence|]. discriminate.
  - destruct (last_index sub s) as [m|] eqn:E2.
    + injection H as <-. destruct (IH m eq_refl) as [(a & b & -> & <-) N0]. split.
      * exists (c :: a), b. split; reflexivity.
      * intros [|k] Hk O; [lia|]. apply (N0 k ltac:(lia)). apply occurs_at_iff in O as [O1 O2].
        apply occurs_at_iff. cbn [skipn List.length] in *. split; [exact O1|lia].
    + destruct (has_prefix sub (c :: s)) eqn:P; [|discriminate]. injection H as <-.
      split; [apply occurs_at_iff; split; [exact P|lia]|].
      intros [|k] Hk O; [lia|].
      apply (last_index_None sub s Hs E2 k). apply occurs_at_iff in O as [O1 O2].
      apply occurs_at_iff. cbn [skipn List.length] in *. split; [exact O1|lia].
Qed.

Lemma last_index_unique : forall sub s n, sub <> [] -> occurs_at sub s n ->
  (forall k, n < k -> ~ occurs_at sub s k) -> last_index sub s = Some n.
Proof.
  intros sub s n Hs O N0. destruct (last_index sub s) as [m|] eqn:E.
  - destruct (last_index_Some _ _ _ Hs E) as [O2 N2]. f_equal.
    destruct (Nat.lt_trichotomy m n) as [L|[L|L]]; [exfalso; exact (N2 n L O)|exact L|exfalso; exact (N0 m L O2)].
  - exfalso. exact (last_index_None _ _ Hs E n O).
Qed.

Lemma sub_str_mid : forall a m b e, e = len a + len m -> sub_str (a ++ m ++ b) (len a) e = m.
Proof.
  intros a m b e ->. unfold sub_str. rewrite skipn_exact.
  replace (len a + len m - len a) with (len m) by lia. apply firstn_exact.
Qed.

Lemma firstn_sum : forall (A : Type) n m (s : list A), firstn (n + m) s = firstn n s ++ firstn m (skipn n s).
Proof.
  intros A n m. induction n as [|n IH]; intro s; [reflexivity|].
  destruct s as [|x s]; [rewrite skipn_nil, !firstn_nil; reflexivity|]. cbn [Nat.add firstn skipn app]. rewrite IH. reflexivity.
Qed.

(** Range check. *)
Lemma context_in_range : forall s pos left right r, context_at s pos left right = Some r ->
  (0 <= pos < Z.of_nat (len s))%Z.
Proof.
  intros s pos left right r H. unfold context_at, slen in H.
  destruct ((pos <? 0)%Z || (Z.of_nat (len s) <=? pos)%Z) eqn:C; [discriminate|].
  apply orb_false_iff in C as [C1 C2]. apply Z.ltb_ge in C1. apply Z.leb_gt in C2. lia.
Qed.

Lemma context_unfold : forall s p left right, p < len s ->
  context_at s (Z.of_nat p) left right =
    match find_left left s p with
    | None => None
    | Some begin =>
        match right with
        | [] => Some (sub_str s begin (p + 1), begin)
        | _ =>
            match index right (skipn p s) with
            | None => None
            | Some i =>
                let end_ := i + (p + len right) in
                let back := find_left left (firstn end_ s) (end_ - len right) in
                if negb (str_eqb left []) && negb (match back with Some b => b =? begin | None => false end) then
                  let q := begin + len left in
                  match nested (index_all (skipn q s) left) (index_all (skipn q s) right) with
                  | NestAt r => Some (sub_str s begin (r + q + len right), begin)
                  | _ => None
                  end
                else Some (sub_str s begin end_, begin)
            end
        end
    end.
Proof.
  intros s p left right H. unfold context_at, slen.
  replace ((Z.of_nat p <? 0)%Z || (Z.of_nat (len s) <=? Z.of_nat p)%Z) with false.
  - rewrite Nat2Z.id. reflexivity.
  - symmetry. apply orb_false_iff. split; [apply Z.ltb_ge; lia|apply Z.leb_gt; lia].
Qed.

Lemma context_unfold2 : forall s p left right, p < len s -> right <> [] ->
  context_at s (Z.of_nat p) left right =
    match find_left left s p with
    | None => None
    | Some begin =>
            match index right (skipn p s) with
            | None => None
            | Some i =>
                let end_ := i + (p + len right) in
                let back := find_left left (firstn end_ s) (end_ - len right) in
                if negb (str_eqb left []) && negb (match back with Some b => b =? begin | None => false end) then
                  let q := begin + len left in
                  match nested (index_all (skipn q s) left) (index_all (skipn q s) right) with
                  | NestAt r => Some (sub_str s begin (r + q + len right), begin)
                  | _ => None
                  end
                else Some (sub_str s begin end_, begin)
            end
    end.
Proof. intros s p left right H Hr. rewrite context_unfold by exact H. destruct right; [congruence|reflexivity]. Qed.

Lemma nested_in : forall ls rs k, nested ls rs = NestAt k -> In k rs.
Proof.
  induction ls as [|l ls IH]; intros rs k H; destruct rs as [|r rs]; cbn [nested] in H; try discriminate.
  - injection H as ->. left. reflexivity.
  - destruct (r <? l); [injection H as ->; left; reflexivity|]. right. apply IH. exact H.
Qed.

Lemma find_left_some : forall left s p b, left <> [] -> find_left left s p = Some b ->
  occurs_at left (firstn p s) b /\ forall k, b < k -> ~ occurs_at left (firstn p s) k.
Proof.
  intros left s p b Hl H. unfold find_left in H. destruct left as [|c left]; [congruence|].
  apply last_index_Some; [discriminate|exact H].
Qed.

(** The section starts with the left delimiter and ends with the right one. *)
Lemma context_shape : forall s pos left right sec b, left <> [] -> right <> [] ->
  context_at s pos left right = Some (sec, b) ->
  exists before mid after, s = before ++ (left ++ mid ++ right) ++ after /\ sec = left ++ mid ++ right /\
    len before = b /\ (Z.of_nat (b + len left) <= pos)%Z.
Proof.
  intros s pos left right sec b Hl Hr H.
  pose proof (context_in_range _ _ _ _ _ H) as R.
  assert (EP : pos = Z.of_nat (Z.to_nat pos)) by lia.
  set (p := Z.to_nat pos) in *. rewrite EP in H. rewrite context_unfold2 in H by (assumption || lia).
  destruct (find_left left s p) as [begin|] eqn:FL; [|discriminate].
  destruct (find_left_some _ _ _ _ Hl FL) as [(a & x & Ea & La) _].
  assert (ES : s = a ++ left ++ x ++ skipn p s).
  { rewrite <- (firstn_skipn p s) at 1. rewrite Ea, <- !app_assoc. reflexivity. }
  assert (LP : p = len a + len left + len x).
  { assert (L : len (firstn p s) = p) by (apply firstn_length_le; lia). rewrite Ea, !app_length in L. lia. }
  destruct (index right (skipn p s)) as [i|] eqn:I; [|discriminate].
  destruct (index_Some _ _ _ I) as (y & z & Ey & Ly & _).
  cbv zeta in H.
  match type of H with (if ?c then _ else _) = _ => destruct c end.
  - destruct (nested _ _) as [k| |] eqn:N0; try discriminate. injection H as <- <-.
    apply nested_in in N0. apply (index_all_spec _ right Hr) in N0 as (m & w & Em & Lm).
    assert (SQ : skipn (begin + len left) s = x ++ skipn p s).
    { rewrite ES at 1. subst begin. rewrite app_assoc.
      replace (len a + len left) with (len (a ++ left)) by apply app_length. apply skipn_exact. }
    assert (ES2 : s = a ++ (left ++ m ++ right) ++ w).
    { rewrite ES at 1. rewrite <- SQ, Em, <- !app_assoc. reflexivity. }
    exists a, m, w. split; [exact ES2|]. split; [|split; [exact La|lia]].
    rewrite ES2 at 1. subst begin. apply sub_str_mid. rewrite !app_length. lia.
  - injection H as <- <-.
    assert (ES2 : s = a ++ (left ++ (x ++ y) ++ right) ++ z).
    { rewrite ES at 1. rewrite Ey, <- !app_assoc. reflexivity. }
    exists a, (x ++ y), z. split; [exact ES2|]. split; [|split; [exact La|lia]].
    rewrite ES2 at 1. subst begin. apply sub_str_mid. rewrite !app_length. lia.
Qed.

(** Without left delimiter. *)
Lemma context_no_left : forall s pos right sec b, right <> [] ->
  context_at s pos [] right = Some (sec, b) ->
  Z.of_nat b = pos /\ exists before mid after, s = before ++ (mid ++ right) ++ after /\ sec = mid ++ right /\ len before = b /\
    forall k, occurs_at right s k -> b <= k -> b + len mid <= k.
Proof.
  intros s pos right sec b Hr H.
  pose proof (context_in_range _ _ _ _ _ H) as R.
  assert (EP : pos = Z.of_nat (Z.to_nat pos)) by lia.
  set (p := Z.to_nat pos) in *. rewrite EP in H. rewrite context_unfold2 in H by (assumption || lia).
  cbn [find_left] in H.
  destruct (index right (skipn p s)) as [i|] eqn:I; [|discriminate].
  destruct (index_Some _ _ _ I) as (y & z & Ey & Ly & F).
  cbn [str_eqb negb andb] in H. injection H as <- <-. split; [lia|].
  assert (ES : s = firstn p s ++ (y ++ right) ++ z).
  { rewrite <- (firstn_skipn p s) at 1. rewrite Ey, <- !app_assoc. reflexivity. }
  assert (L : len (firstn p s) = p) by (apply firstn_length_le; lia).
  exists (firstn p s), y, z. split; [exact ES|]. split; [|split; [exact L|]].
  - rewrite ES at 1. rewrite <- L at 2. apply sub_str_mid. rewrite L, app_length. lia.
  - intros k O Hk. apply occurs_at_iff in O as [O1 O2].
    destruct (Nat.le_gt_cases (p + len y) k) as [G|G]; [exact G|exfalso].
    specialize (F (k - p) ltac:(lia)). rewrite skipn_plus in F. replace (p + (k - p)) with k in F by lia. congruence.
Qed.

(** Without right delimiter. *)
Lemma context_no_right : forall s pos left sec b, left <> [] ->
  context_at s pos left [] = Some (sec, b) ->
  Z.of_nat (b + len sec) = (pos + 1)%Z /\
  exists before mid after, s = before ++ (left ++ mid) ++ after /\ sec = left ++ mid /\ len before = b /\
    forall k, occurs_at left (firstn (Z.to_nat pos) s) k -> k <= b.
Proof.
  intros s pos left sec b Hl H.
  pose proof (context_in_range _ _ _ _ _ H) as R.
  assert (EP : pos = Z.of_nat (Z.to_nat pos)) by lia.
  set (p := Z.to_nat pos) in *. rewrite EP in H. rewrite context_unfold in H by lia.
  destruct (find_left left s p) as [begin|] eqn:FL; [|discriminate].
  destruct (find_left_some _ _ _ _ Hl FL) as [(a & x & Ea & La) N0].
  assert (LP : p = len a + len left + len x).
  { assert (L : len (firstn p s) = p) by (apply firstn_length_le; lia). rewrite Ea, !app_length in L. lia. }
  assert (EC : exists c r, skipn p s = c :: r).
  { destruct (skipn p s) as [|c r] eqn:E; [|eauto]. apply (f_equal (@List.length _)) in E.
    rewrite skipn_length in E. simpl in E. lia. }
  destruct EC as (c & r & EC).
  assert (ES : s = a ++ (left ++ x ++ [c]) ++ r).
  { rewrite <- (firstn_skipn p s) at 1. rewrite Ea, EC, <- !app_assoc. reflexivity. }
  injection H as <- <-.
  assert (EQ : sub_str s begin (p + 1) = left ++ x ++ [c]).
  { rewrite ES at 1. subst begin. apply sub_str_mid. rewrite !app_length. simpl. lia. }
  rewrite EQ. split; [rewrite !app_length; simpl; lia|].
  exists a, (x ++ [c]), r. split; [exact ES|]. split; [reflexivity|]. split; [exact La|].
  intros k O. destruct (Nat.le_gt_cases k begin) as [G|G]; [exact G|exfalso; exact (N0 k G O)].
Qed.

Lemma occurs_at_app : forall sub s t k, occurs_at sub s k -> occurs_at sub (s ++ t) k.
Proof.
  intros sub s t k (a & b & -> & <-). exists a, (b ++ t). rewrite <- !app_assoc. split; reflexivity.
Qed.

Lemma occurs_at_shift : forall sub a s k, occurs_at sub s k -> occurs_at sub (a ++ s) (len a + k).
Proof.
  intros sub a s k (x & y & -> & <-). exists (a ++ x), y. rewrite <- app_assoc, app_length. split; reflexivity.
Qed.

(** The simple case: the closest left delimiter before the position and the closest right delimiter after
    it, without another left delimiter between them. *)
Lemma context_simple : forall a left m right c pos, left <> [] -> right <> [] ->
  let s := a ++ (left ++ m ++ right) ++ c in
  (Z.of_nat (len a + len left) <= pos <= Z.of_nat (len a + len left + len m))%Z ->
  (forall k, occurs_at right s k -> (pos <= Z.of_nat k)%Z -> len a + len left + len m <= k) ->
  (forall k, occurs_at left (a ++ left ++ m) k -> k <= len a) ->
  context_at s pos left right = Some (left ++ m ++ right, len a).
Proof.
  intros a left m right c pos Hl Hr s R Fr Fl.
  assert (EP : pos = Z.of_nat (Z.to_nat pos)) by lia.
  set (p := Z.to_nat pos) in *. rewrite EP.
  assert (LS : len s = len a + len left + len m + len right + len c).
  { unfold s. rewrite !app_length. lia. }
  assert (LR : 0 < len right) by (destruct right; [congruence|simpl; lia]).
  rewrite context_unfold2 by (assumption || lia).
  set (e := len a + len left + len m) in *.
  assert (FE : firstn e s = a ++ left ++ m).
  { unfold s, e. replace (len a + len left + len m) with (len (a ++ left ++ m)) by (rewrite !app_length; lia).
    replace (a ++ (left ++ m ++ right) ++ c) with ((a ++ left ++ m) ++ right ++ c) by (rewrite <- !app_assoc; reflexivity).
    apply firstn_exact. }
  assert (FP : find_left left s p = Some (len a)).
  { unfold find_left. destruct left as [|l0 left']; [congruence|]. set (left := l0 :: left') in *.
    assert (EPx : firstn p s = firstn p (a ++ left ++ m)).
    { rewrite <- FE, firstn_firstn. f_equal. lia. }
    apply last_index_unique; [exact Hl| |].
    - rewrite EPx. exists a, (firstn (p - len a - len left) m). split; [|reflexivity].
      replace p with (len a + (len left + (p - len a - len left))) at 1 by lia.
      rewrite firstn_sum, firstn_exact, skipn_exact, firstn_sum, firstn_exact, skipn_exact. reflexivity.
    - intros k Hk O. rewrite EPx in O.
      assert (k <= len a); [|lia]. apply Fl. rewrite <- (firstn_skipn p (a ++ left ++ m)). apply occurs_at_app. exact O. }
  rewrite FP.
  assert (IX : index right (skipn p s) = Some (e - p)).
  { apply index_unique.
    - rewrite skipn_plus. replace (p + (e - p)) with e by lia.
      unfold s, e. replace (len a + len left + len m) with (len (a ++ left ++ m)) by (rewrite !app_length; lia).
      replace (a ++ (left ++ m ++ right) ++ c) with ((a ++ left ++ m) ++ right ++ c) by (rewrite <- !app_assoc; reflexivity).
      rewrite skipn_exact. apply has_prefix_app.
    - rewrite skipn_length. lia.
    - intros k Hk. rewrite skipn_plus. apply not_occurs_at; [|lia].
      intro O. specialize (Fr _ O). lia. }
  rewrite IX. cbv zeta.
  replace (e - p + (p + len right)) with (e + len right) by lia.
  replace (e + len right - len right) with e by lia.
  assert (FB : find_left left (firstn (e + len right) s) e = Some (len a)).
  { unfold find_left. destruct left as [|l0 left']; [congruence|]. set (left := l0 :: left') in *.
    rewrite firstn_firstn. replace (Nat.min e (e + len right)) with e by lia. rewrite FE.
    apply last_index_unique; [exact Hl|exists a, m; split; reflexivity|].
    intros k Hk O. specialize (Fl k O). lia. }
  rewrite FB, Nat.eqb_refl. cbn [negb]. rewrite andb_false_r. do 2 f_equal.
  unfold s. apply sub_str_mid. rewrite !app_length. lia.
Qed.

Lemma context_out : forall s pos left right, (pos < 0 \/ Z.of_nat (len s) <= pos)%Z ->
  context_at s pos left right = None.
Proof.
  intros s pos left right H. destruct (context_at s pos left right) eqn:E; [|reflexivity].
  apply context_in_range in E. lia.
Qed.

(** *** Nested delimiters *)

Definition below (k : nat) (l : list nat) : nat := List.length (filter (fun x => x <? k) l).

Lemma below_zero : forall k l, Forall (fun x => k <= x) l -> below k l = 0.
Proof.
  intros k l F. unfold below. induction F as [|x l H F IH]; [reflexivity|]. cbn [filter].
  replace (x <? k) with false by (symmetry; apply Nat.ltb_ge; exact H). exact IH.
Qed.
Lemma below_cons : forall k x l, x < k -> below k (x :: l) = S (below k l).
Proof.
  intros k x l H. unfold below. cbn [filter]. replace (x <? k) with true by (symmetry; apply Nat.ltb_lt; exact H). reflexivity.
Qed.

Lemma nested_balanced : forall ls rs k, StronglySorted lt ls -> StronglySorted lt rs ->
  (forall x, In x ls -> In x rs -> False) -> nested ls rs = NestAt k ->
  In k rs /\ below k ls = below k rs /\ forall j, In j rs -> j < k -> below j rs < below j ls.
Proof.
  induction ls as [|l ls IH]; intros rs k SL SR D H; destruct rs as [|r rs]; cbn [nested] in H; try discriminate.
  - injection H as ->. split; [left; reflexivity|].
    inversion SR as [|? ? SR' FR]; subst. rewrite Forall_forall in FR.
    assert (Z0 : below k (k :: rs) = 0).
    { apply below_zero. constructor; [lia|]. apply Forall_forall. intros x Hx. specialize (FR x Hx). lia. }
    split; [rewrite Z0; reflexivity|]. intros j [->|Hj] L; [lia|]. specialize (FR j Hj). lia.
  - inversion SR as [|? ? SR' FR]; subst. inversion SL as [|? ? SL' FL]; subst.
    rewrite Forall_forall in FR, FL.
    destruct (Nat.ltb_spec r l) as [G|G].
    + injection H as ->. split; [left; reflexivity|]. split.
      * rewrite !below_zero; [reflexivity| |].
        -- constructor; [lia|]. apply Forall_forall. intros x Hx. specialize (FR x Hx). lia.
        -- constructor; [lia|]. apply Forall_forall. intros x Hx. specialize (FL x Hx). lia.
      * intros j [->|Hj] L; [lia|]. specialize (FR j Hj). lia.
    + assert (LR : l < r).
      { assert (l <> r) by (intro Q; subst r; apply (D l); left; reflexivity). lia. }
      destruct (IH rs k SL' SR') as (I1 & I2 & I3); [intros x H1 H2; apply (D x); right; assumption|exact H|].
      pose proof (FR k I1) as RK.
      split; [right; exact I1|]. split.
      * rewrite !below_cons by lia. rewrite I2. reflexivity.
      * intros j [->|Hj] L.
        -- rewrite (below_cons j l ls) by lia. rewrite below_zero; [lia|].
           constructor; [lia|]. apply Forall_forall. intros x Hx. specialize (FR x Hx). lia.
        -- pose proof (FR j Hj). rewrite !below_cons by lia. specialize (I3 j Hj L). lia.
Qed.

Lemma below_S : forall k l, below (S k) l = below k l + count_occ Nat.eq_dec l k.
Proof.
  intros k l. unfold below. induction l as [|x l IH]; [reflexivity|]. cbn [filter count_occ].
  destruct (Nat.eq_dec x k) as [->|N0].
  - replace (k <? S k) with true by (symmetry; apply Nat.ltb_lt; lia).
    replace (k <? k) with false by (symmetry; apply Nat.ltb_ge; lia). cbn [List.length]. lia.
  - destruct (Nat.ltb_spec x (S k)); destruct (Nat.ltb_spec x k); try lia; cbn [List.length]; lia.
Qed.

Lemma sorted_nodup : forall l, StronglySorted lt l -> NoDup l.
Proof.
  induction l as [|x l IH]; intro H; [constructor|]. inversion H as [|? ? S1 F]; subst. constructor; [|apply IH; exact S1].
  intro K. rewrite Forall_forall in F. specialize (F x K). lia.
Qed.

(** The positions of a byte. *)
Lemma index_all_byte : forall t c, StronglySorted lt (index_all t [c]) /\
  forall k, In k (index_all t [c]) <-> nth_error t k = Some c.
Proof.
  intros t c. destruct (index_all_spec t [c] ltac:(discriminate)) as (H1 & H2 & H3). split.
  - clear - H2. induction H2 as [|x l H IH F]; constructor; [exact IH|].
    eapply Forall_impl; [|exact F]. intros y Hy. cbn [List.length] in Hy. lia.
  - intro k. split; intro H.
    + destruct (H1 k H) as (a & b & -> & <-). rewrite nth_error_app2 by lia. rewrite Nat.sub_diag. reflexivity.
    + apply nth_error_split in H as (a & b & -> & L).
      destruct (H3 k) as (p & Hp & R).
      { exists a, b. split; [reflexivity|exact L]. }
      cbn [List.length] in R. replace k with p by lia. exact Hp.
Qed.

Lemma below_count : forall t c k, below k (index_all t [c]) = count_before c t k.
Proof.
  intros t c k. destruct (index_all_byte t c) as [H1 H2]. unfold count_before.
  induction k as [|k IH].
  - rewrite below_zero; [reflexivity|]. apply Forall_forall. intros; lia.
  - rewrite below_S, IH.
    replace (S k) with (k + 1) by lia. rewrite firstn_sum, count_occ_app. f_equal.
    pose proof (sorted_nodup _ H1) as ND.
    destruct (nth_error t k) as [d|] eqn:E.
    + assert (SK : firstn 1 (skipn k t) = [d]).
      { apply nth_error_split in E as (a & b & -> & <-). rewrite skipn_exact. reflexivity. }
      rewrite SK. cbn [count_occ]. destruct (ascii_dec d c) as [->|N0].
      * apply NoDup_count_occ'; [exact ND|]. apply H2. exact E.
      * apply count_occ_not_In. intro K. apply H2 in K. congruence.
    + rewrite skipn_all2 by (apply nth_error_None; exact E). cbn [firstn count_occ].
      apply count_occ_not_In. intro K. apply H2 in K. congruence.
Qed.

Lemma count_before_prefix : forall c m x j, j <= len m -> count_before c (m ++ x) j = count_before c m j.
Proof.
  intros c m x j H. unfold count_before. rewrite firstn_app.
  replace (j - len m) with 0 by lia. rewrite firstn_O, app_nil_r. reflexivity.
Qed.

(** One byte delimiters: the section contains the position and no further left delimiter, or it is balanced. *)
Lemma context_byte : forall s pos l r sec b, l <> r -> context_at s pos [l] [r] = Some (sec, b) ->
  exists mid, sec = l :: mid ++ [r] /\
   ((~ In l mid /\ (Z.of_nat b < pos < Z.of_nat (b + len sec))%Z) \/
    (count_occ ascii_dec mid l = count_occ ascii_dec mid r /\
     forall j, nth_error mid j = Some r -> count_before r mid j < count_before l mid j)).
Proof.
  intros s pos l r sec b Hlr H.
  pose proof (context_in_range _ _ _ _ _ H) as R.
  assert (EP : pos = Z.of_nat (Z.to_nat pos)) by lia.
  set (p := Z.to_nat pos) in *. rewrite EP in H. rewrite context_unfold in H by lia.
  destruct (find_left [l] s p) as [begin|] eqn:FL; [|discriminate].
  destruct (find_left_some [l] s p begin ltac:(discriminate) FL) as [(a & x & Ea & La) _].
  assert (ES : s = a ++ [l] ++ x ++ skipn p s).
  { rewrite <- (firstn_skipn p s) at 1. rewrite Ea, <- !app_assoc. reflexivity. }
  assert (LP : p = len a + 1 + len x).
  { assert (L : len (firstn p s) = p) by (apply firstn_length_le; lia). rewrite Ea, !app_length in L. simpl in L. lia. }
  destruct (index [r] (skipn p s)) as [i|] eqn:I; [|discriminate].
  destruct (index_Some _ _ _ I) as (y & z & Ey & Ly & _).
  cbv zeta in H. cbn [List.length] in H.
  assert (SQ : skipn (begin + 1) s = x ++ skipn p s).
  { rewrite ES at 1. subst begin. change (a ++ [l] ++ x ++ skipn p s) with (a ++ [l] ++ (x ++ skipn p s)). rewrite app_assoc.
    replace (len a + 1) with (len (a ++ [l])) by (rewrite app_length; reflexivity). apply skipn_exact. }
  match type of H with (if ?c then _ else _) = _ => destruct c eqn:C end.
  - destruct (nested _ _) as [k| |] eqn:N0; try discriminate. injection H as <- <-.
    set (t := skipn (begin + 1) s) in *.
    destruct (index_all_byte t l) as [SL HL]. destruct (index_all_byte t r) as [SR HR].
    assert (DJ : forall q, In q (index_all t [l]) -> In q (index_all t [r]) -> False).
    { intros q Q1 Q2. apply HL in Q1. apply HR in Q2. congruence. }
    destruct (nested_balanced _ _ _ SL SR DJ N0) as (K1 & K2 & K3).
    rewrite !below_count in K2.
    apply HR in K1. apply nth_error_split in K1 as (m & w & Em & Lm).
    assert (ES2 : s = a ++ (l :: m ++ [r]) ++ w).
    { rewrite ES at 1. rewrite <- SQ, Em. cbn [app]. rewrite <- app_assoc. reflexivity. }
    exists m. split.
    { rewrite ES2 at 1. subst begin. apply sub_str_mid. cbn [List.length]. rewrite app_length. cbn [List.length]. lia. }
    right. rewrite Em in K2. rewrite !count_before_prefix in K2 by lia.
    assert (FM : forall c, count_before c m k = count_occ ascii_dec m c).
    { intro c. unfold count_before. rewrite firstn_all2 by lia. reflexivity. }
    rewrite !FM in K2. split; [exact K2|].
    intros j Hj. assert (Lj : j < len m) by (apply nth_error_Some; congruence).
    assert (Ht : In j (index_all t [r])).
    { apply HR. rewrite Em. rewrite nth_error_app1 by exact Lj. exact Hj. }
    specialize (K3 j Ht ltac:(lia)). rewrite !below_count, Em in K3. rewrite !count_before_prefix in K3 by lia. exact K3.
  - injection H as <- <-.
    assert (ES2 : s = a ++ (l :: (x ++ y) ++ [r]) ++ z).
    { rewrite ES at 1. rewrite Ey. cbn [app]. rewrite <- !app_assoc. reflexivity. }
    assert (SS : sub_str s begin (i + (p + 1)) = l :: (x ++ y) ++ [r]).
    { rewrite ES2 at 1. subst begin. apply sub_str_mid. cbn [List.length]. rewrite !app_length. cbn [List.length]. lia. }
    exists (x ++ y). split; [exact SS|]. left. split.
    + cbn [str_eqb negb andb] in C. apply negb_false_iff in C.
      destruct (find_left [l] (firstn (i + (p + 1)) s) (i + (p + 1) - 1)) as [bk|] eqn:FB; [|discriminate].
      apply Nat.eqb_eq in C. subst bk.
      destruct (find_left_some [l] _ _ begin ltac:(discriminate) FB) as [_ NB].
      assert (FE : firstn (i + (p + 1) - 1) (firstn (i + (p + 1)) s) = a ++ [l] ++ x ++ y).
      { rewrite firstn_firstn. replace (Nat.min (i + (p + 1) - 1) (i + (p + 1))) with (len (a ++ [l] ++ x ++ y))
          by (rewrite !app_length; simpl; lia).
        rewrite ES2. replace (a ++ (l :: (x ++ y) ++ [r]) ++ z) with ((a ++ [l] ++ x ++ y) ++ [r] ++ z)
          by (cbn [app]; rewrite <- !app_assoc; cbn [app]; rewrite <- !app_assoc; reflexivity).
        apply firstn_exact. }
      rewrite FE in NB. intro K. apply in_split in K as (u & v & Ku).
      apply (NB (len a + 1 + len u) ltac:(lia)).
      exists (a ++ [l] ++ u), v. split; [|rewrite !app_length; simpl; lia].
      rewrite Ku. rewrite <- !app_assoc. reflexivity.
    + rewrite SS. cbn [List.length]. rewrite !app_length. cbn [List.length]. lia.
Qed.
