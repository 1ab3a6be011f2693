From Coq Require Import String Ascii List ZArith NArith Bool Lia PeanoNat.
From Verif Require Import GoStr GoStrFacts ValueModel TextModel TextProofs3 FloatModel NumFacts MathModel RazorWordsSpec RazorWordsProofs LongStringModel LongStringSpec.
Import ListNotations.

(** ** Putting aside *)
Definition tack (t : str) (r : res (list str * str)) : res (list str * str) := do x <- r; let '(L, u) := x in Ok (L, t ++ u).
Lemma protect_text : forall t L s, ~ In BTK t -> protect_go None L (t ++ s) = tack t (protect_go None L s).
Proof.
  induction t as [|c t IH]; intros L s N.
  - cbn [app]. unfold tack. destruct (protect_go None L s) as [[L' u]| |]; reflexivity.
  - cbn [app protect_go]. destruct (Ascii.eqb_spec c BTK) as [->|E]; [exfalso; apply N; left; reflexivity|].
    rewrite IH by (intro I; apply N; right; exact I). unfold tack. destruct (protect_go None L s) as [[L' u]| |]; reflexivity.
Qed.
Lemma protect_open : forall u r L s, ~ In BTK u -> protect_go (Some r) L (u ++ s) = protect_go (Some (rev u ++ r)) L s.
Proof.
  induction u as [|c u IH]; intros r L s N; [reflexivity|]. cbn [app protect_go]. destruct (Ascii.eqb_spec c BTK) as [->|E]; [exfalso; apply N; left; reflexivity|].
  rewrite IH by (intro I; apply N; right; exact I). cbn [rev]. rewrite <- app_assoc. reflexivity.
Qed.
Lemma protect_raw : forall u L s, ~ In BTK u -> protect_go None L (BTK :: u ++ BTK :: s) =
  do x <- protect_match L (BTK :: u ++ [BTK]); let '(L1, m) := x in tack m (protect_go None L1 s).
Proof.
  intros u L s N. cbn [protect_go]. rewrite Ascii.eqb_refl, protect_open by exact N. rewrite app_nil_r. cbn [protect_go]. rewrite Ascii.eqb_refl, rev_involutive. reflexivity.
Qed.
Lemma protect_rest : forall u L, ~ In BTK u -> protect_go None L (BTK :: u) = Ok (L, BTK :: u).
Proof.
  intros u L N. cbn [protect_go]. rewrite Ascii.eqb_refl. replace u with (u ++ []) at 1 by apply app_nil_r. rewrite protect_open by exact N.
  cbn [protect_go]. rewrite app_nil_r, rev_involutive. reflexivity.
Qed.
(** The first backtick. *)
Lemma tick_split : forall s, ~ In BTK s \/ exists t r, s = t ++ BTK :: r /\ ~ In BTK t.
Proof.
  induction s as [|c s IH]; [left; intros []|]. destruct (Ascii.ascii_dec c BTK) as [->|E].
  - right. exists [], s. split; [reflexivity | intros []].
  - destruct IH as [IH | (t & r & -> & N)].
    + left. intros [I | I]; [congruence | contradiction].
    + right. exists (c :: t), r. split; [reflexivity|]. intros [I | I]; [congruence | contradiction].
Qed.

Fixpoint scan (st : option bool) (s : str) : bool :=
  match s with
  | [] => false
  | c :: s =>
      match st with
      | None => if Ascii.eqb c BTK then scan (Some false) s else scan None s
      | Some seen => if Ascii.eqb c BTK then seen || scan None s else scan (Some (seen || Ascii.eqb c LFD)) s
      end
  end.
Lemma scan_inside : forall u seen s, ~ In BTK u -> scan (Some seen) (u ++ BTK :: s) = seen || contains_byte LFD u || scan None s.
Proof.
  induction u as [|c u IH]; intros seen s N.
  - cbn [app scan]. rewrite Ascii.eqb_refl. cbn. rewrite orb_false_r. reflexivity.
  - cbn [app scan]. destruct (Ascii.eqb_spec c BTK) as [->|E]; [exfalso; apply N; left; reflexivity|].
    rewrite IH by (intro I; apply N; right; exact I). f_equal.
    destruct (contains_byte LFD (c :: u)) eqn:X.
    + apply contains_byte_In in X. destruct X as [-> | X]; [rewrite Ascii.eqb_refl, orb_true_r; reflexivity|].
      apply contains_byte_In in X. rewrite X, orb_true_r, orb_true_r. reflexivity.
    + assert (X1 : Ascii.eqb c LFD = false).
      { destruct (Ascii.eqb_spec c LFD) as [->|]; [| reflexivity]. exfalso. assert (contains_byte LFD (LFD :: u) = true) by (apply contains_byte_In; left; reflexivity). congruence. }
      assert (X2 : contains_byte LFD u = false).
      { destruct (contains_byte LFD u) eqn:Y; [| reflexivity]. exfalso.
        assert (contains_byte LFD (c :: u) = true) by (apply contains_byte_In; right; apply contains_byte_In; exact Y). congruence. }
      rewrite X1, X2, !orb_false_r. reflexivity.
Qed.
Lemma scan_text : forall t s, ~ In BTK t -> scan None (t ++ s) = scan None s.
Proof.
  induction t as [|c t IH]; intros s N; [reflexivity|]. cbn [app scan]. destruct (Ascii.eqb_spec c BTK) as [->|E]; [exfalso; apply N; left; reflexivity|].
  apply IH. intro I. apply N. right. exact I.
Qed.
Lemma scan_raw : forall u s, ~ In BTK u -> scan None (BTK :: u ++ BTK :: s) = contains_byte LFD u || scan None s.
Proof. intros u s N. cbn [scan]. rewrite Ascii.eqb_refl. apply scan_inside, N. Qed.
Lemma scan_open : forall u seen, ~ In BTK u -> scan (Some seen) u = false.
Proof.
  induction u as [|c u IH]; intros seen N; [reflexivity|]. cbn [scan]. destruct (Ascii.eqb_spec c BTK) as [->|E]; [exfalso; apply N; left; reflexivity|].
  apply IH. intro I. apply N. right. exact I.
Qed.
Lemma scan_even : forall a x, scan None x = true -> (Nat.even (ticks a) = true -> scan None (a ++ x) = true) /\ (forall seen, Nat.even (ticks a) = false -> scan (Some seen) (a ++ x) = true).
Proof.
  intros a x X. unfold ticks. induction a as [|c a [IH1 IH2]].
  - split; [intros _; exact X | intros seen Z; discriminate Z].
  - cbn [app scan count_occ]. destruct (Ascii.ascii_dec c "`"%char) as [->|E].
    + rewrite Nat.even_succ, <- Nat.negb_even. split.
      * intros Z. apply negb_true_iff in Z. rewrite Ascii.eqb_refl. apply IH2, Z.
      * intros seen Z. apply negb_false_iff in Z. rewrite Ascii.eqb_refl, IH1 by exact Z. apply orb_true_r.
    + destruct (Ascii.eqb_spec c BTK) as [->|]; [exfalso; apply E; reflexivity|]. split; [exact IH1 | intros seen; apply IH2].
Qed.
Lemma scan_multi : forall s, has_multi_line s -> scan None s = true.
Proof.
  intros s (a & l & b & -> & (u & -> & N & I) & E). apply Nat.even_spec in E. apply (scan_even a); [| exact E].
  change (($"`" ++ u ++ $"`") ++ b) with (BTK :: (u ++ [BTK]) ++ b). rewrite <- app_assoc. cbn [app]. rewrite scan_raw by exact N.
  apply contains_byte_In in I. unfold LFD. rewrite I. reflexivity.
Qed.

(** ** Cells *)
Definition opened (f : nat -> str) (m : list cell) : str := concat (map (fun x => match x with Chr c => [c] | Hol i => f i end) m).
Lemma opened_app : forall f a b, opened f (a ++ b) = opened f a ++ opened f b.
Proof. intros. unfold opened. rewrite map_app, concat_app. reflexivity. Qed.
Lemma opened_chars : forall f s, opened f (map Chr s) = s.
Proof. intros f. induction s as [|c s IH]; [reflexivity|]. unfold opened in *. cbn. rewrite IH. reflexivity. Qed.
Lemma holes_app : forall a b, holes (a ++ b) = holes a ++ holes b.
Proof. intros. unfold holes. rewrite map_app, concat_app. reflexivity. Qed.
Lemma opened_ext : forall f g m, (forall i, In i (holes m) -> f i = g i) -> opened f m = opened g m.
Proof.
  intros f g. induction m as [|x m IH]; intros H; [reflexivity|]. change (x :: m) with ([x] ++ m) in *. rewrite holes_app in H. rewrite !opened_app.
  rewrite IH by (intros i I; apply H, in_app_iff; right; exact I). f_equal. destruct x as [c|i]; [reflexivity|]. unfold opened. cbn [map concat].
  rewrite (H i); [reflexivity | left; reflexivity].
Qed.
Lemma holes_chars : forall s, holes (map Chr s) = [].
Proof. induction s as [|c s IH]; [reflexivity|]. exact IH. Qed.
Definition shift (k : nat) (m : list cell) : list cell := map (fun x => match x with Chr c => Chr c | Hol i => Hol (k + i) end) m.
Lemma opened_shift : forall f k m, opened f (shift k m) = opened (fun i => f (k + i)) m.
Proof. intros f k. induction m as [|x m IH]; [reflexivity|]. unfold opened, shift in *. cbn. rewrite IH. destruct x; reflexivity. Qed.
Lemma holes_shift : forall k m, holes (shift k m) = map (Nat.add k) (holes m).
Proof. intros k. induction m as [|x m IH]; [reflexivity|]. unfold holes, shift in *. cbn. rewrite IH. destruct x; reflexivity. Qed.

Definition START : str := $"`_=LONG_STRING=".
Lemma no_start : forall s f m, (forall a b, s <> a ++ START ++ b) -> opened f m = s -> clean m.
Proof. intros s f m H E a b Z. apply (H (opened f a) (opened f b)). rewrite <- E, Z, !opened_app, opened_chars. reflexivity. Qed.

Lemma mark_raw : forall k, exists u, mark k = BTK :: u ++ [BTK] /\ ~ In BTK u /\ ~ In LFD u.
Proof.
  intros k. exists (protect_string ++ itoa (Z.of_nat k)). split; [unfold mark; rewrite <- app_assoc; reflexivity|].
  destruct (itoa_digits k) as [D _].
  assert (DD : forall c, In c (itoa (Z.of_nat k)) -> is_digit c = true) by (rewrite Forall_forall in D; exact D).
  split; intro I; apply in_app_iff in I; (destruct I as [I | I]; [revert I; cbn; intuition discriminate | apply DD in I; discriminate I]).
Qed.
Lemma protected : forall n L s, List.length s < n -> ~ occurs START s ->
  exists m strings, protect_go None L s = Ok (L ++ strings, opened (fun i => mark (List.length L + i)) m) /\
    opened (fun i => nth i strings []) m = s /\ holes m = seq 0 (List.length strings) /\ Forall multi_line strings /\
    scan None (opened (fun i => mark (List.length L + i)) m) = false.
Proof.
  induction n as [|n IH]; intros L s Len N; [lia|].
  destruct (tick_split s) as [NT | (t & r & -> & NT)].
  - exists (map Chr s), []. rewrite !opened_chars, holes_chars, app_nil_r. replace s with (s ++ []) at 1 by apply app_nil_r.
    rewrite protect_text by exact NT. cbn [protect_go]. unfold tack. cbn [bind]. rewrite app_nil_r. split; [reflexivity|]. split; [reflexivity|]. split; [reflexivity|].
    split; [constructor|]. rewrite <- (app_nil_r s), scan_text by exact NT. reflexivity.
  - destruct (tick_split r) as [NR | (u & r' & -> & NU)].
    + exists (map Chr (t ++ BTK :: r)), []. rewrite !opened_chars, holes_chars, app_nil_r. rewrite protect_text by exact NT. rewrite protect_rest by exact NR.
      split; [reflexivity|]. split; [reflexivity|]. split; [reflexivity|]. split; [constructor|]. rewrite scan_text by exact NT. cbn [scan]. rewrite Ascii.eqb_refl.
      apply scan_open, NR.
    + assert (Len' : List.length r' < n) by (rewrite !app_length in Len; cbn [List.length] in Len; rewrite app_length in Len; cbn [List.length] in Len; lia).
      assert (N' : ~ occurs START r').
      { intro O. apply N. replace (t ++ BTK :: u ++ BTK :: r') with ((t ++ BTK :: u ++ [BTK]) ++ r') by (rewrite <- app_assoc; cbn [app]; rewrite <- app_assoc; reflexivity). apply occurs_skip, O. }
      assert (NP : has_prefix protect_string (tl (BTK :: u ++ [BTK])) = false).
      { destruct (has_prefix protect_string (tl (BTK :: u ++ [BTK]))) eqn:P; [| reflexivity]. exfalso. apply has_prefix_iff in P. destruct P as [x P]. cbn [tl] in P.
        apply N. exists t, (x ++ r'). change START with (BTK :: protect_string). f_equal. cbn [app]. f_equal.
        change (u ++ BTK :: r') with (u ++ [BTK] ++ r'). rewrite app_assoc. rewrite app_assoc. apply (f_equal (fun y => y ++ r')). exact P. }
      rewrite protect_text by exact NT. rewrite protect_raw by exact NU.
      destruct (contains_byte LFD (BTK :: u ++ [BTK])) eqn:LF.
      * destruct (IH (L ++ [BTK :: u ++ [BTK]]) r' Len' N') as (m & strings & A & B & C & D & E).
        exists (map Chr t ++ Hol 0 :: shift 1 m), ((BTK :: u ++ [BTK]) :: strings).
        assert (ML : multi_line (BTK :: u ++ [BTK])).
        { exists u. split; [reflexivity|]. split; [exact NU|]. apply contains_byte_In in LF. destruct LF as [Z | LF]; [discriminate Z|].
          apply in_app_iff in LF. destruct LF as [LF | [Z | []]]; [exact LF | discriminate Z]. }
        set (L1 := L ++ [BTK :: u ++ [BTK]]) in *.
        assert (LL : List.length L1 = S (List.length L)) by (unfold L1; rewrite app_length; cbn; lia).
        assert (MK : BTK :: protect_string ++ itoa (Z.of_nat (List.length L1) - 1) ++ [BTK] = mark (List.length L + 0)).
        { unfold mark. rewrite LL. replace (Z.of_nat (S (List.length L)) - 1)%Z with (Z.of_nat (List.length L + 0)) by lia. reflexivity. }
        assert (EX : opened (fun i => mark (List.length L1 + i)) m = opened (fun i => mark (List.length L + (1 + i))) m).
        { apply opened_ext. intros i _. rewrite LL. f_equal. lia. }
        assert (PM : protect_match L (BTK :: u ++ [BTK]) = Ok (L1, mark (List.length L + 0))) by (unfold protect_match; rewrite NP, LF, <- MK; reflexivity).
        rewrite PM. cbn [bind]. rewrite A, EX. rewrite EX in E.
        destruct (mark_raw (List.length L + 0)) as (v & MV & NV1 & NV2).
        split; [| split; [| split; [| split]]].
        -- unfold tack. cbn [bind]. f_equal. f_equal; [unfold L1; rewrite <- app_assoc; reflexivity|].
           rewrite opened_app, opened_chars. f_equal. change (opened ?f (Hol 0 :: shift 1 m)) with (f 0 ++ opened f (shift 1 m)). rewrite opened_shift. reflexivity.
        -- rewrite opened_app, opened_chars. f_equal. change (opened ?f (Hol 0 :: shift 1 m)) with (f 0 ++ opened f (shift 1 m)). rewrite opened_shift.
           transitivity ((BTK :: u ++ [BTK]) ++ r'); [exact (f_equal (fun y => (BTK :: u ++ [BTK]) ++ y) B) | cbn [app]; rewrite <- app_assoc; reflexivity].
        -- rewrite holes_app, holes_chars. change (holes (Hol 0 :: shift 1 m)) with (0 :: holes (shift 1 m)). rewrite holes_shift, C. cbn [app List.length seq]. f_equal. apply seq_shift.
        -- constructor; [exact ML | exact D].
        -- rewrite opened_app, opened_chars, scan_text by exact NT. change (opened ?f (Hol 0 :: shift 1 m)) with (f 0 ++ opened f (shift 1 m)). rewrite opened_shift.
           cbv beta. rewrite MV. cbn [app]. rewrite <- app_assoc. cbn [app]. rewrite scan_raw by exact NV1. rewrite E, orb_false_r.
           destruct (contains_byte LFD v) eqn:Z; [apply contains_byte_In in Z; contradiction | reflexivity].
      * destruct (IH L r' Len' N') as (m & strings & A & B & C & D & E).
        exists (map Chr (t ++ BTK :: u ++ [BTK]) ++ m), strings. rewrite !opened_app, !opened_chars, holes_app, holes_chars.
        assert (PM : protect_match L (BTK :: u ++ [BTK]) = Ok (L, BTK :: u ++ [BTK])) by (unfold protect_match; rewrite NP, LF; reflexivity).
        rewrite PM. cbn [bind]. rewrite A. split; [| split; [| split; [exact C | split; [exact D|]]]].
        -- unfold tack. cbn [bind]. f_equal. f_equal. rewrite <- app_assoc. reflexivity.
        -- rewrite B. rewrite <- app_assoc. cbn [app]. rewrite <- app_assoc. reflexivity.
        -- rewrite <- app_assoc, scan_text by exact NT. cbn [app]. rewrite <- app_assoc. cbn [app]. rewrite scan_raw by exact NU. rewrite E, orb_false_r.
           destruct (contains_byte LFD u) eqn:Z; [| reflexivity]. exfalso. apply contains_byte_In in Z.
           assert (contains_byte LFD (BTK :: u ++ [BTK]) = true) by (apply contains_byte_In; right; apply in_app_iff; left; exact Z). congruence.
Qed.

(** ** Coming back *)
Lemma set_nth_length : forall n x L, List.length (set_nth n x L) = List.length L.
Proof. induction n as [|n IH]; intros x [|y L]; cbn; try reflexivity. rewrite IH. reflexivity. Qed.
Lemma set_nth_same : forall n x L, n < List.length L -> nth_error (set_nth n x L) n = Some x.
Proof. induction n as [|n IH]; intros x [|y L] H; cbn in *; try lia; try reflexivity. apply IH. lia. Qed.
Lemma set_nth_other : forall n k x L, k <> n -> nth_error (set_nth n x L) k = nth_error L k.
Proof. induction n as [|n IH]; intros k x [|y L] H; cbn; try reflexivity; destruct k as [|k]; cbn; try reflexivity; try congruence. apply IH. congruence. Qed.

Lemma mark_start : forall k, exists r, mark k = BTK :: r.
Proof. intros k. eexists. reflexivity. Qed.
Lemma prefix_cells : forall k f m, ~ In BTK k -> (forall i, exists r, f i = BTK :: r) -> has_prefix k (opened f m) = true -> exists m', m = map Chr k ++ m'.
Proof.
  induction k as [|c k IH]; intros f m N F H; [exists m; reflexivity|]. destruct m as [|[d|i] m]; [discriminate H|..].
  - change (opened f (Chr d :: m)) with (d :: opened f m) in H. cbn [has_prefix] in H. apply andb_true_iff in H. destruct H as [A B].
    apply Ascii.eqb_eq in A. subst d. destruct (IH f m) as [m' ->]; [intro I; apply N; right; exact I | exact F | exact B |]. exists m'. reflexivity.
  - exfalso. destruct (F i) as [r E]. change (opened f (Hol i :: m)) with (f i ++ opened f m) in H. rewrite E in H. cbn [app has_prefix] in H.
    apply andb_true_iff in H. destruct H as [A _]. apply Ascii.eqb_eq in A. apply N. left. exact A.
Qed.
Lemma placeholder_char : forall f c m, (forall i, exists r, f i = BTK :: r) -> clean (Chr c :: m) -> placeholder (opened f (Chr c :: m)) = None.
Proof.
  intros f c m F C. unfold placeholder. destruct (has_prefix (BTK :: protect_string) (opened f (Chr c :: m))) eqn:P; [exfalso | reflexivity].
  change (opened f (Chr c :: m)) with (c :: opened f m) in P. cbn [has_prefix] in P. apply andb_true_iff in P. destruct P as [A B].
  apply Ascii.eqb_eq in A. subst c. destruct (prefix_cells protect_string f m) as [m' ->]; [cbn; intuition discriminate | exact F | exact B |].
  apply (C [] m'). reflexivity.
Qed.
Lemma take_digits : forall d x, Forall (fun c => is_digit c = true) d -> take_while is_digit (d ++ BTK :: x) = d /\ drop_while is_digit (d ++ BTK :: x) = BTK :: x.
Proof. intros d x H. induction H as [|c d Hc H [IH1 IH2]]; [split; reflexivity|]. cbn [app take_while drop_while]. rewrite Hc, IH1, IH2. split; reflexivity. Qed.
Lemma placeholder_mark : forall k x, placeholder (mark k ++ x) = Some (itoa (Z.of_nat k), x).
Proof.
  intros k x. unfold placeholder.
  assert (E : mark k ++ x = (BTK :: protect_string) ++ (itoa (Z.of_nat k) ++ BTK :: x)) by (unfold mark; rewrite <- !app_assoc; reflexivity).
  rewrite E, has_prefix_app. rewrite skipn_app, skipn_all, Nat.sub_diag. cbn [app skipn]. destruct (itoa_digits k) as [D NE].
  destruct (take_digits _ x D) as [-> ->]. destruct (itoa (Z.of_nat k)) as [|d ds]; [congruence|]. rewrite Ascii.eqb_refl. reflexivity.
Qed.
Lemma clean_tail : forall x m, clean (x :: m) -> clean m.
Proof. intros x m C a b E. apply (C (x :: a) b). rewrite E. reflexivity. Qed.
Lemma restore_at : forall L k s, nth_error L k = Some s -> (Z.of_nat (List.length L) <= 2 ^ 63)%Z -> restore_match L (itoa (Z.of_nat k)) = Ok (set_nth k [] L, s).
Proof.
  intros L k s H B. assert (K : k < List.length L) by (apply nth_error_Some; congruence). unfold restore_match. rewrite parse_int_itoa.
  - cbn [must bind]. rewrite Nat2Z.id, H. reflexivity.
  - unfold in_int64. apply andb_true_iff. split; [apply Z.leb_le | apply Z.ltb_lt]; lia.
Qed.
Lemma coming_back : forall n strings m fuel L, List.length (opened (fun i => mark (n + i)) m) <= fuel -> clean m -> NoDup (holes m) ->
  (forall i, In i (holes m) -> nth_error L (n + i) = Some (nth i strings [])) -> (Z.of_nat (List.length L) <= 2 ^ 63)%Z ->
  exists L', restore_go fuel L (opened (fun i => mark (n + i)) m) = Ok (L', opened (fun i => nth i strings []) m) /\
             List.length L' = List.length L /\ (forall k, (forall i, In i (holes m) -> k <> n + i) -> nth_error L' k = nth_error L k) /\
             (forall i, In i (holes m) -> nth_error L' (n + i) = Some []).
Proof.
  intros n strings. set (f := fun i => mark (n + i)).
  assert (F : forall i, exists r, f i = BTK :: r) by (intros i; apply mark_start).
  induction m as [|x m IH]; intros fuel L Len C ND H B.
  - exists L. split; [destruct fuel; reflexivity|]. split; [reflexivity|]. split; [reflexivity | intros i []].
  - destruct x as [c|i].
    + change (opened f (Chr c :: m)) with (c :: opened f m) in Len. cbn [List.length] in Len. destruct fuel as [|fuel]; [lia|].
      destruct (IH fuel L) as (L' & A & A1 & A2 & A3); [lia | eapply clean_tail, C | exact ND | exact H | exact B |].
      exists L'. split; [| split; [exact A1 | split; [exact A2 | exact A3]]]. pose proof (placeholder_char f c m F C) as P.
      change (opened f (Chr c :: m)) with (c :: opened f m) in *. cbn [restore_go]. rewrite P, A. reflexivity.
    + change (opened f (Hol i :: m)) with (f i ++ opened f m) in *. rewrite app_length in Len. destruct (F i) as [r E].
      assert (L1 : 1 <= List.length (f i)) by (rewrite E; cbn; lia). destruct fuel as [|fuel]; [lia|].
      change (holes (Hol i :: m)) with (i :: holes m) in *. inversion ND as [|? ? NI ND']; subst.
      pose proof (H i (or_introl eq_refl)) as Hi. pose proof (restore_at L (n + i) _ Hi B) as R.
      destruct (IH fuel (set_nth (n + i) [] L)) as (L' & A & A1 & A2 & A3).
      * lia.
      * eapply clean_tail, C.
      * exact ND'.
      * intros j J. rewrite set_nth_other; [apply H; right; exact J|]. intro Z. assert (i = j) by lia. subst. contradiction.
      * rewrite set_nth_length. exact B.
      * exists L'. split; [| split; [rewrite A1; apply set_nth_length | split]].
        -- assert (P : placeholder (f i ++ opened f m) = Some (itoa (Z.of_nat (n + i)), opened f m)) by apply placeholder_mark.
           rewrite E in *. cbn [app] in *. cbn [restore_go]. rewrite P. cbn [bind]. rewrite R. cbn [bind]. rewrite A. reflexivity.
        -- intros k K. rewrite A2 by (intros j J; apply K; right; exact J). apply set_nth_other. apply K. left. reflexivity.
        -- intros j [<- | J]; [| apply A3, J]. rewrite A2.
           ++ apply set_nth_same. apply nth_error_Some. intro Z. pose proof (eq_trans (eq_sym Hi) Z) as Z'. discriminate Z'.
           ++ intros j J Z. assert (i = j) by lia. subst. contradiction.
Qed.

(** ** A document *)
(** Texts inside marks: a text without backtick is found in the characters only. *)
Lemma replace_opaque : forall k v c x, k <> [] -> (exists c' e, c = c' ++ [e] /\ ~ In e k) -> ~ occurs k c -> replace_all k v (c ++ x) = c ++ replace_all k v x.
Proof.
  intros k v c x NE (c' & e & -> & Ne) O. rewrite <- app_assoc.
  assert (G : forall c', ~ occurs k (c' ++ [e]) -> replace_all k v (c' ++ [e] ++ x) = c' ++ [e] ++ replace_all k v x); [| rewrite G by exact O; rewrite <- app_assoc; reflexivity].
  clear c' O. induction c' as [|a c' IH]; intros O.
  - cbn [app]. rewrite replace_all_cons; [reflexivity|]. destruct k as [|d k]; [congruence|]. cbn [has_prefix].
    destruct (Ascii.eqb_spec d e) as [->|]; [exfalso; apply Ne; left; reflexivity | reflexivity].
  - cbn [app]. rewrite replace_all_cons.
    + cbn [app] in IH. rewrite IH; [reflexivity|]. intro Z. apply O. change ((a :: c') ++ [e]) with ([a] ++ (c' ++ [e])). apply occurs_skip, Z.
    + destruct (has_prefix k (a :: c' ++ e :: x)) eqn:P; [| reflexivity]. exfalso.
      apply has_prefix_iff in P. destruct P as [t P].
      assert (CASE : forall k p t, ~ In e k -> p ++ e :: x = k ++ t -> exists q, p = k ++ q).
      { clear. intros k. induction k as [|d k IHk]; intros p t Ne P; [exists p; reflexivity|]. destruct p as [|b p].
        - exfalso. cbn [app] in P. inversion P; subst. apply Ne. left. reflexivity.
        - cbn [app] in P. inversion P as [[E1 E2]]. destruct (IHk p t) as [q ->]; [intro I; apply Ne; right; exact I | exact E2 |]. exists q. reflexivity. }
      destruct (CASE k (a :: c') t Ne P) as [q Q]. apply O. exists [], (q ++ [e]). rewrite Q. cbn [app]. rewrite <- app_assoc. reflexivity.
Qed.
Inductive swapped (k v : str) : list cell -> list cell -> Prop :=
| sw_nil : swapped k v [] []
| sw_keep x m m' : swapped k v m m' -> swapped k v (x :: m) (x :: m')
| sw_text m m' : swapped k v m m' -> swapped k v (map Chr k ++ m) (map Chr v ++ m').
Lemma swapped_holes : forall k v m m', swapped k v m m' -> holes m' = holes m.
Proof.
  intros k v m m' H. induction H as [|x m m' H IH|m m' H IH]; [reflexivity|..].
  - change (x :: m') with ([x] ++ m'). change (x :: m) with ([x] ++ m). rewrite !holes_app, IH. reflexivity.
  - rewrite !holes_app, !holes_chars, IH. reflexivity.
Qed.
(** The same replacement of the characters, whatever the holes hold. *)
Lemma swap : forall k v n m, k <> [] -> ~ In BTK k -> List.length m < n ->
  exists m', swapped k v m m' /\ forall f, (forall i, exists r, f i = BTK :: r) -> (forall i, In i (holes m) -> (exists c, f i = c ++ [BTK]) /\ ~ occurs k (f i)) ->
  replace_all k v (opened f m) = opened f m'.
Proof.
  intros k v. induction n as [|n IH]; intros m NE NB Len; [lia|]. destruct m as [|x m].
  - exists []. split; [constructor | reflexivity].
  - cbn [List.length] in Len. destruct x as [c|i].
    + set (f0 := fun _ : nat => [BTK]). destruct (has_prefix k (opened f0 (Chr c :: m))) eqn:P.
      * destruct (prefix_cells k f0 (Chr c :: m) NB ltac:(intros i; exists []; reflexivity) P) as [m2 E].
        assert (L2 : List.length m2 < n).
        { apply (f_equal (@List.length cell)) in E. rewrite app_length, map_length in E. cbn [List.length] in E. destruct k; [congruence|]. cbn [List.length] in E. lia. }
        destruct (IH m2 NE NB L2) as (m' & A & B). exists (map Chr v ++ m'). rewrite E. split; [constructor; exact A|].
        intros f F H. rewrite !opened_app, !opened_chars, replace_all_sep by exact NE. f_equal. apply B; [exact F|]. intros i I. apply H. rewrite holes_app, holes_chars. exact I.
      * destruct (IH m NE NB ltac:(lia)) as (m' & A & B). exists (Chr c :: m'). split; [constructor; exact A|]. intros f F H.
        change (opened f (Chr c :: m)) with (c :: opened f m). rewrite replace_all_cons; [rewrite (B f F H); reflexivity|].
        destruct (has_prefix k (c :: opened f m)) eqn:Q; [| reflexivity]. exfalso.
        destruct (prefix_cells k f (Chr c :: m) NB F Q) as [m2 E]. rewrite E, opened_app, opened_chars, has_prefix_app in P. discriminate P.
    + destruct (IH m NE NB ltac:(lia)) as (m' & A & B). exists (Hol i :: m'). split; [constructor; exact A|]. intros f F H.
      change (opened f (Hol i :: m)) with (f i ++ opened f m). change (opened f (Hol i :: m')) with (f i ++ opened f m'). destruct (H i (or_introl eq_refl)) as [(c & E) O].
      rewrite replace_opaque; [rewrite (B f F); [reflexivity|] | exact NE | exists c, BTK; split; [exact E | exact NB] | exact O].
      intros j J. apply H. right. exact J.
Qed.

Lemma first_part : forall (L L2 : list str), (forall k, k < List.length L -> nth_error L2 k = nth_error L k) -> firstn (List.length L) L2 = L.
Proof.
  induction L as [|x L IH]; intros L2 H; [reflexivity|]. pose proof (H 0 ltac:(cbn; lia)) as H0. destruct L2 as [|y L2]; [discriminate H0|]. cbn in H0. inversion H0; subst.
  cbn [List.length firstn]. f_equal. apply IH. intros k K. apply (H (S k)). cbn. lia.
Qed.
Definition FENCE : str := $"```".
Definition QUOTED : str := $"_=!TRIPLE_BT!=".
Definition fcode (_ : nat) : str := triple_literal.
Definition fword (_ : nat) : str := FENCE.
Definition compat (k : str) : bool := has_prefix k triple_literal || has_prefix triple_literal k.
Fixpoint safe (k : str) : bool := match k with [] => true | _ :: r => negb (compat k) && safe r end.
Lemma prefix_both : forall k l x, has_prefix k (l ++ x) = true -> has_prefix k l = true \/ has_prefix l k = true.
Proof.
  induction k as [|c k IH]; intros l x H; [left; reflexivity|]. destruct l as [|d l]; [right; reflexivity|]. cbn [app has_prefix] in *.
  apply andb_true_iff in H. destruct H as [A B]. apply Ascii.eqb_eq in A. subst d. rewrite Ascii.eqb_refl. apply (IH l x B).
Qed.
Lemma safe_chars : forall k m, safe k = true -> has_prefix k (enc fcode m) = true -> exists m', m = map Ch k ++ m'.
Proof.
  induction k as [|c k IH]; intros m SA H; [exists m; reflexivity|]. cbn [safe] in SA. apply andb_true_iff in SA. destruct SA as [S1 S2].
  destruct m as [|[d|i] m]; [discriminate H|..].
  - change (enc fcode (Ch d :: m)) with (d :: enc fcode m) in H. cbn [has_prefix] in H. apply andb_true_iff in H. destruct H as [A B].
    apply Ascii.eqb_eq in A. subst d. destruct (IH m S2 B) as [m' ->]. exists m'. reflexivity.
  - exfalso. change (enc fcode (Mk i :: m)) with (triple_literal ++ enc fcode m) in H. apply prefix_both in H. unfold compat in S1.
    destruct H as [H | H]; rewrite H in S1; [discriminate S1 | rewrite orb_true_r in S1; discriminate S1].
Qed.
Lemma occurs_prefix : forall k s, occurs k s -> exists a, exists b, s = a ++ b /\ has_prefix k b = true.
Proof. intros k s (a & b & ->). exists a, (k ++ b). split; [reflexivity | apply has_prefix_app]. Qed.
Lemma start_kept : forall m, occurs START (enc fcode m) -> occurs START (flat fword m).
Proof.
  induction m as [|x m IH]; intros (a & b & E).
  - destruct a; discriminate E.
  - change (flat fword (x :: m)) with (flat1 fword x ++ flat fword m). destruct x as [c|i].
    + destruct a as [|d a].
      * assert (P : has_prefix START (enc fcode (Ch c :: m)) = true) by (change ([] ++ START ++ b) with (START ++ b) in E; rewrite E; apply has_prefix_app).
        destruct (safe_chars START (Ch c :: m) ltac:(vm_compute; reflexivity) P) as [m' M]. exists [], (flat fword m').
        change (flat1 fword (Ch c) ++ flat fword m) with (flat fword (Ch c :: m)). rewrite M, flat_app, flat_chars. reflexivity.
      * change (enc fcode (Ch c :: m)) with (c :: enc fcode m) in E. cbn [app] in E. inversion E as [[E1 E2]]. apply occurs_skip, IH. exists a, b. exact E2.
    + apply occurs_skip, IH. change (enc fcode (Mk i :: m)) with (triple_literal ++ enc fcode m) in E.
      assert (G : forall l a, ~ In BTK l -> l ++ enc fcode m = a ++ START ++ b -> occurs START (enc fcode m)).
      { induction l as [|c l IHl]; intros a' N Z; [exists a', b; exact Z|]. destruct a' as [|d a'].
        - exfalso. cbn [app] in Z. inversion Z as [[Z1 Z2]]. apply N. left. exact Z1.
        - cbn [app] in Z. inversion Z as [[Z1 Z2]]. apply (IHl a'); [intro I; apply N; right; exact I | exact Z2]. }
      apply (G triple_literal a); [cbn; intuition discriminate | exact E].
Qed.
Lemma fences_back : forall m, ~ occurs QUOTED (flat fword m) -> replace_all triple_literal FENCE (enc fcode m) = flat fword m.
Proof.
  induction m as [|x m IH]; intros N; [reflexivity|]. change (flat fword (x :: m)) with (flat1 fword x ++ flat fword m) in N.
  assert (N' : ~ occurs QUOTED (flat fword m)) by (intro O; apply N, occurs_skip, O). specialize (IH N').
  change (enc fcode (x :: m)) with (enc1 fcode x ++ enc fcode m). change (flat fword (x :: m)) with (flat1 fword x ++ flat fword m). rewrite <- IH. destruct x as [c|i].
  - cbn [enc1 flat1 app]. apply replace_all_cons. destruct (has_prefix triple_literal (c :: enc fcode m)) eqn:P; [exfalso | reflexivity].
    change triple_literal with ("_"%char :: (tl QUOTED ++ $"_")) in P. cbn [has_prefix] in P. apply andb_true_iff in P. destruct P as [P1 P2].
    apply Ascii.eqb_eq in P1. subst c.
    assert (P3 : has_prefix (tl QUOTED) (enc fcode m) = true).
    { apply has_prefix_iff in P2. destruct P2 as [t P2]. rewrite <- app_assoc in P2. rewrite P2. apply has_prefix_app. }
    destruct (safe_chars (tl QUOTED) m ltac:(vm_compute; reflexivity) P3) as [m' M]. apply N. exists [], (flat fword m'). rewrite M, flat_app, flat_chars. reflexivity.
  - cbn [enc1 flat1]. apply replace_all_sep. discriminate.
Qed.
Lemma fenced : forall s, exists m, replace_all FENCE triple_literal s = enc fcode m /\ flat fword m = s.
Proof.
  intros s. destruct (mark_step fcode fword (S (List.length (map Ch s))) 0 (map Ch s)) as (m & A & B & _).
  - lia.
  - discriminate.
  - intros i I. apply in_map_iff in I. destruct I as (x & Z & _). discriminate Z.
  - intros i x I. apply in_map_iff in I. destruct I as (y & Z & _). discriminate Z.
  - rewrite enc_chars in A. rewrite flat_chars in B. exists m. split; [exact A | exact B].
Qed.

Lemma mark_no_literal : forall k, ~ occurs triple_literal (mark k).
Proof.
  intros k (a & b & E). assert (I : In "!"%char (mark k)) by (rewrite E; apply in_app_iff; right; apply in_app_iff; left; cbn; tauto).
  unfold mark in I. apply in_app_iff in I. destruct I as [I | I]; [revert I; cbn; intuition discriminate|].
  apply in_app_iff in I. destruct I as [I | [Z | []]]; [| discriminate Z]. destruct (itoa_digits k) as [D _]. rewrite Forall_forall in D. specialize (D _ I). discriminate D.
Qed.
Lemma mark_end : forall k, exists c, mark k = c ++ [BTK].
Proof. intros k. exists ($"`_=LONG_STRING=" ++ itoa (Z.of_nat k)). unfold mark. rewrite app_assoc. reflexivity. Qed.
Lemma document : forall L s L1 t, ~ occurs START s -> ~ occurs QUOTED s -> open_document L s = Ok (L1, t) ->
  (forall l, In l (skipn (List.length L) L1) -> ~ occurs triple_literal l) -> (Z.of_nat (List.length L1) <= 2 ^ 63)%Z ->
  exists L2, close_document L1 t = Ok (L2, s) /\ firstn (List.length L) L2 = L.
Proof.
  intros L s L1 t NS NQ O NL B. destruct (fenced s) as (mm & E1 & E2). unfold open_document, protect_long in O. change (replace_all $"```" triple_literal s) with (replace_all FENCE triple_literal s) in O.
  rewrite E1 in O.
  assert (N1 : ~ occurs START (enc fcode mm)) by (intro Z; apply NS; rewrite <- E2; apply start_kept, Z).
  destruct (protected (S (List.length (enc fcode mm))) L (enc fcode mm) ltac:(lia) N1) as (m & strings & A & F & H & M & _).
  rewrite A in O. inversion O as [[O1 O2]]. clear O. rewrite <- O1 in NL, B. rewrite skipn_app, skipn_all, Nat.sub_diag in NL. cbn [app skipn] in NL.
  set (f := fun i => mark (List.length L + i)) in *. set (g := fun i => if i <? List.length strings then nth i strings [] else [BTK]).
  assert (GE : forall m, (forall i, In i (holes m) -> i < List.length strings) -> opened g m = opened (fun i => nth i strings []) m).
  { intros m' R. apply opened_ext. intros i I. unfold g. apply R in I. apply Nat.ltb_lt in I. rewrite I. reflexivity. }
  assert (HR : forall i, In i (holes m) -> i < List.length strings) by (intros i I; rewrite H in I; apply in_seq in I; lia).
  assert (ML : forall i, i < List.length strings -> exists u, nth i strings [] = BTK :: u ++ [BTK]).
  { intros i I. rewrite Forall_forall in M. destruct (M (nth i strings []) (nth_In _ _ I)) as (u & U & _). exists u. exact U. }
  assert (GF : forall i, exists r, g i = BTK :: r).
  { intros i. unfold g. destruct (i <? List.length strings) eqn:I; [| exists []; reflexivity]. apply Nat.ltb_lt in I. destruct (ML i I) as [u U]. exists (u ++ [BTK]). exact U. }
  destruct (swap triple_literal FENCE (S (List.length m)) m ltac:(discriminate) ltac:(cbn; intuition discriminate) ltac:(lia)) as (m' & SW & RP).
  assert (RF : replace_all triple_literal FENCE (opened f m) = opened f m').
  { apply RP; [intros i; apply mark_start|]. intros i _. split; [apply mark_end | apply mark_no_literal]. }
  assert (RG : replace_all triple_literal FENCE (opened g m) = opened g m').
  { apply RP; [exact GF|]. intros i I. apply HR in I. unfold g. apply Nat.ltb_lt in I. rewrite I. apply Nat.ltb_lt in I. split.
    - destruct (ML i I) as [u U]. exists (BTK :: u). exact U.
    - apply NL, nth_In, I. }
  pose proof (swapped_holes _ _ _ _ SW) as HH.
  assert (HR' : forall i, In i (holes m') -> i < List.length strings) by (intros i I; apply HR; rewrite <- HH; exact I).
  assert (FS : opened (fun i => nth i strings []) m' = s).
  { rewrite <- (GE m' HR'), <- RG, (GE m HR). transitivity (replace_all triple_literal FENCE (enc fcode mm)); [apply f_equal; exact F|]. rewrite <- E2 in NQ. rewrite (fences_back mm NQ). exact E2. }
  assert (CL : clean m') by (apply (no_start s (fun i => nth i strings []) m'); [intros a b Z; apply NS; exists a, b; exact Z | exact FS]).
  destruct (coming_back (List.length L) strings m' (List.length (opened f m')) (L ++ strings)) as (L2 & R & R1 & R2 & _).
  - unfold f. lia.
  - exact CL.
  - rewrite HH, H. apply seq_NoDup.
  - intros i I. apply HR' in I. rewrite nth_error_app2 by lia. replace (List.length L + i - List.length L) with i by lia. apply nth_error_nth'. exact I.
  - exact B.
  - exists L2. split.
    + unfold close_document, restore_long. change (replace_all triple_literal $"```" (opened f m)) with (replace_all triple_literal FENCE (opened f m)). rewrite RF.
      transitivity (Ok (L2, opened (fun i => nth i strings []) m')); [exact R|]. rewrite FS. reflexivity.
    + apply first_part. intros k K. rewrite R2; [apply nth_error_app1; exact K|]. intros i _ Z. lia.
Qed.

(** ** Several documents at the same time *)
Definition pieces_text (d : list piece) : str := concat (map (fun x => match x with Text t => t | Long l => l end) d).
Definition part_text (L : list str) (x : part) : str := match x with Kept t => t | Hole n => nth n L [] end.
Definition parts_text (L : list str) (d : list part) : str := concat (map (part_text L) d).
Definition parts_holes (d : list part) : list nat := concat (map (fun x => match x with Kept _ => [] | Hole n => [n] end) d).
Definition job_holes (j : job) : list nat :=
  match j with Protecting _ _ made => parts_holes made | Restoring todo _ => parts_holes todo | _ => [] end.
Definition job_ok (L : list str) (d : str) (j : job) : Prop :=
  match j with
  | Protecting todo false made => parts_text L made ++ pieces_text todo = d
  | Protecting _ true _ => False
  | Restoring todo out => out ++ parts_text L todo = d
  | Finished out => out = d
  | Crashed => False
  end.
Definition all_holes (jobs : list job) : list nat := concat (map job_holes jobs).
Definition fine_jobs (L : list str) (docs : list str) (jobs : list job) : Prop :=
  Forall2 (job_ok L) docs jobs /\ NoDup (all_holes jobs) /\ (forall n, In n (all_holes jobs) -> n < List.length L).

Lemma parts_text_ext : forall L L' d, (forall n, In n (parts_holes d) -> nth n L' [] = nth n L []) -> parts_text L' d = parts_text L d.
Proof.
  intros L L'. induction d as [|x d IH]; intros H; [reflexivity|]. change (parts_text L' (x :: d)) with (part_text L' x ++ parts_text L' d).
  change (parts_text L (x :: d)) with (part_text L x ++ parts_text L d). rewrite IH.
  - f_equal. destruct x as [t|n]; [reflexivity|]. apply H. left. reflexivity.
  - intros n I. apply H. unfold parts_holes. cbn [map concat]. apply in_app_iff. right. exact I.
Qed.
Lemma job_ok_ext : forall L L' d j, (forall n, In n (job_holes j) -> nth n L' [] = nth n L []) -> job_ok L d j -> job_ok L' d j.
Proof.
  intros L L' d [todo [] made|todo out|out|] H K; cbn [job_ok job_holes] in *; try exact K; rewrite (parts_text_ext L L'); assumption.
Qed.
Lemma parts_text_app : forall L a b, parts_text L (a ++ b) = parts_text L a ++ parts_text L b.
Proof. intros. unfold parts_text. rewrite map_app, concat_app. reflexivity. Qed.
Lemma parts_holes_app : forall a b, parts_holes (a ++ b) = parts_holes a ++ parts_holes b.
Proof. intros. unfold parts_holes. rewrite map_app, concat_app. reflexivity. Qed.
(** What one call does to the list and to the holes. *)
Inductive effect (L : list str) (j : job) : list str -> job -> Prop :=
| ef_none j' : job_holes j' = job_holes j -> effect L j L j'
| ef_add l j' : job_holes j' = job_holes j ++ [List.length L] -> effect L j (L ++ [l]) j'
| ef_take n j' : job_holes j = n :: job_holes j' -> effect L j (set_nth n [] L) j'.
Lemma call_effect : forall L d j, job_ok L d j -> (forall n, In n (job_holes j) -> n < List.length L) -> NoDup (job_holes j) ->
  effect L j (fst (job_call L j)) (snd (job_call L j)) /\ job_ok (fst (job_call L j)) d (snd (job_call L j)).
Proof.
  intros L d j K R ND. destruct j as [todo added made|todo out|out|]; cbn [job_ok] in K; [| | split; [constructor; reflexivity | exact K] | contradiction].
  - destruct added; [contradiction|]. destruct todo as [|[t|l] todo]; unfold job_call; cbn [job_step fst snd].
    + split; [constructor; reflexivity|]. cbn [job_ok app]. rewrite app_nil_r in K. exact K.
    + split; [constructor; cbn [job_holes]; rewrite parts_holes_app; cbn; apply app_nil_r|]. cbn [job_ok]. rewrite parts_text_app, <- app_assoc.
      replace (parts_text L [Kept t]) with t by (unfold parts_text; cbn; symmetry; apply app_nil_r). exact K.
    + split; [constructor; cbn [job_holes]; rewrite parts_holes_app; f_equal; cbn; rewrite app_length; cbn; f_equal; lia|].
      cbn [job_ok]. rewrite parts_text_app, <- app_assoc. rewrite (parts_text_ext L).
      * rewrite <- K. f_equal. unfold parts_text. cbn [map concat part_text]. rewrite app_nil_r. rewrite app_length. cbn [List.length].
        replace (List.length L + 1 - 1) with (List.length L) by lia. rewrite app_nth2 by lia. rewrite Nat.sub_diag. reflexivity.
      * intros n I. rewrite app_nth1; [reflexivity|]. apply R, I.
  - destruct todo as [|[t|n] todo]; unfold job_call; cbn [job_step].
    + cbn [fst snd]. split; [constructor; reflexivity|]. cbn [job_ok]. unfold parts_text in K. cbn in K. rewrite app_nil_r in K. exact K.
    + cbn [fst snd]. split; [constructor; reflexivity|]. cbn [job_ok]. rewrite <- app_assoc. exact K.
    + change (job_holes (Restoring (Hole n :: todo) out)) with (n :: parts_holes todo) in *. inversion ND as [|? ? NI ND']; subst.
      assert (Ln : n < List.length L) by (apply R; left; reflexivity).
      rewrite (nth_error_nth' L [] Ln). cbn [fst snd]. split; [constructor; reflexivity|]. cbn [job_ok]. rewrite <- app_assoc. f_equal.
      change (parts_text L (Hole n :: todo)) with (nth n L [] ++ parts_text L todo). f_equal. apply parts_text_ext. intros k I.
      assert (NE : k <> n) by (intros ->; contradiction). pose proof (set_nth_other n k [] L NE) as Z.
      assert (Lk : k < List.length L) by (apply R; right; exact I).
      rewrite (nth_error_nth' L [] Lk) in Z. apply (nth_error_nth _ _ []) in Z. exact Z.
Qed.
Lemma NoDup_app_remove_l : forall (a b : list nat), NoDup (a ++ b) -> NoDup b.
Proof. induction a as [|x a IH]; intros b H; [exact H|]. inversion H; subst. apply IH. assumption. Qed.
Lemma NoDup_app_remove_r : forall (a b : list nat), NoDup (a ++ b) -> NoDup a.
Proof.
  induction a as [|x a IH]; intros b H; [constructor|]. inversion H as [|? ? N H']; subst. constructor; [intro I; apply N, in_app_iff; left; exact I | apply (IH b H')].
Qed.
Lemma all_holes_split : forall a j b, all_holes (a ++ j :: b) = all_holes a ++ job_holes j ++ all_holes b.
Proof. intros. unfold all_holes. rewrite map_app, concat_app. reflexivity. Qed.
Lemma set_job_split : forall a j b j', set_job (List.length a) j' (a ++ j :: b) = a ++ j' :: b.
Proof. induction a as [|x a IH]; intros; [reflexivity|]. cbn. rewrite IH. reflexivity. Qed.
Lemma Forall2_other : forall L L' docs jobs, (forall j n, In j jobs -> In n (job_holes j) -> nth n L' [] = nth n L []) -> Forall2 (job_ok L) docs jobs -> Forall2 (job_ok L') docs jobs.
Proof.
  intros L L' docs jobs H F. induction F as [|d j docs jobs K F IH]; [constructor|]. constructor.
  - apply (job_ok_ext L); [| exact K]. intros n I. apply (H j); [left; reflexivity | exact I].
  - apply IH. intros x n X I. apply (H x); [right; exact X | exact I].
Qed.
Lemma in_all : forall j n jobs, In j jobs -> In n (job_holes j) -> In n (all_holes jobs).
Proof. intros j n jobs I J. unfold all_holes. apply in_concat. exists (job_holes j). split; [apply in_map; exact I | exact J]. Qed.
Lemma call_fine : forall L docs jobs k j, fine_jobs L docs jobs -> nth_error jobs k = Some j ->
  fine_jobs (fst (job_call L j)) docs (set_job k (snd (job_call L j)) jobs).
Proof.
  intros L docs jobs k j (F & ND & R) E. destruct (nth_error_split _ _ E) as (a & b & -> & <-). rewrite set_job_split.
  rewrite all_holes_split in ND, R. apply Forall2_app_inv_r in F. destruct F as (da & dj & Fa & Fj & ->). inversion Fj as [|d ? db ? Kj Fb]; subst.
  assert (Rj : forall n, In n (job_holes j) -> n < List.length L) by (intros n I; apply R; apply in_app_iff; right; apply in_app_iff; left; exact I).
  assert (NDj : NoDup (job_holes j)) by (apply NoDup_app_remove_l in ND; apply NoDup_app_remove_r in ND; exact ND).
  destruct (call_effect L d j Kj Rj NDj) as [EF OK]. remember (fst (job_call L j)) as L' eqn:EL. remember (snd (job_call L j)) as j' eqn:EJ. clear EL EJ.
  assert (OT : forall n, (In n (all_holes a) \/ In n (all_holes b)) -> nth n L' [] = nth n L []).
  { intros n I. assert (In_n : n < List.length L) by (apply R; apply in_app_iff; destruct I; [left | right; apply in_app_iff; right]; assumption).
    inversion EF as [? E1 E2|l ? E1 E2|m ? E1 E2]; subst.
    - reflexivity.
    - apply app_nth1. exact In_n.
    - assert (NE : n <> m).
      { intros ->. rewrite E1 in ND. destruct I as [I | I].
        - apply in_split in I. destruct I as (p & q & I). rewrite I, <- app_assoc in ND. cbn [app] in ND. apply NoDup_app_remove_l in ND. inversion ND as [|? ? X _]. apply X.
          apply in_app_iff. right. left. reflexivity.
        - apply NoDup_app_remove_l in ND. cbn [app] in ND. inversion ND as [|? ? X _]. apply X. apply in_app_iff. right. exact I. }
      pose proof (set_nth_other m n [] L NE) as Z. rewrite (nth_error_nth' L [] In_n) in Z. apply (nth_error_nth _ _ []) in Z. exact Z. }
  assert (LL : List.length L <= List.length L').
  { inversion EF; subst; [lia | rewrite app_length; lia | rewrite set_nth_length; lia]. }
  split; [| split].
  - apply Forall2_app; [apply (Forall2_other L); [| exact Fa]; intros x n X I; apply OT; left; eapply in_all; eassumption|].
    constructor; [exact OK|]. apply (Forall2_other L); [| exact Fb]. intros x n X I. apply OT. right. eapply in_all; eassumption.
  - rewrite all_holes_split. inversion EF as [? E1 E2|l ? E1 E2|m ? E1 E2]; subst.
    + rewrite E1. exact ND.
    + rewrite E1. rewrite <- app_assoc. cbn [app]. rewrite app_assoc. apply <- (NoDup_Add (Add_app (List.length L) (all_holes a ++ job_holes j) (all_holes b))).
      split; [rewrite <- app_assoc; exact ND|]. rewrite <- app_assoc. intro I. apply R in I. lia.
    + rewrite E1 in ND. cbn [app] in ND. apply NoDup_remove_1 in ND. exact ND.
  - rewrite all_holes_split. intros n I. apply in_app_iff in I.
    assert (OLD : In n (all_holes a ++ job_holes j ++ all_holes b) -> n < List.length L') by (intros Z; apply R in Z; lia).
    inversion EF as [? E1 E2|l ? E1 E2|m ? E1 E2]; subst.
    + rewrite E1 in I. apply OLD. apply in_app_iff. exact I.
    + rewrite E1 in I. destruct I as [I | I]; [apply OLD; apply in_app_iff; left; exact I|]. apply in_app_iff in I. destruct I as [I | I].
      * apply in_app_iff in I. destruct I as [I | [<- | []]]; [apply OLD; apply in_app_iff; right; apply in_app_iff; left; exact I | rewrite app_length; cbn; lia].
      * apply OLD. apply in_app_iff. right. apply in_app_iff. right. exact I.
    + apply OLD. rewrite E1. apply in_app_iff. destruct I as [I | I]; [left; exact I | right; right; exact I].
Qed.
Lemma run_fine : forall schedule L docs jobs, fine_jobs L docs jobs -> fine_jobs (fst (run_jobs job_call schedule L jobs)) docs (snd (run_jobs job_call schedule L jobs)).
Proof.
  induction schedule as [|k schedule IH]; intros L docs jobs H; [exact H|]. cbn [run_jobs]. destruct (nth_error jobs k) as [j|] eqn:E; [| apply IH, H].
  pose proof (call_fine L docs jobs k j H E) as H'. destruct (job_call L j) as [L' j'] eqn:C. cbn [fst snd] in H'. apply IH, H'.
Qed.
Lemma together : forall L (docs : list (list piece)) schedule k d out,
  nth_error docs k = Some d -> nth_error (snd (run_jobs job_call schedule L (map new_job docs))) k = Some (Finished out) -> out = pieces_text d.
Proof.
  intros L docs schedule k d out D E.
  assert (F0 : fine_jobs L (map pieces_text docs) (map new_job docs)).
  { split; [| split].
    - clear. induction docs as [|d docs IH]; [constructor|]. constructor; [reflexivity | exact IH].
    - replace (all_holes (map new_job docs)) with (@nil nat); [constructor|]. clear. induction docs as [|d docs IH]; [reflexivity | exact IH].
    - replace (all_holes (map new_job docs)) with (@nil nat); [intros n []|]. clear. induction docs as [|d docs IH]; [reflexivity | exact IH]. }
  destruct (run_fine schedule L _ _ F0) as [F _]. revert F. generalize (snd (run_jobs job_call schedule L (map new_job docs))), E. clear - D.
  generalize (fst (run_jobs job_call schedule L (map new_job docs))). intros L' jobs E F. revert k D E. remember (map pieces_text docs) as ds eqn:Eds. revert docs Eds.
  induction F as [|x j ds jobs K F IH]; intros docs Eds k D E; [destruct k; discriminate E|]. destruct docs as [|d0 docs]; [discriminate Eds|]. inversion Eds; subst.
  destruct k as [|k].
  - cbn in D, E. inversion D; subst. inversion E; subst. exact K.
  - apply (IH docs eq_refl k); assumption.
Qed.
(** No job crashes. *)
Lemma no_crash : forall L (docs : list (list piece)) schedule, ~ In Crashed (snd (run_jobs job_call schedule L (map new_job docs))).
Proof.
  intros L docs schedule I.
  assert (F0 : fine_jobs L (map pieces_text docs) (map new_job docs)).
  { split; [| split].
    - clear. induction docs as [|d docs IH]; [constructor|]. constructor; [reflexivity | exact IH].
    - replace (all_holes (map new_job docs)) with (@nil nat); [constructor|]. clear. induction docs as [|d docs IH]; [reflexivity | exact IH].
    - replace (all_holes (map new_job docs)) with (@nil nat); [intros n []|]. clear. induction docs as [|d docs IH]; [reflexivity | exact IH]. }
  destruct (run_fine schedule L _ _ F0) as [F _]. clear F0. induction F as [|x j ds jobs K F IH]; [destruct I|]. destruct I as [-> | I]; [exact K | exact (IH I)].
Qed.

Lemma put_aside : forall L s, ~ occurs START s ->
  exists m strings, protect_long L s = Ok (L ++ strings, shown (List.length L) m) /\ filled strings m = s /\ holes m = seq 0 (List.length strings) /\
    Forall multi_line strings /\ ~ has_multi_line (shown (List.length L) m).
Proof.
  intros L s N. destruct (protected (S (List.length s)) L s ltac:(lia) N) as (m & strings & A & B & C & D & E). exists m, strings.
  split; [exact A|]. split; [exact B|]. split; [exact C|]. split; [exact D|]. intro H. apply scan_multi in H. unfold shown in H. unfold opened in E. congruence.
Qed.
Lemma put_back : forall L strings m, clean m -> NoDup (holes m) -> (forall i, In i (holes m) -> i < List.length strings) ->
  (Z.of_nat (List.length (L ++ strings)) <= 2 ^ 63)%Z ->
  exists L', restore_long (L ++ strings) (shown (List.length L) m) = Ok (L', filled strings m) /\ List.length L' = List.length (L ++ strings) /\ firstn (List.length L) L' = L.
Proof.
  intros L strings m C ND R B. destruct (coming_back (List.length L) strings m (List.length (shown (List.length L) m)) (L ++ strings)) as (L' & A & A1 & A2 & _).
  - apply le_n.
  - exact C.
  - exact ND.
  - intros i I. apply R in I. rewrite nth_error_app2 by lia. replace (List.length L + i - List.length L) with i by lia. apply nth_error_nth'. exact I.
  - exact B.
  - exists L'. split; [exact A|]. split; [exact A1|]. apply first_part. intros k K. rewrite A2; [apply nth_error_app1; exact K|]. intros i _ Z. lia.
Qed.
