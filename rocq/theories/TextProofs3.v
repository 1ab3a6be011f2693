(** Proofs: protecting and restoring the strings of a text. *)
From Coq Require Import String Ascii List ZArith NArith Bool Lia.
From Coq Require DecimalString DecimalPos.
From Verif Require Import GoStr GoStrFacts Utf8 Utf8Facts TextModel TextSpec TextProofs2.
Import ListNotations.

(** ** Decimal digits *)

Lemma digits_value_acc : forall u p,
  fold_left (fun n c => (n * 10 + (N_of_ascii c - 48))%N) (list_ascii_of_string (DecimalString.NilEmpty.string_of_uint u)) (N.pos p)
  = N.pos (Pos.of_uint_acc u p).
Proof.
  induction u; intro p; cbn [DecimalString.NilEmpty.string_of_uint list_ascii_of_string fold_left Pos.of_uint_acc];
    [reflexivity|..]; rewrite <- IHu; f_equal;
    match goal with |- context [(N_of_ascii ?c - 48)%N] =>
      let v := eval vm_compute in (N_of_ascii c - 48)%N in change (N_of_ascii c - 48)%N with v end; lia.
Qed.

Lemma digits_value_uint : forall u,
  fold_left (fun n c => (n * 10 + (N_of_ascii c - 48))%N) (list_ascii_of_string (DecimalString.NilEmpty.string_of_uint u)) 0%N
  = Pos.of_uint u.
Proof.
  induction u; cbn [DecimalString.NilEmpty.string_of_uint list_ascii_of_string fold_left Pos.of_uint]; [reflexivity|..].
  - exact IHu.
  - apply (digits_value_acc u 1).
  - apply (digits_value_acc u 2).
  - apply (digits_value_acc u 3).
  - apply (digits_value_acc u 4).
  - apply (digits_value_acc u 5).
  - apply (digits_value_acc u 6).
  - apply (digits_value_acc u 7).
  - apply (digits_value_acc u 8).
  - apply (digits_value_acc u 9).
Qed.

Lemma itoa_nat : forall n, exists u, itoa (Z.of_nat n) = list_ascii_of_string (DecimalString.NilEmpty.string_of_uint u) /\
  Pos.of_uint u = N.of_nat n /\ u <> Decimal.Nil.
Proof.
  intro n. destruct n as [|n].
  - exists (Decimal.D0 Decimal.Nil). repeat split. discriminate.
  - exists (Pos.to_uint (Pos.of_succ_nat n)).
    assert (O : Pos.of_uint (Pos.to_uint (Pos.of_succ_nat n)) = N.of_nat (S n)) by (rewrite DecimalPos.Unsigned.of_to; reflexivity).
    assert (NN : Pos.to_uint (Pos.of_succ_nat n) <> Decimal.Nil) by (intro K; rewrite K in O; discriminate O).
    split; [|split; assumption].
    unfold itoa, lit. cbn [Z.of_nat Z.to_int]. f_equal. unfold DecimalString.NilZero.string_of_int, DecimalString.NilZero.string_of_uint.
    destruct (Pos.to_uint (Pos.of_succ_nat n)); [congruence|reflexivity..].
Qed.

Lemma digits_value_itoa : forall n, digits_value (itoa (Z.of_nat n)) = N.of_nat n.
Proof.
  intro n. destruct (itoa_nat n) as (u & E & O & _). unfold digits_value. rewrite E, digits_value_uint. exact O.
Qed.

Lemma itoa_digits : forall n, Forall (fun c => is_digit c = true) (itoa (Z.of_nat n)) /\ itoa (Z.of_nat n) <> [].
Proof.
  intro n. destruct (itoa_nat n) as (u & E & _ & NN). rewrite E. split.
  - clear. induction u; cbn [DecimalString.NilEmpty.string_of_uint list_ascii_of_string]; constructor; try reflexivity; assumption.
  - destruct u; [congruence|discriminate..].
Qed.

(** ** Tokens *)

Lemma take_while_app : forall p a b, Forall (fun c => p c = true) a ->
  match b with [] => True | c :: _ => p c = false end -> take_while p (a ++ b) = a.
Proof.
  intros p a b F Hb. induction F as [|c a H F IH]; cbn [app take_while].
  - destruct b as [|c b]; [reflexivity|]. cbn [take_while]. rewrite Hb. reflexivity.
  - rewrite H, IH. reflexivity.
Qed.

Lemma match_token_intro : forall ds x, ds <> [] -> Forall (fun c => is_digit c = true) ds ->
  match_token (DQ :: spade ++ ds ++ DQ :: x) = Some (ds, len ds + 5).
Proof.
  intros ds x N0 F. unfold match_token.
  change (has_prefix (DQ :: spade) (DQ :: spade ++ ds ++ DQ :: x)) with true. cbv iota zeta.
  change (skipn 4 (DQ :: spade ++ ds ++ DQ :: x)) with (ds ++ DQ :: x).
  rewrite take_while_app by (exact F || reflexivity).
  destruct ds as [|d ds]; [congruence|]. rewrite skipn_exact. reflexivity.
Qed.

Lemma is_digit_range : forall c, is_digit c = true <-> (48 <= N_of_ascii c <= 57)%N.
Proof. intro c. apply within_spec. Qed.

Lemma match_token_elim : forall s ds n, match_token s = Some (ds, n) ->
  exists x, s = (DQ :: spade ++ ds ++ [DQ]) ++ x /\ looks_like_token (DQ :: spade ++ ds ++ [DQ]) /\ n = len ds + 5.
Proof.
  intros s ds n H. unfold match_token in H.
  destruct (has_prefix (DQ :: spade) s) eqn:P; [|discriminate]. apply has_prefix_iff in P as [t ->].
  change (skipn 4 ((DQ :: spade) ++ t)) with t in H. cbv zeta in H.
  pose proof (take_drop_while is_digit t) as T. pose proof (take_while_all is_digit t) as F.
  destruct (take_while is_digit t) as [|d0 ds0] eqn:TW; [discriminate|]. rewrite <- T in H at 1.
  rewrite skipn_exact in H. destruct (drop_while is_digit t) as [|c r] eqn:DW; [discriminate|].
  destruct (Ascii.eqb_spec c DQ) as [->|]; [|discriminate]. injection H as <- <-.
  exists r. split; [rewrite <- T; cbn [app]; repeat (rewrite <- app_assoc; cbn [app]); reflexivity|]. split; [|reflexivity].
  exists (d0 :: ds0). split; [discriminate|]. split; [|reflexivity].
  intros k Hk. rewrite Forall_forall in F. apply is_digit_range. apply F. exact Hk.
Qed.

Lemma token_shape : forall n, token n = DQ :: spade ++ itoa (Z.of_nat n) ++ [DQ].
Proof. reflexivity. Qed.

Lemma token_looks : forall n, looks_like_token (token n).
Proof.
  intro n. destruct (itoa_digits n) as [F N0]. exists (itoa (Z.of_nat n)). split; [exact N0|]. split; [|reflexivity].
  intros c Hc. apply is_digit_range. rewrite Forall_forall in F. apply F. exact Hc.
Qed.

(** ** Restoring *)

Lemma restore_skip : forall arr k s, k <= len s -> restore_go arr s k = restore_go arr (skipn k s) 0.
Proof.
  intros arr. induction k as [|k IH]; intros s H; [reflexivity|].
  destruct s as [|c s]; [simpl in H; lia|]. cbn [restore_go skipn]. apply IH. simpl in H. lia.
Qed.

Lemma match_token_head : forall c s, c <> DQ -> match_token (c :: s) = None.
Proof.
  intros c s H. unfold match_token. cbn [has_prefix].
  replace (Ascii.eqb DQ c) with false; [reflexivity|]. symmetry. apply Ascii.eqb_neq. congruence.
Qed.

Lemma restore_plain : forall arr h x, ~ In DQ h ->
  restore_go arr (h ++ x) 0 = bind (restore_go arr x 0) (fun t => Ok (h ++ t)).
Proof.
  intros arr h x H. induction h as [|c h IH].
  - cbn [app]. destruct (restore_go arr x 0); reflexivity.
  - cbn [app restore_go]. rewrite match_token_head by (intros ->; apply H; left; reflexivity).
    rewrite IH by (intro K; apply H; right; exact K).
    destruct (restore_go arr x 0); reflexivity.
Qed.

Lemma restore_token : forall arr n x y, nth_error arr n = Some y ->
  restore_go arr (token n ++ x) 0 = bind (restore_go arr x 0) (fun t => Ok (y ++ t)).
Proof.
  intros arr n x y H. destruct (itoa_digits n) as [F N0].
  assert (E : token n ++ x = DQ :: spade ++ itoa (Z.of_nat n) ++ DQ :: x).
  { unfold token. cbn [app]. repeat (rewrite <- app_assoc; cbn [app]); reflexivity. }
  rewrite E. set (s := DQ :: spade ++ itoa (Z.of_nat n) ++ DQ :: x).
  assert (M : match_token s = Some (itoa (Z.of_nat n), len (itoa (Z.of_nat n)) + 5)) by (apply match_token_intro; assumption).
  unfold s at 1. cbn [restore_go]. fold s. rewrite M. rewrite digits_value_itoa, Nat2N.id, H.
  rewrite restore_skip by (rewrite !app_length; cbn [List.length]; change (len spade) with 3; lia).
  replace (skipn (len (itoa (Z.of_nat n)) + 5 - 1) (spade ++ itoa (Z.of_nat n) ++ DQ :: x)) with x; [reflexivity|].
  replace (spade ++ itoa (Z.of_nat n) ++ DQ :: x) with ((spade ++ itoa (Z.of_nat n) ++ [DQ]) ++ x)
    by (rewrite <- !app_assoc; reflexivity).
  replace (len (itoa (Z.of_nat n)) + 5 - 1) with (len (spade ++ itoa (Z.of_nat n) ++ [DQ]))
    by (rewrite !app_length; cbn [List.length]; change (len spade) with 3; lia).
  symmetry. apply skipn_exact.
Qed.

Lemma restore_none : forall arr s, (forall a t b, s = a ++ t ++ b -> ~ looks_like_token t) ->
  restore_go arr s 0 = Ok s.
Proof.
  intros arr s. induction s as [|c s IH]; intro H; [reflexivity|]. cbn [restore_go].
  destruct (match_token (c :: s)) as [[ds n]|] eqn:M.
  - exfalso. apply match_token_elim in M as (x & E & L & _). exact (H [] _ x E L).
  - rewrite IH; [reflexivity|]. intros a t b E. apply (H (c :: a) t b). rewrite E. reflexivity.
Qed.

Lemma restore_interleave : forall heads a pre tail, List.length heads = List.length a ->
  Forall no_quote heads -> (forall arr, restore_go arr tail 0 = Ok tail) ->
  restore_go (pre ++ a) (interleave heads (map token (seq (List.length pre) (List.length a))) ++ tail) 0 =
  Ok (interleave heads a ++ tail).
Proof.
  induction heads as [|h heads IH]; intros a pre tail L F T; destruct a as [|q a]; try discriminate L.
  - cbn [List.length seq map interleave app]. apply T.
  - inversion F as [|? ? F1 F2]; subst. cbn [List.length seq map interleave].
    rewrite <- !app_assoc. rewrite restore_plain by (destruct F1; assumption).
    rewrite restore_token with (y := q) by (rewrite nth_error_app2 by lia; rewrite Nat.sub_diag; reflexivity).
    injection L as L. specialize (IH a (pre ++ [q]) tail L F2 T).
    rewrite app_length in IH. cbn [List.length] in IH. rewrite <- app_assoc in IH. cbn [app] in IH.
    replace (List.length pre + 1) with (S (List.length pre)) in IH by lia. rewrite IH. reflexivity.
Qed.

(** ** Protecting *)

Lemma index_quote_Some : forall s n, index_quote s = Some n ->
  exists h q after, s = h ++ q :: after /\ len h = n /\ no_quote h /\ (q = DQ \/ q = BQ).
Proof.
  induction s as [|c s IH]; intros n H; cbn [index_quote] in H; [discriminate|].
  destruct (Ascii.eqb c DQ || Ascii.eqb c BQ) eqn:E.
  - injection H as <-. exists [], c, s. split; [reflexivity|]. split; [reflexivity|].
    split; [split; intros []|]. apply orb_true_iff in E as [E|E]; apply Ascii.eqb_eq in E; auto.
  - destruct (index_quote s) as [m|]; [|discriminate]. injection H as <-.
    destruct (IH m eq_refl) as (h & q & after & -> & <- & [N1 N2] & Q).
    apply orb_false_iff in E as [E1 E2]. apply Ascii.eqb_neq in E1, E2.
    exists (c :: h), q, after. split; [reflexivity|]. split; [reflexivity|]. split; [|exact Q].
    split; intros [K|K]; congruence || tauto.
Qed.
Lemma index_quote_None : forall s, index_quote s = None -> no_quote s.
Proof.
  induction s as [|c s IH]; intro H; cbn [index_quote] in H; [split; intros []|].
  destruct (Ascii.eqb c DQ || Ascii.eqb c BQ) eqn:E; [discriminate|].
  destruct (index_quote s); [discriminate|]. destruct (IH eq_refl) as [N1 N2].
  apply orb_false_iff in E as [E1 E2]. apply Ascii.eqb_neq in E1, E2.
  split; intros [K|K]; congruence || tauto.
Qed.

Lemma escaped_cons : forall c b, escaped (c :: b) = Ascii.eqb BSL c && negb (escaped b).
Proof.
  intros c b. unfold escaped. cbn [run_length]. destruct (Ascii.eqb BSL c); [|reflexivity].
  rewrite Nat.odd_succ, <- Nat.negb_odd. reflexivity.
Qed.

Lemma dq_body_app : forall a b, dq_body a -> dq_body b -> dq_body (a ++ b).
Proof. intros a b H. induction H; intro Hb; cbn [app]; [exact Hb|apply dq_char; auto|apply dq_esc; auto]. Qed.

Lemma find_close_bq : forall rest pre,
  match find_close BQ pre rest with
  | Some (q, r) => exists body, q = rev pre ++ body ++ [BQ] /\ ~ In BQ body /\ rest = body ++ BQ :: r
  | None => ~ In BQ rest
  end.
Proof.
  induction rest as [|c rest IH]; intro pre; cbn [find_close]; [intros []|].
  destruct (Ascii.eqb_spec c BQ) as [->|N0].
  - change (Ascii.eqb BQ DQ) with false. cbn [andb]. exists []. cbn [rev app].
    repeat split. intros [].
  - specialize (IH (c :: pre)). destruct (find_close BQ (c :: pre) rest) as [[q r]|].
    + destruct IH as (body & -> & NB & ->). exists (c :: body). cbn [rev app]. rewrite <- app_assoc. cbn [app].
      split; [reflexivity|]. split; [|reflexivity]. intros [K|K]; congruence || tauto.
    + intros [K|K]; congruence || tauto.
Qed.

Lemma find_close_dq : forall rest pre p,
  pre = rev p ++ [DQ] ->
  (dq_body p /\ escaped pre = false) \/ (exists p', p = p' ++ [BSL] /\ dq_body p' /\ escaped pre = true) ->
  forall q r, find_close DQ pre rest = Some (q, r) ->
  exists body, q = DQ :: p ++ body ++ [DQ] /\ rest = body ++ DQ :: r /\ dq_body (p ++ body).
Proof.
  induction rest as [|c rest IH]; intros pre p Eb St q r H; cbn [find_close] in H; [discriminate|].
  assert (Eb2 : c :: pre = rev (p ++ [c]) ++ [DQ]) by (rewrite rev_app_distr, Eb; reflexivity).
  assert (Next : (dq_body (p ++ [c]) /\ escaped (c :: pre) = false) \/
                 (exists p', p ++ [c] = p' ++ [BSL] /\ dq_body p' /\ escaped (c :: pre) = true) ->
                 find_close DQ (c :: pre) rest = Some (q, r) ->
                 exists body, q = DQ :: p ++ body ++ [DQ] /\ c :: rest = body ++ DQ :: r /\ dq_body (p ++ body)).
  { intros St2 H2. destruct (IH _ _ Eb2 St2 _ _ H2) as (body & -> & -> & B).
    exists (c :: body). split; [rewrite <- app_assoc; reflexivity|]. split; [reflexivity|].
    rewrite <- app_assoc in B. exact B. }
  destruct (Ascii.eqb_spec c DQ) as [->|N0].
  - change (Ascii.eqb DQ DQ) with true in H. cbn [andb] in H. destruct (escaped pre) eqn:E.
    + apply Next; [|exact H]. destruct St as [[_ K]|(p' & -> & B & _)]; [discriminate|]. left. split.
      * rewrite <- app_assoc. cbn [app]. apply dq_body_app; [exact B|]. apply dq_esc. apply dq_nil.
      * rewrite escaped_cons. reflexivity.
    + destruct St as [[B _]|(p' & _ & _ & K)]; [|discriminate]. injection H as <- <-.
      exists []. rewrite Eb. cbn [rev app]. rewrite rev_app_distr, rev_involutive, app_nil_r. cbn [rev app].
      repeat split. exact B.
  - apply Next; [|exact H]. rewrite escaped_cons. destruct (Ascii.eqb_spec BSL c) as [<-|N1].
    + destruct St as [[B ->]|(p' & -> & B & ->)].
      * right. exists p. repeat split. exact B.
      * left. split; [|reflexivity]. rewrite <- app_assoc. cbn [app]. apply dq_body_app; [exact B|]. apply dq_esc. apply dq_nil.
    + left. split; [|reflexivity]. destruct St as [[B _]|(p' & -> & B & _)].
      * apply dq_body_app; [exact B|]. constructor; [exact N0|congruence|constructor].
      * rewrite <- app_assoc. cbn [app]. apply dq_body_app; [exact B|]. apply dq_esc. apply dq_nil.
Qed.

Lemma find_close_dq_complete : forall body, dq_body body -> forall pre b, escaped pre = false ->
  find_close DQ pre (body ++ DQ :: b) <> None.
Proof.
  intros body B. induction B as [|c body N1 N2 B IH|c body B IH]; intros pre b E.
  - cbn [app find_close]. change (Ascii.eqb DQ DQ) with true. rewrite E. cbn [andb]. discriminate.
  - cbn [app find_close]. replace (Ascii.eqb c DQ) with false by (symmetry; apply Ascii.eqb_neq; exact N1).
    apply IH. rewrite escaped_cons. replace (Ascii.eqb BSL c) with false; [reflexivity|].
    symmetry. apply Ascii.eqb_neq. congruence.
  - cbn [app find_close]. change (Ascii.eqb BSL DQ) with false. cbv iota.
    assert (E1 : escaped (BSL :: pre) = true) by (rewrite escaped_cons, E; reflexivity).
    assert (E2 : escaped (c :: BSL :: pre) = false) by (rewrite escaped_cons, E1, andb_false_r; reflexivity).
    destruct (Ascii.eqb_spec c DQ) as [->|N0].
    + rewrite E1. change (Ascii.eqb DQ DQ) with true. cbn [andb]. apply IH. exact E2.
    + apply IH. exact E2.
Qed.

Lemma protect_go_spec : forall f s n r a, len s < f -> protect_go f s n = (r, a) ->
  exists heads tail, List.length heads = List.length a /\ Forall no_quote heads /\ Forall literal a /\ open_tail tail /\
    s = interleave heads a ++ tail /\ r = interleave heads (map token (seq n (List.length a))) ++ tail.
Proof.
  induction f as [|f IH]; intros s n r a Hf H; [lia|]. cbn [protect_go] in H.
  destruct (index_quote s) as [pos|] eqn:IQ.
  2:{ injection H as <- <-. exists [], s. split; [reflexivity|]. split; [constructor|]. split; [constructor|].
      split; [left; apply index_quote_None; exact IQ|]. split; reflexivity. }
  apply index_quote_Some in IQ as (h & q & after & Es & Lh & Nh & Q).
  assert (SK : skipn pos s = q :: after) by (rewrite Es, <- Lh; apply skipn_exact).
  assert (FN : firstn pos s = h) by (rewrite Es, <- Lh; apply firstn_exact).
  rewrite SK, FN in H.
  destruct (find_close q [q] after) as [[quoted rest]|] eqn:FC.
  - destruct (protect_go f rest (S n)) as [r' a'] eqn:PG.
    remember (token n) as tk eqn:TK. injection H as <- <-.
    assert (LIT : literal quoted /\ q :: after = quoted ++ rest).
    { destruct Q as [->| ->].
      - destruct (find_close_dq after [DQ] [] eq_refl (or_introl (conj dq_nil eq_refl)) _ _ FC) as (body & -> & -> & B).
        cbn [app] in *. split; [right; exists body; split; [reflexivity|exact B]|].
        rewrite <- app_assoc. reflexivity.
      - pose proof (find_close_bq after [BQ]) as G. rewrite FC in G. destruct G as (body & -> & NB & ->).
        cbn [rev app] in *. split; [left; exists body; split; [reflexivity|exact NB]|].
        rewrite <- app_assoc. reflexivity. }
    destruct LIT as [LIT EQ].
    assert (LQ : 2 <= len quoted).
    { destruct LIT as [(body & -> & _)|(body & -> & _)]; cbn [List.length]; rewrite app_length; cbn [List.length]; lia. }
    destruct (IH rest (S n) r' a') as (heads & tail & L & F & FL & T & E1 & E2); [|exact PG|].
    { rewrite Es, EQ, !app_length in Hf. lia. }
    exists (h :: heads), tail. split; [cbn [List.length]; rewrite L; reflexivity|].
    split; [constructor; assumption|]. split; [constructor; assumption|]. split; [exact T|].
    cbn [interleave List.length seq map]. split.
    + rewrite Es, EQ, E1, <- !app_assoc. reflexivity.
    + rewrite E2, <- TK, <- !app_assoc. reflexivity.
  - injection H as <- <-. exists [], s. split; [reflexivity|]. split; [constructor|]. split; [constructor|].
    split; [|split; reflexivity]. right. exists h, q, after. split; [exact Es|]. split; [exact Nh|].
    destruct Q as [->| ->].
    + right. split; [reflexivity|]. intros body b B ->. exact (find_close_dq_complete body B [DQ] b eq_refl FC).
    + left. split; [reflexivity|]. pose proof (find_close_bq after [BQ]) as G. rewrite FC in G. exact G.
Qed.

Lemma protect_spec : forall s r a, protect s = (r, a) ->
  exists heads tail, List.length heads = List.length a /\ Forall no_quote heads /\ Forall literal a /\ open_tail tail /\
    s = interleave heads a ++ tail /\ r = interleave heads (map token (seq 0 (List.length a))) ++ tail.
Proof. intros s r a H. apply (protect_go_spec (S (len s)) s 0); [lia|exact H]. Qed.

(** Every text with a double quote after something that is no backslash closes an open string. *)
Lemma closes : forall x y z, y <> BSL -> exists body b, dq_body body /\ x ++ y :: DQ :: z = body ++ DQ :: b.
Proof.
  assert (G : forall n x y z, len x <= n -> y <> BSL -> exists body b, dq_body body /\ x ++ y :: DQ :: z = body ++ DQ :: b).
  { induction n as [|n IH]; intros x y z L H.
    - destruct x; [|simpl in L; lia]. cbn [app]. destruct (ascii_dec y DQ) as [->|N0].
      + exists [], (DQ :: z). split; [constructor|reflexivity].
      + exists [y], z. split; [constructor; [exact N0|exact H|constructor]|reflexivity].
    - destruct x as [|c x].
      { apply (IH [] y z); [simpl; lia|exact H]. }
      destruct (ascii_dec c DQ) as [->|N0].
      { exists [], (x ++ y :: DQ :: z). split; [constructor|reflexivity]. }
      destruct (ascii_dec c BSL) as [->|N1].
      + destruct x as [|d x].
        * exists [BSL; y], z. split; [apply dq_esc, dq_nil|reflexivity].
        * destruct (IH x y z) as (body & b & B & E); [simpl in L; lia|exact H|].
          exists (BSL :: d :: body), b. split; [apply dq_esc; exact B|]. cbn [app]. rewrite E. reflexivity.
      + destruct (IH x y z) as (body & b & B & E); [simpl in L; lia|exact H|].
        exists (c :: body), b. split; [apply dq_char; assumption|]. cbn [app]. rewrite E. reflexivity. }
  intros x y z H. exact (G (len x) x y z (Nat.le_refl _) H).
Qed.

Lemma token_end : forall t, looks_like_token t -> exists x y, t = DQ :: x ++ [y; DQ] /\ y <> BSL /\ y <> DQ /\ ~ In BQ t.
Proof.
  intros t (ds & N0 & D & ->).
  destruct (exists_last N0) as (d0 & y & ->). exists (spade ++ d0), y.
  assert (Hy : (48 <= N_of_ascii y <= 57)%N) by (apply D; apply in_or_app; right; left; reflexivity).
  split; [unfold spade; rewrite <- !app_assoc; reflexivity|].
  split; [intros ->; vm_compute in Hy; destruct Hy as [_ K]; apply K; reflexivity|].
  split; [intros ->; vm_compute in Hy; destruct Hy as [K _]; apply K; reflexivity|].
  intros [K|K]; [discriminate|]. apply in_app_or in K as [K|K].
  - destruct K as [K|[K|[K|[]]]]; discriminate.
  - apply in_app_or in K as [K|[K|[]]]; [|discriminate].
    specialize (D BQ K). vm_compute in D. destruct D as [_ D]. apply D. reflexivity.
Qed.

(** A token in the remaining text is behind a backtick. *)
Lemma open_tail_token : forall tail a t b, open_tail tail -> tail = a ++ t ++ b -> looks_like_token t -> In BQ a.
Proof.
  intros tail a t b T E L. destruct (token_end t L) as (x & y & Et & Ny & Nd & NB).
  assert (Dt : In DQ t) by (rewrite Et; left; reflexivity).
  destruct T as [[N1 _]|(h & q & after & E2 & [N1 N2] & C)].
  - exfalso. apply N1. rewrite E. apply in_or_app. right. apply in_or_app. left. exact Dt.
  - rewrite E2 in E.
    (* the token does not start inside h *)
    assert (LH : len h <= len a).
    { destruct (Nat.le_gt_cases (len h) (len a)) as [G|G]; [exact G|exfalso].
      apply N1. assert (NE : nth_error (h ++ q :: after) (len a) = Some DQ).
      { rewrite E, nth_error_app2 by lia. rewrite Nat.sub_diag, Et. reflexivity. }
      rewrite nth_error_app1 in NE by lia. apply nth_error_In in NE. exact NE. }
    assert (EA : a = h ++ skipn (len h) a /\ q :: after = skipn (len h) a ++ t ++ b).
    { assert (A1 : firstn (len h) a = h).
      { apply (f_equal (firstn (len h))) in E. rewrite firstn_exact in E. rewrite firstn_app in E.
        replace (len h - len a) with 0 in E by lia. rewrite firstn_O, app_nil_r in E. symmetry. exact E. }
      split; [rewrite <- A1 at 1; symmetry; apply firstn_skipn|].
      apply (f_equal (skipn (len h))) in E. rewrite skipn_exact in E. rewrite skipn_app in E.
      replace (len h - len a) with 0 in E by lia. exact E. }
    destruct EA as [EA1 EA2]. destruct C as [[-> NQ]|[-> NC]].
    + destruct (skipn (len h) a) as [|k a'] eqn:SK.
      * cbn [app] in EA2. rewrite Et in EA2. discriminate.
      * cbn [app] in EA2. injection EA2 as <- EA2. rewrite EA1. apply in_or_app. right. left. reflexivity.
    + exfalso. destruct (skipn (len h) a) as [|k a'] eqn:SK.
      * cbn [app] in EA2. rewrite Et in EA2. cbn [app] in EA2. injection EA2 as EA2.
        rewrite <- app_assoc in EA2. cbn [app] in EA2.
        destruct (closes x y b Ny) as (body & b' & B & EB). apply (NC body b' B). rewrite EA2. exact EB.
      * cbn [app] in EA2. injection EA2 as _ EA2. rewrite Et in EA2.
        destruct (closes (a' ++ DQ :: x) y b Ny) as (body & b' & B & EB). apply (NC body b' B). rewrite EA2, <- EB.
        cbn [app]. rewrite <- !app_assoc. cbn [app]. reflexivity.
Qed.

Lemma protect_restore : forall s r a, protect s = (r, a) ->
  (forall u t v, s = u ++ t ++ v -> looks_like_token t -> ~ In BQ u) -> restore r a = Ok s.
Proof.
  intros s r a H NT. destruct (protect_spec s r a H) as (heads & tail & L & F & _ & T & E1 & E2).
  unfold restore. rewrite E1, E2. apply (restore_interleave heads a [] tail L F).
  intro arr. apply restore_none. intros u t v E LT.
  apply (NT (interleave heads a ++ u) t v).
  - rewrite E1, E, <- !app_assoc. reflexivity.
  - exact LT.
  - apply in_or_app. right. exact (open_tail_token tail u t v T E LT).
Qed.
