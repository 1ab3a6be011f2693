(** Facts about the conversions between integers and text: strconv.ParseInt, ParseUint, ParseFloat on
    decimal integers, hexadecimal digits, and the int64 range. *)
From Coq Require Import String Ascii List ZArith NArith Bool Lia.
From Coq Require DecimalString.
From Coq Require Import SpecFloat.
From Verif Require Import GoStr GoStrFacts ValueModel TextModel TextProofs3 FloatModel FloatFacts MathModel.
Import ListNotations.
Local Open Scope Z_scope.

Lemma itoa_neg p : itoa (Z.neg p) = "-"%char :: itoa (Z.pos p).
Proof.
  unfold itoa, lit. cbn [Z.to_int]. unfold DecimalString.NilZero.string_of_int. cbn [list_ascii_of_string].
  reflexivity.
Qed.

Lemma itoa_nonneg z : 0 <= z -> exists n, z = Z.of_nat n /\ Forall (fun c => is_digit c = true) (itoa z) /\ itoa z <> [].
Proof.
  intro H. exists (Z.to_nat z). split; [lia|]. rewrite <- (Z2Nat.id z H). apply itoa_digits.
Qed.

Lemma is_digit_val c : is_digit c = true -> digit_val 10 c = Some (Z.of_N (N_of_ascii c - 48)).
Proof.
  intro H. apply is_digit_range in H. unfold digit_val.
  replace (48 <=? Z.of_N (N_of_ascii c)) with true by (symmetry; apply Z.leb_le; lia).
  replace (Z.of_N (N_of_ascii c) <=? 57) with true by (symmetry; apply Z.leb_le; lia).
  cbn [andb]. replace (Z.of_N (N_of_ascii c) - 48 <? 10) with true by (symmetry; apply Z.ltb_lt; lia).
  f_equal. lia.
Qed.

Lemma digits_val_digits : forall s acc, Forall (fun c => is_digit c = true) s ->
  digits_val 10 (Z.of_N acc) s = Some (Z.of_N (fold_left (fun n c => (n * 10 + (N_of_ascii c - 48))%N) s acc)).
Proof.
  induction s as [|c s IH]; intros acc F; [reflexivity|]. inversion F as [|? ? Fc Fs]; subst.
  cbn [digits_val fold_left]. rewrite (is_digit_val c Fc). rewrite <- (IH _ Fs). f_equal. lia.
Qed.

Lemma digits_val_itoa z : 0 <= z -> digits_val 10 0 (itoa z) = Some z.
Proof.
  intro H. destruct (itoa_nonneg z H) as (n & -> & F & _).
  pose proof (digits_val_digits (itoa (Z.of_nat n)) 0 F) as D. cbn [Z.of_N] in D. rewrite D. f_equal.
  fold (digits_value (itoa (Z.of_nat n))). rewrite digits_value_itoa. lia.
Qed.

Lemma parse_uint_itoa z : 0 <= z < 2 ^ 64 -> parse_uint 10 (itoa z) = Ok z.
Proof.
  intros [H1 H2]. unfold parse_uint. destruct (itoa_nonneg z H1) as (n & _ & _ & NE).
  destruct (itoa z) as [|c s] eqn:E; [contradiction|]. rewrite <- E, digits_val_itoa by exact H1.
  replace (z <? 2 ^ 64) with true; [reflexivity|]. symmetry. apply Z.ltb_lt. exact H2.
Qed.

(** The first digit is not a sign. *)
Lemma sign_split_itoa z : 0 <= z -> sign_split (itoa z) = (false, itoa z).
Proof.
  intro H. destruct (itoa_nonneg z H) as (n & _ & F & NE). destruct (itoa z) as [|c s]; [contradiction|].
  inversion F as [|? ? Fc _]; subst. unfold sign_split.
  destruct c as [[] [] [] [] [] [] [] []]; try reflexivity; discriminate.
Qed.

Lemma parse_int_itoa z : in_int64 z = true -> parse_int 10 (itoa z) = Ok z.
Proof.
  intro H. unfold in_int64 in H. apply andb_true_iff in H. destruct H as [H1 H2].
  apply Z.leb_le in H1. apply Z.ltb_lt in H2.
  assert (NE : itoa z <> []).
  { destruct z; [discriminate| |].
    - destruct (itoa_nonneg (Z.pos p) ltac:(lia)) as (n & _ & _ & NE). exact NE.
    - rewrite itoa_neg. discriminate. }
  unfold parse_int. destruct (itoa z) as [|c s] eqn:E; [contradiction|]. rewrite <- E. clear E NE.
  destruct (Z.ltb_spec z 0) as [L|L].
  - destruct z as [|p|p]; try lia. rewrite itoa_neg. cbn [sign_split].
    rewrite parse_uint_itoa by lia. cbn [bind]. replace (Z.pos p <=? 2 ^ 63) with true; [reflexivity|].
    symmetry. apply Z.leb_le. lia.
  - rewrite sign_split_itoa by exact L. rewrite parse_uint_itoa by lia. cbn [bind].
    replace (z <? 2 ^ 63) with true; [reflexivity|]. symmetry. apply Z.ltb_lt. exact H2.
Qed.

(** ** ParseFloat on a decimal integer *)

Lemma read_digits_all s : Forall (fun c => is_digit c = true) s -> read_digits s = (s, []).
Proof.
  induction 1 as [|c s Fc Fs IH]; [reflexivity|]. cbn [read_digits]. rewrite (is_digit_val c Fc), IH. reflexivity.
Qed.

Lemma read_decimal_itoa z : 0 <= z -> forall neg, sign_split (if neg : bool then "-"%char :: itoa z else itoa z) = (neg, itoa z) ->
  read_decimal (if neg then "-"%char :: itoa z else itoa z) = Some (neg, z, 0).
Proof.
  intros H neg S1. unfold read_decimal. rewrite S1. destruct (itoa_nonneg z H) as (n & _ & F & NE).
  rewrite (read_digits_all _ F). rewrite app_nil_r.
  destruct (itoa z) as [|c s] eqn:E; [contradiction|]. rewrite <- E. cbn [read_exponent].
  unfold nat_of_digits. rewrite digits_val_itoa by exact H. reflexivity.
Qed.

Lemma dec_float_int neg p : dec_float neg (Z.pos p) 0 = binary_round fprec femax neg p 0.
Proof.
  unfold dec_float. change (310 <? 0) with false. change (0 <=? 0) with true.
  replace (Z.log2 (Z.pos p) + 3 * 0 <? -2000) with false.
  - rewrite Z.pow_0_r, Z.mul_1_r. reflexivity.
  - symmetry. apply Z.ltb_ge. pose proof (Z.log2_nonneg (Z.pos p)). lia.
Qed.

Lemma parse_float_itoa o z : small z -> parse_float o (itoa z) = Ok (of_int z).
Proof.
  intro R. unfold parse_float. destruct z as [|p|p].
  - reflexivity.
  - rewrite (read_decimal_itoa (Z.pos p) ltac:(lia) false) by (apply sign_split_itoa; lia).
    rewrite dec_float_int. change (binary_round fprec femax false p 0) with (of_int (Z.pos p)).
    destruct (of_int_spec _ R) as [V _]. destruct (of_int (Z.pos p)); try reflexivity. contradiction.
  - rewrite itoa_neg. rewrite (read_decimal_itoa (Z.pos p) ltac:(lia) true) by reflexivity.
    rewrite dec_float_int. change (binary_round fprec femax true p 0) with (of_int (Z.neg p)).
    destruct (of_int_spec _ R) as [V _]. destruct (of_int (Z.neg p)); try reflexivity. contradiction.
Qed.

(** ** The int64 range *)

Lemma in_int64_iff z : in_int64 z = true <-> - 2 ^ 63 <= z < 2 ^ 63.
Proof. unfold in_int64. rewrite andb_true_iff, Z.leb_le, Z.ltb_lt. tauto. Qed.

Lemma small_int64 z : small z -> in_int64 z = true.
Proof. intros [H1 H2]. apply in_int64_iff. lia. Qed.

Lemma int64_shiftr z : in_int64 z = true <-> Z.shiftr z 63 = 0 \/ Z.shiftr z 63 = - 1.
Proof.
  rewrite in_int64_iff, Z.shiftr_div_pow2 by lia. split.
  - intro H. destruct (Z.ltb_spec z 0).
    + right. symmetry. apply (Z.div_unique _ _ (-1) (z + 2 ^ 63)); lia.
    + left. apply Z.div_small. lia.
  - intros [H|H].
    + pose proof (Z.div_mod z (2 ^ 63) ltac:(lia)). pose proof (Z.mod_pos_bound z (2 ^ 63) ltac:(lia)). lia.
    + pose proof (Z.div_mod z (2 ^ 63) ltac:(lia)). pose proof (Z.mod_pos_bound z (2 ^ 63) ltac:(lia)). lia.
Qed.

Lemma int64_lor a b : in_int64 a = true -> in_int64 b = true -> in_int64 (Z.lor a b) = true.
Proof.
  rewrite !int64_shiftr, Z.shiftr_lor. intros [->| ->] [->| ->]; auto.
Qed.
Lemma int64_land a b : in_int64 a = true -> in_int64 b = true -> in_int64 (Z.land a b) = true.
Proof.
  rewrite !int64_shiftr, Z.shiftr_land. intros [->| ->] [->| ->]; auto.
Qed.
Lemma int64_lxor a b : in_int64 a = true -> in_int64 b = true -> in_int64 (Z.lxor a b) = true.
Proof.
  rewrite !int64_shiftr, Z.shiftr_lxor. intros [->| ->] [->| ->]; auto.
Qed.
Lemma int64_ldiff a b : in_int64 a = true -> in_int64 b = true -> in_int64 (Z.ldiff a b) = true.
Proof.
  rewrite !int64_shiftr, Z.shiftr_ldiff. intros [->| ->] [->| ->]; auto.
Qed.

Lemma wrap64_range z : in_int64 (wrap64 z) = true.
Proof. apply in_int64_iff. unfold wrap64. pose proof (Z.mod_pos_bound (z + 2 ^ 63) (2 ^ 64) ltac:(lia)). lia. Qed.

Lemma wrap64_mod z : exists k, wrap64 z = z + k * 2 ^ 64.
Proof.
  exists (- ((z + 2 ^ 63) / 2 ^ 64)). unfold wrap64. rewrite Z.mod_eq by lia. ring.
Qed.

Lemma wrap64_id z : in_int64 z = true -> wrap64 z = z.
Proof. intro H. apply in_int64_iff in H. unfold wrap64. rewrite Z.mod_small; lia. Qed.

(** ** Hexadecimal *)

Lemma hex_digit_val d : 0 <= d < 16 -> digit_val 16 (hex_digit d) = Some d.
Proof.
  intro H. assert (C : d = 0 \/ d = 1 \/ d = 2 \/ d = 3 \/ d = 4 \/ d = 5 \/ d = 6 \/ d = 7 \/ d = 8 \/ d = 9 \/ d = 10 \/
    d = 11 \/ d = 12 \/ d = 13 \/ d = 14 \/ d = 15) by lia.
  repeat (destruct C as [->|C]; [reflexivity|]). subst d. reflexivity.
Qed.

Lemma digits_val_app b s1 s2 acc :
  digits_val b acc (s1 ++ s2) = match digits_val b acc s1 with Some n => digits_val b n s2 | None => None end.
Proof.
  revert acc. induction s1 as [|c s1 IH]; intro acc; [reflexivity|]. cbn [app digits_val].
  destruct (digit_val b c); [apply IH|reflexivity].
Qed.

Lemma hex_fuel_val : forall f n, 0 <= n < 16 ^ Z.of_nat f -> digits_val 16 0 (hex_fuel f n) = Some n.
Proof.
  induction f as [|f IH]; intros n H.
  - replace (16 ^ Z.of_nat 0) with 1 in H by reflexivity. cbn. f_equal. lia.
  - cbn [hex_fuel]. rewrite digits_val_app. destruct (Z.ltb_spec n 16).
    + cbn [digits_val]. rewrite Z.mod_small by lia. rewrite hex_digit_val by lia. reflexivity.
    + rewrite IH.
      * cbn [digits_val]. rewrite hex_digit_val by (apply Z.mod_pos_bound; lia). f_equal.
        pose proof (Z.div_mod n 16). lia.
      * split; [apply Z.div_pos; lia|]. apply Z.div_lt_upper_bound; [lia|].
        rewrite Nat2Z.inj_succ, Z.pow_succ_r in H by lia. lia.
Qed.

Lemma log2_hex n : 0 <= n -> n < 16 ^ Z.of_nat (S (Z.to_nat (Z.log2 n))).
Proof.
  intro H. destruct (Z.eq_dec n 0) as [->|N]; [reflexivity|].
  pose proof (Z.log2_spec n ltac:(lia)) as [_ L]. pose proof (Z.log2_nonneg n).
  rewrite Nat2Z.inj_succ, Z2Nat.id by lia. eapply Z.lt_le_trans; [exact L|].
  apply Z.pow_le_mono_l. lia.
Qed.

Lemma hex_upper_val n : 0 <= n -> digits_val 16 0 (hex_upper n) = Some n.
Proof. intro H. apply hex_fuel_val. split; [exact H|]. apply log2_hex. exact H. Qed.

Lemma hex_upper_nonempty n : hex_upper n <> [].
Proof. unfold hex_upper. cbn [hex_fuel]. destruct (n <? 16); [discriminate|]. intro H. apply app_eq_nil in H. destruct H; discriminate. Qed.

(** The upper case hexadecimal digits. *)
Definition is_hex_upper (c : ascii) : Prop := (48 <= N_of_ascii c <= 57 \/ 65 <= N_of_ascii c <= 70)%N.

Lemma hex_digit_inv c : is_hex_upper c -> exists d, 0 <= d < 16 /\ digit_val 16 c = Some d /\ hex_digit d = c.
Proof.
  intro H. destruct c as [[] [] [] [] [] [] [] []]; cbv in H; try (exfalso; tauto);
    (eexists; split; [|split; [reflexivity|reflexivity]]; vm_compute; split; congruence).
Qed.

(** Fuel does not matter. *)
Lemma hex_fuel_enough : forall f g n, 0 <= n < 16 ^ Z.of_nat f -> 0 <= n < 16 ^ Z.of_nat g -> (0 < f)%nat -> (0 < g)%nat ->
  hex_fuel f n = hex_fuel g n.
Proof.
  induction f as [|f IH]; intros g n Hf Hg F G; [lia|]. destruct g as [|g]; [lia|]. cbn [hex_fuel].
  f_equal. destruct (Z.ltb_spec n 16); [reflexivity|].
  rewrite Nat2Z.inj_succ, Z.pow_succ_r in Hf, Hg by lia.
  assert (f <> O) by (intros ->; cbn in Hf; lia). assert (g <> O) by (intros ->; cbn in Hg; lia).
  apply IH; try lia; (split; [apply Z.div_pos; lia|apply Z.div_lt_upper_bound; lia]).
Qed.

Lemma hex_upper_step n d : 0 < n -> 0 <= d < 16 -> hex_upper (n * 16 + d) = hex_upper n ++ [hex_digit d].
Proof.
  intros Hn Hd.
  assert (L : 0 <= n * 16 + d < 16 ^ Z.of_nat (S (S (Z.to_nat (Z.log2 n))))).
  { pose proof (log2_hex n ltac:(lia)) as L. rewrite Nat2Z.inj_succ, Z.pow_succ_r by lia. lia. }
  unfold hex_upper at 1. rewrite (hex_fuel_enough _ (S (S (Z.to_nat (Z.log2 n))))); try lia.
  - cbn [hex_fuel]. replace (n * 16 + d <? 16) with false by (symmetry; apply Z.ltb_ge; lia).
    replace ((n * 16 + d) / 16) with n by (rewrite Z.div_add_l, Z.div_small by lia; lia).
    replace ((n * 16 + d) mod 16) with d by (rewrite Z.add_comm, Z.mod_add, Z.mod_small by lia; lia).
    reflexivity.
  - split; [lia|]. apply log2_hex. lia.
Qed.

Lemma hex_upper_digit d : 0 <= d < 16 -> hex_upper d = [hex_digit d].
Proof.
  intro H. unfold hex_upper. cbn [hex_fuel]. replace (d <? 16) with true by (symmetry; apply Z.ltb_lt; lia).
  rewrite Z.mod_small by lia. reflexivity.
Qed.

(** A digit string without leading zero is the hexadecimal text of its value. *)
Lemma hex_canonical : forall s, Forall is_hex_upper s -> s <> [] -> (hd "0"%char s <> "0"%char) ->
  exists n, digits_val 16 0 s = Some n /\ 0 < n /\ hex_upper n = s.
Proof.
  induction s as [|c s IH] using rev_ind; intros F NE HD; [contradiction|].
  apply Forall_app in F. destruct F as [F Fc]. inversion Fc as [|? ? Hc _]; subst.
  destruct (hex_digit_inv c Hc) as (d & Hd & V & X).
  destruct s as [|c0 s0] eqn:Es.
  - cbn [app] in *. exists d. cbn [digits_val]. rewrite V. split; [f_equal; lia|].
    assert (d <> 0). { intros ->. apply HD. cbn [hd]. rewrite <- X. reflexivity. }
    split; [lia|]. rewrite hex_upper_digit by lia. rewrite X. reflexivity.
  - destruct (IH F) as (n & V1 & P & U); [discriminate|exact HD|].
    exists (n * 16 + d). rewrite digits_val_app, V1. cbn [digits_val]. rewrite V.
    split; [reflexivity|]. split; [lia|]. rewrite hex_upper_step by lia. rewrite U, X. reflexivity.
Qed.

(** Upper case hexadecimal digits are no signs. *)
Lemma hex_fuel_first f n : 0 <= n -> Forall is_hex_upper (hex_fuel f n).
Proof.
  revert n. induction f as [|f IH]; intros n H; [constructor|]. cbn [hex_fuel]. apply Forall_app. split.
  - destruct (n <? 16); [constructor|]. apply IH. apply Z.div_pos; lia.
  - constructor; [|constructor]. pose proof (Z.mod_pos_bound n 16 ltac:(lia)) as B. remember (n mod 16) as d eqn:Ed. clear Ed.
    assert (C : d = 0 \/ d = 1 \/ d = 2 \/ d = 3 \/ d = 4 \/ d = 5 \/ d = 6 \/ d = 7 \/ d = 8 \/ d = 9 \/ d = 10 \/
      d = 11 \/ d = 12 \/ d = 13 \/ d = 14 \/ d = 15) by lia.
    repeat (destruct C as [->|C]; [unfold is_hex_upper; cbn; lia|]). subst d. unfold is_hex_upper; cbn; lia.
Qed.

Lemma sign_split_hex s : Forall is_hex_upper s -> sign_split s = (false, s).
Proof.
  intro F. destruct s as [|c s]; [reflexivity|]. inversion F as [|? ? Fc _]; subst. unfold sign_split.
  destruct c as [[] [] [] [] [] [] [] []]; try reflexivity; cbv in Fc; exfalso; tauto.
Qed.
