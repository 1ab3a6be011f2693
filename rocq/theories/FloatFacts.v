(** Facts about the float operations of FloatModel: when the exact result is representable, the
    operation returns it. *)
From Coq Require Import String Ascii List ZArith NArith Bool Lia Zquot.
From Coq Require Import SpecFloat.
From Verif Require Import GoStr FloatModel.
Import ListNotations.
Local Open Scope Z_scope.

(** ** Digits and powers of two *)

Lemma digits2_log2 p : Z.pos (digits2_pos p) = Z.log2 (Z.pos p) + 1.
Proof.
  induction p as [p IH|p IH|]; cbn [digits2_pos].
  - rewrite Pos2Z.inj_succ, IH. change (Z.pos p~1) with (2 * Z.pos p + 1).
    rewrite Z.log2_succ_double by lia. lia.
  - rewrite Pos2Z.inj_succ, IH. change (Z.pos p~0) with (2 * Z.pos p).
    rewrite Z.log2_double by lia. lia.
  - reflexivity.
Qed.

Lemma shift_pos_z d m : Z.pos (shift_pos d m) = Z.pos m * 2 ^ Z.pos d.
Proof. rewrite shift_pos_correct. rewrite Z.pow_pos_fold. lia. Qed.

Lemma log2_mul_pow p k : 0 <= k -> Z.log2 (Z.pos p * 2 ^ k) = Z.log2 (Z.pos p) + k.
Proof. intro H. rewrite Z.log2_mul_pow2 by lia. lia. Qed.

Lemma iter_shr p : forall m, 0 < m ->
  iter_pos shr_1 p (Build_shr_record (m * 2 ^ Z.pos p) false false) = Build_shr_record m false false.
Proof.
  induction p as [p IH|p IH|]; intros m Hm; cbn [iter_pos].
  - assert (E : shr_1 {| shr_m := m * 2 ^ Z.pos p~1; shr_r := false; shr_s := false |} =
                {| shr_m := m * 2 ^ Z.pos p * 2 ^ Z.pos p; shr_r := false; shr_s := false |}).
    { assert (P : 0 < m * 2 ^ Z.pos p * 2 ^ Z.pos p) by (repeat apply Z.mul_pos_pos; lia).
      replace (m * 2 ^ Z.pos p~1) with (2 * (m * 2 ^ Z.pos p * 2 ^ Z.pos p)).
      - destruct (m * 2 ^ Z.pos p * 2 ^ Z.pos p); try lia. reflexivity.
      - rewrite (Pos2Z.inj_xI p), Z.pow_add_r, Z.pow_1_r by lia.
        replace (2 * Z.pos p) with (Z.pos p + Z.pos p) by lia. rewrite Z.pow_add_r by lia. ring. }
    rewrite E, IH by (apply Z.mul_pos_pos; lia). apply IH. exact Hm.
  - replace (m * 2 ^ Z.pos p~0) with (m * 2 ^ Z.pos p * 2 ^ Z.pos p).
    + rewrite IH by (apply Z.mul_pos_pos; lia). apply IH. exact Hm.
    + rewrite (Pos2Z.inj_xO p). replace (2 * Z.pos p) with (Z.pos p + Z.pos p) by lia.
      rewrite Z.pow_add_r by lia. ring.
  - replace (m * 2 ^ 1) with (2 * m) by ring. destruct m; try lia. reflexivity.
Qed.

(** ** Exact results *)

(** The canonical representations, m < 2^53 with 53 bits unless the exponent is the least one. *)
Definition canon (m : positive) (e : Z) : Prop :=
  Z.max (Z.log2 (Z.pos m) + 1 + e - 53) (- 1074) = e /\ e <= 971.

Lemma canon_min m e : canon m e -> - 1074 <= e.
Proof. intros [H _]. lia. Qed.

Lemma fexp_digits m e : fexp fprec femax (Z.pos (digits2_pos m) + e) = Z.max (Z.log2 (Z.pos m) + 1 + e - 53) (- 1074).
Proof. rewrite digits2_log2. reflexivity. Qed.

(** Rounding m * 2^e when it is exactly M * 2^E with E >= e. *)
Lemma round_aux_exact s M E k : canon M E -> 0 <= k ->
  binary_round_aux fprec femax s (Z.pos M * 2 ^ k) (E - k) loc_Exact = S754_finite s M E.
Proof.
  intros [C B] K.
  assert (P : 0 < Z.pos M * 2 ^ k) by (apply Z.mul_pos_pos; lia).
  assert (F : shr_fexp fprec femax (Z.pos M * 2 ^ k) (E - k) loc_Exact = (Build_shr_record (Z.pos M) false false, E)).
  { unfold shr_fexp, shr_record_of_loc.
    assert (D : Zdigits2 (Z.pos M * 2 ^ k) = Z.log2 (Z.pos M) + k + 1).
    { destruct (Z.pos M * 2 ^ k) eqn:EQ; try lia. cbn [Zdigits2]. rewrite digits2_log2, <- EQ, log2_mul_pow; lia. }
    rewrite D. unfold fexp, emin, fprec, femax.
    replace (Z.max (Z.log2 (Z.pos M) + k + 1 + (E - k) - 53) (3 - 1024 - 53) - (E - k)) with k by lia.
    destruct k as [|k|k]; try lia.
    - cbn [shr]. f_equal; [|lia]. f_equal. lia.
    - cbn [shr]. rewrite iter_shr by lia. f_equal. lia. }
  unfold binary_round_aux. rewrite F. cbn [shr_m loc_of_shr_record round_nearest_even].
  assert (F2 : shr_fexp fprec femax (Z.pos M) E loc_Exact = (Build_shr_record (Z.pos M) false false, E)).
  { unfold shr_fexp, shr_record_of_loc. cbn [Zdigits2]. rewrite fexp_digits, C.
    replace (E - E) with 0 by lia. reflexivity. }
  rewrite F2. cbn [shr_m]. replace (E <=? femax - fprec) with true; [reflexivity|].
  symmetry. apply Z.leb_le. unfold femax, fprec. lia.
Qed.

(** Value scaled by 2^1074, an integer for all floats. *)
Definition mval (m : positive) (e : Z) : Z := Z.pos m * 2 ^ (e + 1074).

Lemma mval_pos m e : - 1074 <= e -> 0 < mval m e.
Proof. intro H. unfold mval. apply Z.mul_pos_pos; [lia|]. apply Z.pow_pos_nonneg; lia. Qed.

Lemma mval_log2 m e : - 1074 <= e -> Z.log2 (mval m e) = Z.log2 (Z.pos m) + e + 1074.
Proof. intro H. unfold mval. rewrite log2_mul_pow by lia. lia. Qed.

Lemma mval_shift m e M E : - 1074 <= e -> e <= E -> mval m e = mval M E -> Z.pos m = Z.pos M * 2 ^ (E - e).
Proof.
  intros H1 H2 H. unfold mval in H. replace (E + 1074) with ((E - e) + (e + 1074)) in H by lia.
  rewrite (Z.pow_add_r 2 (E - e)), Z.mul_assoc in H by lia. apply Z.mul_cancel_r in H; [exact H|].
  apply Z.pow_nonzero; lia.
Qed.

Lemma canon_unique m e M E : canon m e -> canon M E -> mval m e = mval M E -> m = M /\ e = E.
Proof.
  intros C1 C2 H. pose proof (canon_min _ _ C1). pose proof (canon_min _ _ C2).
  assert (L : Z.log2 (Z.pos m) + e = Z.log2 (Z.pos M) + E).
  { assert (A1 := mval_log2 m e ltac:(lia)). assert (A2 := mval_log2 M E ltac:(lia)). rewrite H in A1. lia. }
  destruct C1 as [C1 _], C2 as [C2 _]. assert (e = E) by lia. subst E. split; [|reflexivity].
  apply mval_shift in H; try lia. replace (e - e) with 0 in H by lia. lia.
Qed.

Lemma binary_round_exact s m e M E : - 1074 <= e -> canon M E -> mval m e = mval M E ->
  binary_round fprec femax s m e = S754_finite s M E.
Proof.
  intros H0 C H. pose proof (canon_min _ _ C).
  assert (L : Z.log2 (Z.pos m) + e = Z.log2 (Z.pos M) + E).
  { assert (A1 := mval_log2 m e ltac:(lia)). assert (A2 := mval_log2 M E ltac:(lia)). rewrite H in A1. lia. }
  assert (FE : fexp fprec femax (Z.pos (digits2_pos m) + e) = E).
  { rewrite fexp_digits. destruct C as [C _]. lia. }
  unfold binary_round. rewrite FE. unfold shl_align.
  destruct (E - e) as [|d|d] eqn:D.
  - assert (e = E) by lia. subst e. apply mval_shift in H; try lia. replace (E - E) with 0 in H by lia.
    pose proof (round_aux_exact s M E 0 C) as R. replace (E - 0) with E in R by lia.
    rewrite <- R by lia. f_equal. lia.
  - apply mval_shift in H; try lia. rewrite H. replace e with (E - (E - e)) at 2 by lia. apply round_aux_exact; [exact C|lia].
  - symmetry in H. apply mval_shift in H; try lia. rewrite shift_pos_z. replace (Z.pos d) with (e - E) by lia. rewrite <- H.
    pose proof (round_aux_exact s M E 0 C) as R. replace (E - 0) with E in R by lia.
    rewrite <- R by lia. f_equal. lia.
Qed.

(** ** Floats as scaled integers *)

Definition sval (f : spec_float) : Z :=
  match f with
  | S754_finite s m e => cond_Zopp s (mval m e)
  | _ => 0
  end.
Definition valid (f : spec_float) : Prop :=
  match f with S754_finite _ m e => canon m e | S754_zero _ => True | _ => False end.

Lemma sval_sign (s : bool) m e : canon m e -> (if s then sval (S754_finite s m e) < 0 else 0 < sval (S754_finite s m e)).
Proof. intro C. pose proof (mval_pos m e (canon_min _ _ C)). destruct s; cbn [sval cond_Zopp]; lia. Qed.

(** A valid float is determined by its value, up to the sign of zero. *)
Lemma sval_inj f g : valid f -> valid g -> sval f = sval g -> sval f <> 0 -> f = g.
Proof.
  intros Vf Vg H N. destruct f as [sf| | |sf mf ef], g as [sg| | |sg mg eg]; cbn [valid] in *; try contradiction;
    try (cbn [sval] in *; congruence).
  assert (S1 := sval_sign sf mf ef Vf). assert (S2 := sval_sign sg mg eg Vg).
  assert (sf = sg) by (destruct sf, sg; try reflexivity; rewrite H in S1; lia). subst sg.
  assert (M : mval mf ef = mval mg eg) by (destruct sf; cbn [sval cond_Zopp] in H; lia).
  destruct (canon_unique _ _ _ _ Vf Vg M). subst. reflexivity.
Qed.

Lemma sval_zero f : valid f -> sval f = 0 -> exists s, f = S754_zero s.
Proof.
  intros V H. destruct f as [s| | |s m e]; cbn [valid] in V; try contradiction; [exists s; reflexivity|].
  assert (S1 := sval_sign s m e V). rewrite H in S1. destruct s; lia.
Qed.

Lemma normalize_exact v e sz f : - 1074 <= e -> valid f -> v * 2 ^ (e + 1074) = sval f -> v <> 0 ->
  binary_normalize fprec femax v e sz = f.
Proof.
  intros He V H N.
  assert (P : 0 < 2 ^ (e + 1074)) by (apply Z.pow_pos_nonneg; lia).
  assert (NZ : sval f <> 0) by (rewrite <- H; apply Z.neq_mul_0; lia).
  destruct f as [s| | |s M E]; cbn [valid] in V; try contradiction.
  assert (S1 := sval_sign s M E V). rewrite <- H in S1.
  destruct v as [|p|p]; [lia| |]; cbn [binary_normalize].
  - destruct s; [nia|]. apply binary_round_exact; [exact He|exact V|]. cbn [sval cond_Zopp] in H. exact H.
  - destruct s; [|nia]. apply binary_round_exact; [exact He|exact V|]. cbn [sval cond_Zopp] in H. unfold mval in *. lia.
Qed.

Lemma align_val m e e0 : e0 <= e -> Z.pos (fst (shl_align m e e0)) = Z.pos m * 2 ^ (e - e0).
Proof.
  intro H. unfold shl_align. destruct (e0 - e) as [|d|d] eqn:D; cbn [fst].
  - replace (e - e0) with 0 by lia. lia.
  - lia.
  - rewrite shift_pos_z. f_equal. f_equal. lia.
Qed.

Lemma align_sval s m e e0 : - 1074 <= e0 -> e0 <= e ->
  cond_Zopp s (Z.pos (fst (shl_align m e e0))) * 2 ^ (e0 + 1074) = sval (S754_finite s m e).
Proof.
  intros H0 H. rewrite align_val by exact H. cbn [sval]. unfold mval.
  replace (e + 1074) with ((e - e0) + (e0 + 1074)) by lia. rewrite (Z.pow_add_r 2 (e - e0)) by lia.
  destruct s; cbn [cond_Zopp]; ring.
Qed.

(** Addition and subtraction of valid floats whose exact result f is representable. *)
Lemma fadd_exact x y f : valid x -> valid y -> valid f -> sval x + sval y = sval f -> sval f <> 0 -> fadd x y = f.
Proof.
  intros Vx Vy Vf H N.
  destruct x as [sx| | |sx mx ex], y as [sy| | |sy my ey]; cbn [valid] in Vx, Vy; try contradiction.
  - cbn [sval] in H. lia.
  - cbn [fadd SFadd]. apply sval_inj; try assumption; cbn [sval] in *; lia.
  - cbn [fadd SFadd]. apply sval_inj; try assumption; cbn [sval] in *; lia.
  - unfold fadd. cbn [SFadd]. pose proof (canon_min _ _ Vx). pose proof (canon_min _ _ Vy).
    assert (Q : (cond_Zopp sx (Z.pos (fst (shl_align mx ex (Z.min ex ey)))) +
                 cond_Zopp sy (Z.pos (fst (shl_align my ey (Z.min ex ey))))) * 2 ^ (Z.min ex ey + 1074) = sval f).
    { rewrite Z.mul_add_distr_r, !align_sval by lia. exact H. }
    apply normalize_exact; [lia|exact Vf|exact Q|]. intro Z0. rewrite Z0 in Q. lia.
Qed.

Lemma fadd_cancel x y : valid x -> valid y -> sval x + sval y = 0 -> exists s, fadd x y = S754_zero s.
Proof.
  intros Vx Vy H.
  destruct x as [sx| | |sx mx ex], y as [sy| | |sy my ey]; cbn [valid] in Vx, Vy; try contradiction.
  - destruct sx, sy; cbn; eauto.
  - assert (S1 := sval_sign sy my ey Vy). cbn [sval] in H, S1. destruct sy; lia.
  - assert (S1 := sval_sign sx mx ex Vx). cbn [sval] in H, S1. destruct sx; lia.
  - unfold fadd. cbn [SFadd]. pose proof (canon_min _ _ Vx). pose proof (canon_min _ _ Vy).
    assert (Q : (cond_Zopp sx (Z.pos (fst (shl_align mx ex (Z.min ex ey)))) +
                 cond_Zopp sy (Z.pos (fst (shl_align my ey (Z.min ex ey))))) * 2 ^ (Z.min ex ey + 1074) = 0).
    { rewrite Z.mul_add_distr_r, !align_sval by lia. exact H. }
    apply Z.eq_mul_0 in Q. destruct Q as [Q|Q].
    + rewrite Q. exists false. reflexivity.
    + assert (0 < 2 ^ (Z.min ex ey + 1074)) by (apply Z.pow_pos_nonneg; lia). lia.
Qed.

Lemma fsub_add x y : valid x -> valid y -> fsub x y = fadd x (SFopp y) \/ (exists s s', fsub x y = S754_zero s /\ fadd x (SFopp y) = S754_zero s').
Proof.
  intros Vx Vy.
  destruct x as [sx| | |sx mx ex], y as [sy| | |sy my ey]; cbn [valid] in Vx, Vy; try contradiction; try (left; reflexivity).
  left. unfold fsub, fadd. cbn [SFsub SFadd SFopp]. f_equal. destruct sx, sy; cbn [cond_Zopp negb]; lia.
Qed.

Lemma sval_opp f : sval (SFopp f) = - sval f.
Proof. destruct f as [s| | |s m e]; cbn [sval SFopp]; try reflexivity. destruct s; cbn [negb cond_Zopp]; lia. Qed.
Lemma valid_opp f : valid f -> valid (SFopp f).
Proof. destruct f; cbn [valid SFopp]; auto. Qed.

Lemma fsub_exact x y f : valid x -> valid y -> valid f -> sval x - sval y = sval f -> sval f <> 0 -> fsub x y = f.
Proof.
  intros Vx Vy Vf H N. assert (A : fadd x (SFopp y) = f).
  { apply fadd_exact; try assumption; [apply valid_opp; assumption|]. rewrite sval_opp. lia. }
  destruct (fsub_add x y Vx Vy) as [E|(s & s' & E1 & E2)]; [congruence|].
  rewrite E2 in A. subst f. cbn [sval] in N. lia.
Qed.
Lemma fsub_cancel x y : valid x -> valid y -> sval x - sval y = 0 -> exists s, fsub x y = S754_zero s.
Proof.
  intros Vx Vy H. assert (A : exists s, fadd x (SFopp y) = S754_zero s).
  { apply fadd_cancel; try assumption; [apply valid_opp; assumption|]. rewrite sval_opp. lia. }
  destruct (fsub_add x y Vx Vy) as [E|(s & s' & E1 & E2)]; [rewrite E; exact A|]. exists s. exact E1.
Qed.

(** Multiplication: the product of the scaled values carries 2^1074 twice. *)
Lemma fmul_exact sx mx ex sy my ey M E : canon mx ex -> canon my ey -> canon M E -> ex + ey <= E ->
  Z.pos mx * Z.pos my = Z.pos M * 2 ^ (E - (ex + ey)) ->
  fmul (S754_finite sx mx ex) (S754_finite sy my ey) = S754_finite (xorb sx sy) M E.
Proof.
  intros Cx Cy C L H. unfold fmul. cbn [SFmul]. rewrite Pos2Z.inj_mul, H.
  replace (ex + ey) with (E - (E - (ex + ey))) at 2 by lia. apply round_aux_exact; [exact C|lia].
Qed.

(** Division when the quotient is representable. *)
Lemma fdiv_exact sx mx ex sy my ey M E : canon mx ex -> canon my ey -> canon M E ->
  Z.pos mx * 2 ^ (ex + 3000) = Z.pos M * Z.pos my * 2 ^ (E + ey + 3000) ->
  fdiv (S754_finite sx mx ex) (S754_finite sy my ey) = S754_finite (xorb sx sy) M E.
Proof.
  intros Cx Cy C H. unfold fdiv. cbn [SFdiv]. unfold SFdiv_core_binary. cbn [Zdigits2].
  pose proof (canon_min _ _ Cx). pose proof (canon_min _ _ Cy). pose proof (canon_min _ _ C).
  set (e' := Z.min (fexp fprec femax (Z.pos (digits2_pos mx) + ex - (Z.pos (digits2_pos my) + ey))) (ex - ey)).
  assert (LG : Z.log2 (Z.pos M) + Z.log2 (Z.pos my) + E + ey <= Z.log2 (Z.pos mx) + ex <= Z.log2 (Z.pos M) + Z.log2 (Z.pos my) + E + ey + 1).
  { pose proof (log2_mul_pow mx (ex + 3000)). pose proof (log2_mul_pow (M * my) (E + ey + 3000)) as L2.
    rewrite Pos2Z.inj_mul in L2. rewrite <- H in L2.
    pose proof (Z.log2_mul_above (Z.pos M) (Z.pos my)). pose proof (Z.log2_mul_below (Z.pos M) (Z.pos my)). lia. }
  assert (EE : e' <= E).
  { unfold e', fexp, emin, fprec, femax. rewrite !digits2_log2. destruct C as [C _]. lia. }
  assert (S0 : 0 <= ex - ey - e') by (unfold e'; lia).
  assert (Q : Z.pos mx * 2 ^ (ex - ey - e') = Z.pos my * (Z.pos M * 2 ^ (E - e'))).
  { assert (P : 0 < 2 ^ (ey + e' + 5000)).
    { apply Z.pow_pos_nonneg; [lia|]. unfold e', fexp, emin, fprec, femax. pose proof (proj2 Cx). pose proof (proj2 Cy). lia. }
    apply (Z.mul_reg_r _ _ (2 ^ (ey + e' + 5000))); [lia|].
    assert (0 <= ey + e' + 5000) by (unfold e', fexp, emin, fprec, femax; pose proof (proj2 Cx); pose proof (proj2 Cy); lia).
    rewrite <- !Z.mul_assoc, <- !Z.pow_add_r by lia.
    replace (ex - ey - e' + (ey + e' + 5000)) with ((ex + 3000) + 2000) by lia.
    replace (E - e' + (ey + e' + 5000)) with ((E + ey + 3000) + 2000) by lia.
    rewrite (Z.pow_add_r 2 (ex + 3000)), (Z.pow_add_r 2 (E + ey + 3000)) by lia. rewrite (Z.mul_assoc (Z.pos mx)), H. ring. }
  assert (MM : match ex - ey - e' with
               | Z0 => Z.pos mx
               | Z.pos _ => Z.shiftl (Z.pos mx) (ex - ey - e')
               | Z.neg _ => 0
               end = Z.pos my * (Z.pos M * 2 ^ (E - e'))).
  { rewrite <- Q. destruct (ex - ey - e') eqn:D; [lia| |lia]. rewrite Z.shiftl_mul_pow2 by lia. reflexivity. }
  rewrite MM.
  assert (DE : Z.div_eucl (Z.pos my * (Z.pos M * 2 ^ (E - e'))) (Z.pos my) = (Z.pos M * 2 ^ (E - e'), 0)).
  { pose proof (Z.div_mul (Z.pos M * 2 ^ (E - e')) (Z.pos my)) as D1. pose proof (Z.mod_mul (Z.pos M * 2 ^ (E - e')) (Z.pos my)) as D2.
    unfold Z.div, Z.modulo in D1, D2. rewrite (Z.mul_comm (Z.pos my)). destruct (Z.div_eucl _ _) as [q r]. rewrite D1, D2 by lia. reflexivity. }
  assert (NL : new_location (Z.pos my) 0 = loc_Exact).
  { unfold new_location. destruct (Z.even (Z.pos my)); reflexivity. }
  rewrite DE, NL.
  replace e' with (E - (E - e')) at 2 by lia. apply round_aux_exact; [exact C|lia].
Qed.

(** ** Integers of magnitude at most 2^53 *)

Definition small (z : Z) : Prop := - 2 ^ 53 <= z <= 2 ^ 53.

Lemma canon_of_pos p : Z.pos p <= 2 ^ 53 -> exists m e, canon m e /\ mval m e = Z.pos p * 2 ^ 1074 /\ - 52 <= e <= 1 /\ Z.log2 (Z.pos p) - 52 = e.
Proof.
  intro H. pose proof (Z.log2_nonneg (Z.pos p)). destruct (Z.eq_dec (Z.pos p) (2 ^ 53)) as [E|N].
  - exists 4503599627370496%positive, 1. repeat split; try lia; try reflexivity. rewrite E. reflexivity. rewrite E. reflexivity.
  - assert (L : Z.log2 (Z.pos p) < 53) by (apply Z.log2_lt_pow2; lia).
    set (k := 52 - Z.log2 (Z.pos p)).
    assert (P : 0 < Z.pos p * 2 ^ k) by (apply Z.mul_pos_pos; [lia|apply Z.pow_pos_nonneg; lia]).
    exists (Z.to_pos (Z.pos p * 2 ^ k)), (- k). unfold canon, mval. rewrite Z2Pos.id by exact P.
    rewrite log2_mul_pow by lia. repeat split; try lia.
    rewrite <- Z.mul_assoc, <- Z.pow_add_r by lia. f_equal. f_equal. lia.
Qed.

Lemma of_int_spec z : small z -> valid (of_int z) /\ sval (of_int z) = z * 2 ^ 1074.
Proof.
  intros [L H]. unfold of_int. destruct z as [|p|p].
  - split; [exact I|reflexivity].
  - destruct (canon_of_pos p H) as (m & e & C & V & _).
    rewrite (normalize_exact (Z.pos p) 0 false (S754_finite false m e)); try lia; [|exact C|].
    + split; [exact C|]. cbn [sval cond_Zopp]. exact V.
    + cbn [sval cond_Zopp]. rewrite V. reflexivity.
  - destruct (canon_of_pos p) as (m & e & C & V & _); [lia|].
    rewrite (normalize_exact (Z.neg p) 0 false (S754_finite true m e)); try lia; [|exact C|].
    + split; [exact C|]. cbn [sval cond_Zopp]. rewrite V. lia.
    + cbn [sval cond_Zopp]. rewrite V. lia.
Qed.

Lemma of_int_shape z : small z -> z <> 0 ->
  exists m e, of_int z = S754_finite (z <? 0) m e /\ canon m e /\ mval m e = Z.abs z * 2 ^ 1074 /\ - 52 <= e <= 1.
Proof.
  intros [L H] N. destruct (canon_of_pos (Z.to_pos (Z.abs z))) as (m & e & C & V & R & _); [rewrite Z2Pos.id; lia|].
  rewrite Z2Pos.id in V by lia. exists m, e. split; [|split; [exact C|split; [exact V|exact R]]].
  unfold of_int. apply normalize_exact; try lia; [exact C|]. cbn [sval]. rewrite V.
  destruct (Z.ltb_spec z 0); cbn [cond_Zopp]; lia.
Qed.

(** The floats that stand for an integer. *)
Definition is_int (f : spec_float) (z : Z) : Prop := valid f /\ sval f = z * 2 ^ 1074.

Lemma p1074 : 0 < 2 ^ 1074.
Proof. reflexivity. Qed.
#[local] Opaque Z.pow.

Lemma is_int_inv f z : is_int f z -> small z -> f = of_int z \/ (z = 0 /\ exists s, f = S754_zero s).
Proof.
  intros [V H] R. pose proof p1074. destruct (Z.eq_dec z 0) as [E|N].
  - right. split; [exact E|]. apply sval_zero; [exact V|]. rewrite H, E. reflexivity.
  - left. destruct (of_int_spec z R) as [V' H']. apply sval_inj; [exact V|exact V'|congruence|].
    rewrite H. apply Z.neq_mul_0. lia.
Qed.

Lemma is_int_zero s : is_int (S754_zero s) 0.
Proof. split; [exact I|reflexivity]. Qed.

Lemma is_int_of z : small z -> is_int (of_int z) z.
Proof. apply of_int_spec. Qed.

Lemma fadd_int f g a b : is_int f a -> is_int g b -> small (a + b) -> is_int (fadd f g) (a + b).
Proof.
  intros [Vf Hf] [Vg Hg] R. destruct (of_int_spec _ R) as [V H]. pose proof p1074.
  destruct (Z.eq_dec (a + b) 0) as [E|N].
  - destruct (fadd_cancel f g Vf Vg) as [s ->]; [rewrite Hf, Hg, <- Z.mul_add_distr_r, E; reflexivity|].
    rewrite E. apply is_int_zero.
  - rewrite (fadd_exact f g (of_int (a + b))); try assumption.
    + apply is_int_of. exact R.
    + rewrite Hf, Hg, H. ring.
    + rewrite H. apply Z.neq_mul_0. lia.
Qed.

Lemma fsub_int f g a b : is_int f a -> is_int g b -> small (a - b) -> is_int (fsub f g) (a - b).
Proof.
  intros [Vf Hf] [Vg Hg] R. destruct (of_int_spec _ R) as [V H]. pose proof p1074.
  destruct (Z.eq_dec (a - b) 0) as [E|N].
  - destruct (fsub_cancel f g Vf Vg) as [s ->]; [rewrite Hf, Hg, <- Z.mul_sub_distr_r, E; reflexivity|].
    rewrite E. apply is_int_zero.
  - rewrite (fsub_exact f g (of_int (a - b))); try assumption.
    + apply is_int_of. exact R.
    + rewrite Hf, Hg, H. ring.
    + rewrite H. apply Z.neq_mul_0. lia.
Qed.

(** A non zero integer float, unpacked: m * 2^(e+52) = |z| * 2^52. *)
Lemma is_int_unpack f z : is_int f z -> small z -> z <> 0 ->
  exists m e, f = S754_finite (z <? 0) m e /\ canon m e /\ - 52 <= e <= 1 /\ Z.pos m * 2 ^ (e + 52) = Z.abs z * 2 ^ 52.
Proof.
  intros I R N. destruct (is_int_inv f z I R) as [-> | [E _]]; [|contradiction].
  destruct (of_int_shape z R N) as (m & e & E & C & V & B). exists m, e. split; [exact E|]. split; [exact C|]. split; [exact B|].
  unfold mval in V. replace (e + 1074) with (e + 52 + 1022) in V by lia. rewrite Z.pow_add_r, Z.mul_assoc in V by lia.
  replace (2 ^ 1074) with (2 ^ 52 * 2 ^ 1022) in V by reflexivity. rewrite Z.mul_assoc in V. apply Z.mul_cancel_r in V; [exact V|].
  apply Z.pow_nonzero; lia.
Qed.

Lemma fmul_zero_l s f z : is_int f z -> is_int (fmul (S754_zero s) f) 0.
Proof. intros [V _]. destruct f; cbn [valid] in V; try contradiction; cbn; apply is_int_zero. Qed.
Lemma fmul_zero_r s f z : is_int f z -> is_int (fmul f (S754_zero s)) 0.
Proof. intros [V _]. destruct f; cbn [valid] in V; try contradiction; cbn; apply is_int_zero. Qed.

Lemma zero_inv f : is_int f 0 -> exists s, f = S754_zero s.
Proof. intros [V H]. apply sval_zero; [exact V|]. rewrite H. reflexivity. Qed.

Lemma canon_exp m e k v : canon m e -> 0 <= e + k -> Z.pos m * 2 ^ (e + k) = v -> 0 <= k -> - 1074 < e -> Z.log2 v = 52 + e + k.
Proof. intros [C _] H E K L. rewrite <- E, log2_mul_pow by lia. lia. Qed.

Lemma fmul_int f g a b : is_int f a -> is_int g b -> small a -> small b -> small (a * b) -> is_int (fmul f g) (a * b).
Proof.
  intros If Ig Ra Rb R.
  destruct (Z.eq_dec a 0) as [->|Na].
  { destruct (zero_inv f If) as [s ->]. apply (fmul_zero_l s g b Ig). }
  destruct (Z.eq_dec b 0) as [->|Nb].
  { rewrite Z.mul_0_r. destruct (zero_inv g Ig) as [s ->]. apply (fmul_zero_r s f a If). }
  assert (N : a * b <> 0) by (apply Z.neq_mul_0; lia).
  destruct (is_int_unpack f a If Ra Na) as (ma & ea & -> & Ca & Ba & Va).
  destruct (is_int_unpack g b Ig Rb Nb) as (mb & eb & -> & Cb & Bb & Vb).
  destruct (is_int_unpack (of_int (a * b)) (a * b) (is_int_of _ R) R N) as (m & e & E & C & B & V).
  assert (La : Z.log2 (Z.abs a * 2 ^ 52) = 52 + ea + 52) by (eapply canon_exp; eauto; lia).
  assert (Lb : Z.log2 (Z.abs b * 2 ^ 52) = 52 + eb + 52) by (eapply canon_exp; eauto; lia).
  assert (Lc : Z.log2 (Z.abs (a * b) * 2 ^ 52) = 52 + e + 52) by (eapply canon_exp; eauto; lia).
  rewrite Z.log2_mul_pow2 in La, Lb, Lc by lia. rewrite Z.abs_mul in Lc.
  pose proof (Z.log2_mul_below (Z.abs a) (Z.abs b)).
  rewrite (fmul_exact _ ma ea _ mb eb m e Ca Cb C); [|lia|].
  - replace (xorb (a <? 0) (b <? 0)) with (a * b <? 0).
    + rewrite <- E. apply is_int_of. exact R.
    + destruct (Z.ltb_spec a 0), (Z.ltb_spec b 0), (Z.ltb_spec (a * b) 0); try reflexivity; nia.
  - apply (Z.mul_reg_r _ _ (2 ^ (ea + 52 + (eb + 52)))); [apply Z.pow_nonzero; lia|].
    rewrite <- (Z.mul_assoc (Z.pos m)), <- Z.pow_add_r by lia.
    replace (e - (ea + eb) + (ea + 52 + (eb + 52))) with (e + 52 + 52) by lia.
    rewrite (Z.pow_add_r 2 (ea + 52)) by lia. rewrite (Z.pow_add_r 2 (e + 52)) by lia.
    rewrite Z.abs_mul in V.
    transitivity ((Z.pos ma * 2 ^ (ea + 52)) * (Z.pos mb * 2 ^ (eb + 52))); [ring|]. rewrite Va, Vb.
    rewrite (Z.mul_assoc (Z.pos m)), V. ring.
Qed.

(** Exact division. *)
Lemma fdiv_int f g q b : is_int f (q * b) -> is_int g b -> small (q * b) -> small b -> small q -> b <> 0 -> is_int (fdiv f g) q.
Proof.
  intros If Ig Rf Rb R Nb.
  destruct (is_int_unpack g b Ig Rb Nb) as (mb & eb & -> & Cb & Bb & Vb).
  destruct (Z.eq_dec q 0) as [->|Nq].
  { destruct (zero_inv f If) as [s ->]. cbn. apply is_int_zero. }
  assert (N : q * b <> 0) by (apply Z.neq_mul_0; lia).
  destruct (is_int_unpack f (q * b) If Rf N) as (ma & ea & -> & Ca & Ba & Va).
  destruct (is_int_unpack (of_int q) q (is_int_of _ R) R Nq) as (m & e & E & C & B & V).
  rewrite (fdiv_exact _ ma ea _ mb eb m e Ca Cb C).
  - replace (xorb (q * b <? 0) (b <? 0)) with (q <? 0).
    + rewrite <- E. apply is_int_of. exact R.
    + destruct (Z.ltb_spec q 0), (Z.ltb_spec b 0), (Z.ltb_spec (q * b) 0); try reflexivity; nia.
  - replace (ea + 3000) with ((ea + 52) + 2948) by lia. replace (e + eb + 3000) with ((e + 52) + ((eb + 52) + 2896)) by lia.
    rewrite !(Z.pow_add_r 2 (_ + 52)) by lia. rewrite Z.mul_assoc, Va, Z.abs_mul.
    transitivity ((Z.pos m * 2 ^ (e + 52)) * (Z.pos mb * 2 ^ (eb + 52)) * 2 ^ 2896); [|ring].
    rewrite V, Vb. replace (2 ^ 2948) with (2 ^ 52 * 2 ^ 2896) by (rewrite <- Z.pow_add_r by lia; reflexivity). ring.
Qed.

(** ** Comparison, floor and conversion *)

Lemma finite_cmp m e M E : canon m e -> canon M E -> - 1074 < e -> - 1074 < E ->
  match Z.compare e E with Lt => Lt | Gt => Gt | Eq => Pos.compare_cont Eq m M end = (mval m e ?= mval M E).
Proof.
  intros C1 C2 L1 L2. pose proof (mval_log2 m e ltac:(lia)) as G1. pose proof (mval_log2 M E ltac:(lia)) as G2.
  pose proof (mval_pos m e ltac:(lia)). pose proof (mval_pos M E ltac:(lia)).
  destruct C1 as [C1 _], C2 as [C2 _]. destruct (Z.compare_spec e E) as [Q|Q|Q].
  - subst E. unfold mval. rewrite <- Zmult_compare_compat_r; [reflexivity|].
    assert (0 < 2 ^ (e + 1074)) by (apply Z.pow_pos_nonneg; lia). lia.
  - symmetry. apply Z.compare_lt_iff. apply Z.log2_lt_cancel. lia.
  - symmetry. apply Z.compare_gt_iff. apply Z.log2_lt_cancel. lia.
Qed.

Lemma cmp_int f g a b : is_int f a -> is_int g b -> small a -> small b -> SFcompare f g = Some (a ?= b).
Proof.
  intros If Ig Ra Rb. pose proof p1074 as P.
  destruct (Z.eq_dec a 0) as [->|Na].
  { destruct (zero_inv f If) as [s ->]. destruct (Z.eq_dec b 0) as [->|Nb].
    - destruct (zero_inv g Ig) as [s' ->]. reflexivity.
    - destruct (is_int_unpack g b Ig Rb Nb) as (mb & eb & -> & _). cbn [SFcompare]. f_equal.
      destruct (Z.ltb_spec b 0); destruct (Z.compare_spec 0 b); try lia; reflexivity. }
  destruct (is_int_unpack f a If Ra Na) as (ma & ea & -> & Ca & Ba & Va).
  destruct (Z.eq_dec b 0) as [->|Nb].
  { destruct (zero_inv g Ig) as [s' ->]. cbn [SFcompare]. f_equal.
    destruct (Z.ltb_spec a 0); destruct (Z.compare_spec a 0); try lia; reflexivity. }
  destruct (is_int_unpack g b Ig Rb Nb) as (mb & eb & -> & Cb & Bb & Vb).
  assert (Fm : match Z.compare ea eb with Lt => Lt | Gt => Gt | Eq => Pos.compare_cont Eq ma mb end = (Z.abs a ?= Z.abs b)).
  { rewrite (finite_cmp ma ea mb eb Ca Cb) by lia. destruct If as [_ Hf], Ig as [_ Hg].
    assert (A1 : mval ma ea = Z.abs a * 2 ^ 1074) by (cbn [sval] in Hf; destruct (Z.ltb_spec a 0); cbn [cond_Zopp] in Hf; lia).
    assert (A2 : mval mb eb = Z.abs b * 2 ^ 1074) by (cbn [sval] in Hg; destruct (Z.ltb_spec b 0); cbn [cond_Zopp] in Hg; lia).
    rewrite A1, A2. rewrite <- Zmult_compare_compat_r by lia. reflexivity. }
  cbn [SFcompare]. f_equal.
  destruct (Z.ltb_spec a 0), (Z.ltb_spec b 0).
  - transitivity (CompOpp (match Z.compare ea eb with Lt => Lt | Gt => Gt | Eq => Pos.compare_cont Eq ma mb end)).
    + destruct (Z.compare ea eb); reflexivity.
    + rewrite Fm. replace (Z.abs a) with (- a) by lia. replace (Z.abs b) with (- b) by lia.
      rewrite Z.compare_opp. symmetry. apply Z.compare_antisym.
  - symmetry. apply Z.compare_lt_iff. lia.
  - symmetry. apply Z.compare_gt_iff. lia.
  - rewrite Fm. f_equal; lia.
Qed.

Lemma eqb_int f g a b : is_int f a -> is_int g b -> small a -> small b -> SFeqb f g = (a =? b).
Proof. intros. unfold SFeqb. rewrite (cmp_int f g a b) by assumption. rewrite Z.eqb_compare. destruct (a ?= b); reflexivity. Qed.
Lemma ltb_int f g a b : is_int f a -> is_int g b -> small a -> small b -> SFltb f g = (a <? b).
Proof. intros. unfold SFltb. rewrite (cmp_int f g a b) by assumption. unfold Z.ltb. destruct (a ?= b); reflexivity. Qed.
Lemma leb_int f g a b : is_int f a -> is_int g b -> small a -> small b -> SFleb f g = (a <=? b).
Proof. intros. unfold SFleb. rewrite (cmp_int f g a b) by assumption. unfold Z.leb. destruct (a ?= b); reflexivity. Qed.

Lemma trunc_int f z : is_int f z -> small z -> trunc_z f = z.
Proof.
  intros I R. destruct (Z.eq_dec z 0) as [->|N].
  { destruct (zero_inv f I) as [s ->]. reflexivity. }
  destruct (is_int_unpack f z I R N) as (m & e & -> & C & B & V). cbn [trunc_z].
  assert (A : (if 0 <=? e then Z.pos m * 2 ^ e else Z.pos m / 2 ^ (- e)) = Z.abs z).
  { destruct (Z.leb_spec 0 e).
    - rewrite Z.pow_add_r, Z.mul_assoc in V by lia. apply Z.mul_cancel_r in V; [exact V|apply Z.pow_nonzero; lia].
    - replace (2 ^ 52) with (2 ^ (- e) * 2 ^ (e + 52)) in V by (rewrite <- Z.pow_add_r by lia; f_equal; lia).
      rewrite Z.mul_assoc in V. apply Z.mul_cancel_r in V; [|apply Z.pow_nonzero; lia]. rewrite V. apply Z.div_mul.
      apply Z.pow_nonzero; lia. }
  rewrite A. destruct (Z.ltb_spec z 0); lia.
Qed.

Lemma floor_z_int f z : is_int f z -> small z -> floor_z f = z.
Proof.
  intros I R. destruct (Z.eq_dec z 0) as [->|N].
  { destruct (zero_inv f I) as [s ->]. reflexivity. }
  destruct (is_int_unpack f z I R N) as (m & e & -> & C & B & V). cbn [floor_z].
  assert (A : (if z <? 0 then - Z.pos m else Z.pos m) * 2 ^ (e + 52) = z * 2 ^ 52) by (destruct (Z.ltb_spec z 0); lia).
  destruct (Z.leb_spec 0 e).
  - rewrite Z.pow_add_r, Z.mul_assoc in A by lia. apply Z.mul_cancel_r in A; [exact A|apply Z.pow_nonzero; lia].
  - replace (2 ^ 52) with (2 ^ (- e) * 2 ^ (e + 52)) in A by (rewrite <- Z.pow_add_r by lia; f_equal; lia).
    rewrite Z.mul_assoc in A. apply Z.mul_cancel_r in A; [|apply Z.pow_nonzero; lia]. rewrite A. apply Z.div_mul.
    apply Z.pow_nonzero; lia.
Qed.

Lemma ffloor_int f z : is_int f z -> small z -> ffloor f = f.
Proof.
  intros I R. pose proof (floor_z_int f z I R) as F. destruct f as [s|s| |s m e] eqn:Ef; try reflexivity.
  cbn [ffloor]. rewrite F. destruct (0 <=? e); [reflexivity|].
  destruct (is_int_inv _ z I R) as [E|[-> [s' E]]]; [|discriminate].
  destruct (Z.eqb_spec z 0) as [->|N]; [|symmetry; exact E].
  destruct (zero_inv _ I) as [s' E']; discriminate.
Qed.
