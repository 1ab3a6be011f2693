(** Proofs about the arithmetic functions. *)
From Coq Require Import String Ascii List ZArith NArith Bool Lia Permutation.
From Coq Require Import SpecFloat.
From Verif Require Import GoStr GoStrFacts ValueModel ListModel DataModel TextModel FloatModel FloatFacts MathModel NumFacts MathSpec.
Import ListNotations.
Local Open Scope Z_scope.

Section WithEnv.
Context {E : Env} {NE : NumEnv}.

(** ** Lists of scalars *)

Definition scal (v : value) : Prop := exists s, v = VScal s.

Lemma scal_need l : Forall scal l -> existsb need_conv l = false.
Proof. induction 1 as [|v l [s ->] F IH]; [reflexivity|]. cbn. exact IH. Qed.
Lemma scal_conv i l : Forall scal l -> map (conv i) l = l.
Proof. induction 1 as [|v l [s ->] F IH]; [reflexivity|]. cbn. f_equal. exact IH. Qed.

Lemma append_scal i l o : Forall scal l -> Forall scal o -> list_append i l o = l ++ o.
Proof.
  intros F1 F2. unfold list_append, list_add, as_list_arr. rewrite (scal_conv i o F2).
  rewrite scal_need; [reflexivity|]. apply Forall_app. auto.
Qed.

Lemma fold_append_scal i : forall l acc, Forall scal l -> Forall scal acc ->
  fold_left (fun a x => list_append i a [x]) l acc = acc ++ l.
Proof.
  induction l as [|x l IH]; intros acc F1 F2; [symmetry; apply app_nil_r|]. inversion F1 as [|? ? Fx Fl]; subst.
  cbn [fold_left]. rewrite append_scal by (auto; constructor; auto). rewrite IH; auto.
  - rewrite <- app_assoc. reflexivity.
  - apply Forall_app. auto.
Qed.

Lemma new_list_scal i l : Forall scal l -> new_list i l = l.
Proof.
  intro F. unfold new_list. replace (match l with [VSlice _ l0] => l0 | [VList _ l0] => l0 | _ => l end) with l.
  - apply fold_append_scal; [exact F|constructor].
  - destruct F as [|v l0 [s ->] F0]; [reflexivity|]. destruct l0; reflexivity.
Qed.

Lemma convert_scal a r : scal a -> Forall scal r -> convert_args1 a r = (dflt, a :: r).
Proof.
  intros [s ->] F. unfold convert_args1. destruct r as [|b r].
  - unfold c_as_list. cbn [c_try_as_list try_as_list]. rewrite new_list_scal; [reflexivity|]. constructor; [exists s; reflexivity|constructor].
  - cbn [c_try_as_list try_as_list]. rewrite new_list_scal by (constructor; [exists s; reflexivity|constructor]).
    rewrite append_scal; [reflexivity| |exact F]. constructor; [exists s; reflexivity|constructor].
Qed.

Lemma convert_args_scal a r : scal a -> Forall scal r -> convert_args a r = (dflt, a :: r).
Proof. intros S F. destruct S as [s ->]. apply convert_scal; [exists s; reflexivity|exact F]. Qed.

Lemma convert_args_values v r : scal v -> Forall scal r -> convert_args VNil (v :: r) = (dflt, v :: r).
Proof. intros S F. cbn [convert_args]. apply convert_scal; assumption. Qed.

Lemma convert_args_list i l : Forall scal l -> convert_args (VList i l) [] = (i, l).
Proof. reflexivity. Qed.

(** ** Numerals *)

Lemma numeral_scal v z : numeral v z -> scal v.
Proof. intros (s & -> & _). exists s. reflexivity. Qed.
Lemma numeral_sprint v z : numeral v z -> sprint v = itoa z.
Proof. intros (s & -> & H). exact H. Qed.

Lemma to_int_numeral v z : numeral v z -> within64 z -> to_int v = Ok z.
Proof.
  intros N R. unfold to_int. rewrite (numeral_sprint v z N), parse_int_itoa; [reflexivity|]. apply in_int64_iff. exact R.
Qed.
Lemma to_uint_numeral v z : numeral v z -> 0 <= z < 2 ^ 64 -> to_uint v = Ok z.
Proof. intros N R. unfold to_uint. rewrite (numeral_sprint v z N), parse_uint_itoa; [reflexivity|]. exact R. Qed.
Lemma to_float_numeral v z : numeral v z -> within53 z -> to_float v = Ok (of_int z).
Proof. intros N R. unfold to_float. rewrite (numeral_sprint v z N), parse_float_itoa; [reflexivity|]. exact R. Qed.

Lemma numerals_scal vs zs : Forall2 numeral vs zs -> Forall scal vs.
Proof. induction 1 as [|v z vs zs N F IH]; constructor; [apply (numeral_scal v z N)|exact IH]. Qed.

Lemma map_to_int vs zs : Forall2 numeral vs zs -> Forall within64 zs -> map_res to_int vs = Ok zs.
Proof.
  induction 1 as [|v z vs zs N F IH]; intro W; [reflexivity|]. inversion W; subst. cbn [map_res].
  rewrite (to_int_numeral v z N) by assumption. cbn [bind]. rewrite IH by assumption. reflexivity.
Qed.
Lemma map_to_float vs zs : Forall2 numeral vs zs -> Forall within53 zs -> map_res to_float vs = Ok (map of_int zs).
Proof.
  induction 1 as [|v z vs zs N F IH]; intro W; [reflexivity|]. inversion W; subst. cbn [map_res].
  rewrite (to_float_numeral v z N) by assumption. cbn [bind]. rewrite IH by assumption. reflexivity.
Qed.

Lemma to_floats_numerals vs zs : Forall2 numeral vs zs -> Forall within53 zs -> to_floats vs = Ok (dflt, map of_int zs).
Proof.
  intros F W. unfold to_floats. pose proof (numerals_scal vs zs F) as SC. destruct F as [|v z vs zs N F].
  - reflexivity.
  - inversion SC as [|? ? Sv Ss]; subst. rewrite convert_args_values by assumption. unfold list_clone. rewrite new_list_scal by assumption.
    rewrite (map_to_float (v :: vs) (z :: zs)) by (try assumption; constructor; assumption). reflexivity.
Qed.

(** ** process *)

Lemma process_scalar v h : scal v -> process v h = trap (h v).
Proof. intro S. unfold process. rewrite convert_args_scal by (auto; constructor). reflexivity. Qed.

Lemma map_res_ok {A B} (f : A -> res B) l ys : Forall2 (fun x y => f x = Ok y) l ys -> map_res f l = Ok ys.
Proof. induction 1 as [|x y l ys H F IH]; [reflexivity|]. cbn [map_res]. rewrite H. cbn [bind]. rewrite IH. reflexivity. Qed.

Lemma process_list i l h ys : Forall scal l -> Forall2 (fun x y => h x = Ok y) l ys -> Forall scal ys -> (2 <= List.length l)%nat ->
  process (VList i l) h = Ok (VList i ys).
Proof.
  intros S F Sy L. unfold process. rewrite convert_args_list by exact S.
  destruct l as [|a [|b l]]; cbn [List.length] in L; try lia.
  unfold list_clone. rewrite new_list_scal by exact S. rewrite (map_res_ok h _ ys F). cbn [bind trap].
  rewrite (scal_conv i ys Sy). reflexivity.
Qed.

(** ** Integers after simplify *)

Lemma f_int64_int f z : is_int f z -> small z -> f_int64 f = z.
Proof.
  intros I R. pose proof (trunc_int f z I R) as T. pose proof (small_int64 z R) as S6.
  destruct f as [s|s| |s m e]; cbn [f_int64]; rewrite ?T; rewrite ?S6; try reflexivity; destruct I as [V _]; contradiction.
Qed.

Lemma simplify_int f z : is_int f z -> small z -> simplify f = vint64 z.
Proof.
  intros I R. unfold simplify. rewrite (ffloor_int f z I R). rewrite (eqb_int f f z z I I R R), Z.eqb_refl.
  rewrite (f_int64_int f z I R). reflexivity.
Qed.

(** ** add, multiply, subtract, divide, modulo *)

Lemma sum_int : forall zs f a, is_int f a -> Forall within53 zs -> partial_results Z.add within53 a zs ->
  is_int (fold_left fadd (map of_int zs) f) (fold_left Z.add zs a).
Proof.
  induction zs as [|z zs IH]; intros f a I W P; [exact I|]. inversion W; subst. destruct P as [_ P]. cbn [map fold_left].
  assert (Pz : within53 (a + z)) by (destruct zs; destruct P; assumption).
  apply IH; [|assumption|exact P]. apply fadd_int; [exact I|apply is_int_of; assumption|exact Pz].
Qed.

Lemma partial_last op P : forall l acc, partial_results op P acc l -> P (fold_left op l acc).
Proof. induction l as [|x l IH]; intros acc H; [exact (proj1 H)|]. cbn [fold_left]. apply IH. exact (proj2 H). Qed.

Lemma add_numerals v vs z zs : numeral v z -> Forall2 numeral vs zs -> Forall within53 (z :: zs) ->
  partial_results Z.add within53 z zs -> tpl_add v vs = Ok (vint64 (fold_left Z.add zs z)).
Proof.
  intros N F W P. pose proof (numeral_scal v z N) as Sv. pose proof (numerals_scal vs zs F) as Ss.
  unfold tpl_add. rewrite convert_args_scal by assumption.
  rewrite (to_floats_numerals (v :: vs) (z :: zs)) by (try assumption; constructor; assumption).
  destruct Sv as [s ->]. cbn [trap]. unfold fsum. cbn [map fold_left]. inversion W; subst.
  do 2 f_equal. apply simplify_int.
  - apply sum_int; try assumption. rewrite <- (Z.add_0_l z) at 2. apply fadd_int; [apply is_int_zero|apply is_int_of; assumption|].
    rewrite Z.add_0_l. assumption.
  - exact (partial_last _ _ _ _ P).
Qed.

Lemma add_list i vs z zs : Forall2 numeral vs (z :: zs) -> Forall within53 (z :: zs) ->
  partial_results Z.add within53 z zs -> tpl_add (VList i vs) [] = Ok (vint64 (fold_left Z.add zs z)).
Proof.
  intros F W P. pose proof (numerals_scal vs (z :: zs) F) as Ss.
  unfold tpl_add. rewrite convert_args_list by assumption.
  rewrite (to_floats_numerals vs (z :: zs)) by assumption.
  cbn [trap]. unfold fsum. cbn [map fold_left]. inversion W; subst.
  do 2 f_equal. apply simplify_int.
  - apply sum_int; try assumption. rewrite <- (Z.add_0_l z) at 2. apply fadd_int; [apply is_int_zero|apply is_int_of; assumption|].
    rewrite Z.add_0_l. assumption.
  - exact (partial_last _ _ _ _ P).
Qed.

Lemma product_int : forall zs f a, is_int f a -> Forall within53 zs -> partial_results Z.mul within53 a zs ->
  is_int (fold_left fmul (map of_int zs) f) (fold_left Z.mul zs a).
Proof.
  induction zs as [|z zs IH]; intros f a I W P; [exact I|]. inversion W; subst. destruct P as [Pa P]. cbn [map fold_left].
  assert (Pz : within53 (a * z)) by (destruct zs; destruct P; assumption).
  apply IH; [|assumption|exact P]. apply fmul_int; [exact I|apply is_int_of; assumption|exact Pa|assumption|exact Pz].
Qed.

Lemma one_small : small 1.
Proof. split; vm_compute; congruence. Qed.

Lemma multiply_numerals v vs z zs : numeral v z -> Forall2 numeral vs zs -> Forall within53 (z :: zs) ->
  partial_results Z.mul within53 z zs -> tpl_multiply v vs = Ok (vint64 (fold_left Z.mul zs z)).
Proof.
  intros N F W P. pose proof (numeral_scal v z N) as Sv. pose proof (numerals_scal vs zs F) as Ss.
  unfold tpl_multiply. rewrite convert_args_scal by assumption.
  rewrite (to_floats_numerals (v :: vs) (z :: zs)) by (try assumption; constructor; assumption).
  destruct Sv as [s ->]. cbn [trap map]. unfold fproduct. cbn [map fold_left]. inversion W as [|? ? Wz Wzs]; subst.
  do 2 f_equal. apply simplify_int.
  - apply product_int; try assumption. rewrite <- (Z.mul_1_l z) at 2.
    apply fmul_int; [apply is_int_of; exact one_small|apply is_int_of; exact Wz|exact one_small|exact Wz|].
    rewrite Z.mul_1_l. exact Wz.
  - exact (partial_last _ _ _ _ P).
Qed.

Lemma float2_numerals va vb a b h r : numeral va a -> numeral vb b -> within53 a -> within53 b ->
  h (of_int a) (of_int b) = r ->
  process_float2 va vb h = trap (do f <- r; Ok (simplify f)).
Proof.
  intros Na Nb Wa Wb H. unfold process_float2, process_float. rewrite process_scalar by exact (numeral_scal va a Na).
  rewrite (to_float_numeral va a Na Wa), (to_float_numeral vb b Nb Wb). cbn [bind]. rewrite H. reflexivity.
Qed.

Lemma subtract_numerals va vb a b : numeral va a -> numeral vb b -> within53 a -> within53 b -> within53 (a - b) ->
  tpl_subtract va vb = Ok (vint64 (a - b)).
Proof.
  intros Na Nb Wa Wb W. unfold tpl_subtract. rewrite (float2_numerals va vb a b _ _ Na Nb Wa Wb eq_refl). cbn [bind trap].
  do 2 f_equal. apply simplify_int; [|exact W]. apply fsub_int; [apply is_int_of; exact Wa|apply is_int_of; exact Wb|exact W].
Qed.

Lemma divide_numerals va vb q b : numeral va (q * b) -> numeral vb b -> within53 (q * b) -> within53 b -> within53 q -> b <> 0 ->
  tpl_divide va vb = Ok (vint64 q).
Proof.
  intros Na Nb Wa Wb Wq B0. unfold tpl_divide. rewrite (float2_numerals va vb (q * b) b _ _ Na Nb Wa Wb eq_refl).
  rewrite (eqb_int (of_int b) fzero b 0); [|apply is_int_of; exact Wb|apply is_int_zero|exact Wb|split; vm_compute; congruence].
  rewrite (proj2 (Z.eqb_neq b 0) B0). cbn [bind trap].
  do 2 f_equal. apply simplify_int; [|exact Wq].
  apply (fdiv_int _ _ q b); [apply is_int_of; exact Wa|apply is_int_of; exact Wb|exact Wa|exact Wb|exact Wq|exact B0].
Qed.

Lemma divide_zero va vb a : numeral va a -> within53 a -> numeral vb 0 -> exists m, tpl_divide va vb = Err m.
Proof.
  intros Na Wa Nb. assert (W0 : within53 0) by (split; vm_compute; congruence). unfold tpl_divide.
  rewrite (float2_numerals va vb a 0 _ _ Na Nb Wa W0 eq_refl). eexists. reflexivity.
Qed.

(** The integer remainder computed on the aligned mantissas. *)
Lemma fmod_int f g a b : is_int f a -> is_int g b -> small a -> small b -> b <> 0 -> is_int (fmod f g) (Z.rem a b).
Proof.
  intros If Ig Ra Rb Nb. destruct (is_int_unpack g b Ig Rb Nb) as (mb & eb & -> & Cb & Bb & Vb).
  destruct (Z.eq_dec a 0) as [->|Na].
  { destruct (zero_inv f If) as [s ->]. rewrite Z.rem_0_l by exact Nb. cbn. apply is_int_zero. }
  destruct (is_int_unpack f a If Ra Na) as (ma & ea & -> & Ca & Ba & Va).
  cbn [fmod]. set (e := Z.min ea eb).
  (* scale both to 2^e *)
  assert (Xa : Z.pos ma * 2 ^ (ea - e) * 2 ^ (e + 52) = Z.abs a * 2 ^ 52).
  { rewrite <- Z.mul_assoc, <- Z.pow_add_r by lia. replace (ea - e + (e + 52)) with (ea + 52) by lia. exact Va. }
  assert (Xb : Z.pos mb * 2 ^ (eb - e) * 2 ^ (e + 52) = Z.abs b * 2 ^ 52).
  { rewrite <- Z.mul_assoc, <- Z.pow_add_r by lia. replace (eb - e + (e + 52)) with (eb + 52) by lia. exact Vb. }
  set (A := Z.pos ma * 2 ^ (ea - e)) in *. set (B := Z.pos mb * 2 ^ (eb - e)) in *.
  assert (P52 : 0 < 2 ^ (e + 52)) by (apply Z.pow_pos_nonneg; lia).
  assert (R0 : (A mod B) * 2 ^ (e + 52) = (Z.abs a mod Z.abs b) * 2 ^ 52).
  { rewrite <- Z.mul_mod_distr_r by (try lia; intro B0; rewrite B0 in Xb; lia).
    rewrite Xa, Xb. rewrite Z.mul_mod_distr_r by lia. reflexivity. }
  assert (RM : Z.rem a b = if a <? 0 then - (Z.abs a mod Z.abs b) else Z.abs a mod Z.abs b).
  { destruct (Z.ltb_spec a 0).
    - rewrite <- (Z.opp_involutive a) at 1. rewrite Z.rem_opp_l by exact Nb. rewrite <- Z.rem_abs_r by exact Nb.
      rewrite Z.rem_mod_nonneg by lia. rewrite (Z.abs_neq a) by lia. reflexivity.
    - rewrite <- Z.rem_abs_r by exact Nb. rewrite Z.rem_mod_nonneg by lia. rewrite (Z.abs_eq a) by lia. reflexivity. }
  pose proof (Z.mod_pos_bound (Z.abs a) (Z.abs b) ltac:(lia)) as MB.
  assert (RR : small (Z.rem a b)).
  { unfold small in *. rewrite RM. destruct (a <? 0); lia. }
  destruct (Z.eq_dec (Z.rem a b) 0) as [Z0|NZ].
  - assert (A mod B = 0). { rewrite Z0 in RM. destruct (a <? 0); nia. }
    rewrite H, Z0. replace (if a <? 0 then - 0 else 0) with 0 by (destruct (a <? 0); reflexivity). cbn [binary_normalize]. apply is_int_zero.
  - destruct (of_int_spec _ RR) as [V S1].
    rewrite (normalize_exact _ e (a <? 0) (of_int (Z.rem a b))); [apply is_int_of; exact RR|lia|exact V| |].
    + rewrite S1. replace (e + 1074) with ((e + 52) + 1022) by lia. rewrite Z.pow_add_r by lia.
      replace (2 ^ 1074) with (2 ^ 52 * 2 ^ 1022) by (rewrite <- Z.pow_add_r by lia; reflexivity). rewrite RM.
      destruct (a <? 0); nia.
    + intro X. apply NZ. rewrite RM. destruct (a <? 0); nia.
Qed.

Lemma modulo_numerals va vb a b : numeral va a -> numeral vb b -> within53 a -> within53 b -> b <> 0 ->
  tpl_modulo va vb = Ok (vint64 (Z.rem a b)).
Proof.
  intros Na Nb Wa Wb B0. unfold tpl_modulo. rewrite (float2_numerals va vb a b _ _ Na Nb Wa Wb eq_refl). cbn [bind trap].
  do 2 f_equal. apply simplify_int; [apply fmod_int; try assumption; apply is_int_of; assumption|].
  unfold within53, small in *. pose proof (Z.rem_bound_abs a b B0). lia.
Qed.

(** ** min and max *)

Lemma fmin_int f g a b : is_int f a -> is_int g b -> small a -> small b -> is_int (fmin f g) (Z.min a b).
Proof.
  intros If Ig Ra Rb.
  assert (H : is_int (if SFltb f g then f else g) (Z.min a b)).
  { rewrite (ltb_int f g a b If Ig Ra Rb). destruct (Z.ltb_spec a b).
    - rewrite Z.min_l by lia. exact If.
    - rewrite Z.min_r by lia. exact Ig. }
  destruct If as [Vf Hf], Ig as [Vg Hg]. destruct f as [sf| | |sf mf ef], g as [sg| | |sg mg eg]; cbn [valid] in Vf, Vg; try contradiction; try exact H.
Qed.
Lemma fmax_int f g a b : is_int f a -> is_int g b -> small a -> small b -> is_int (fmax f g) (Z.max a b).
Proof.
  intros If Ig Ra Rb.
  assert (H : is_int (if SFltb g f then f else g) (Z.max a b)).
  { rewrite (ltb_int g f b a Ig If Rb Ra). destruct (Z.ltb_spec b a).
    - rewrite Z.max_l by lia. exact If.
    - rewrite Z.max_r by lia. exact Ig. }
  destruct If as [Vf Hf], Ig as [Vg Hg]. destruct f as [sf| | |sf mf ef], g as [sg| | |sg mg eg]; cbn [valid] in Vf, Vg; try contradiction; try exact H.
Qed.

Lemma fold_min_int : forall zs f a, is_int f a -> small a -> Forall within53 zs ->
  is_int (fold_left fmin (map of_int zs) f) (fold_left Z.min zs a) /\ small (fold_left Z.min zs a).
Proof.
  induction zs as [|z zs IH]; intros f a I R W; [split; assumption|]. inversion W; subst. cbn [map fold_left].
  apply IH; try assumption.
  - apply fmin_int; try assumption. apply is_int_of. assumption.
  - unfold within53, small in *. lia.
Qed.
Lemma fold_max_int : forall zs f a, is_int f a -> small a -> Forall within53 zs ->
  is_int (fold_left fmax (map of_int zs) f) (fold_left Z.max zs a) /\ small (fold_left Z.max zs a).
Proof.
  induction zs as [|z zs IH]; intros f a I R W; [split; assumption|]. inversion W; subst. cbn [map fold_left].
  apply IH; try assumption.
  - apply fmax_int; try assumption. apply is_int_of. assumption.
  - unfold within53, small in *. lia.
Qed.

Lemma as_list_arr_scal i l : Forall scal l -> as_list_arr i l = l.
Proof. intro F. unfold as_list_arr. rewrite (scal_need l F). reflexivity. Qed.

Lemma min_numerals vs z zs : Forall2 numeral vs (z :: zs) -> Forall within53 (z :: zs) ->
  tpl_min vs = Ok (vint64 (fold_left Z.min zs z)).
Proof.
  intros F W. pose proof (numerals_scal vs _ F) as Ss. unfold tpl_min, compare_numerics.
  rewrite (as_list_arr_scal dflt vs Ss), (to_floats_numerals vs (z :: zs) F W). inversion F; subst. inversion W; subst. cbn [map].
  destruct (fold_min_int zs (of_int z) z) as [I R]; try assumption; [apply is_int_of; assumption|].
  do 2 f_equal. apply simplify_int; assumption.
Qed.
Lemma max_numerals vs z zs : Forall2 numeral vs (z :: zs) -> Forall within53 (z :: zs) ->
  tpl_max vs = Ok (vint64 (fold_left Z.max zs z)).
Proof.
  intros F W. pose proof (numerals_scal vs _ F) as Ss. unfold tpl_max, compare_numerics.
  rewrite (as_list_arr_scal dflt vs Ss), (to_floats_numerals vs (z :: zs) F W). inversion F; subst. inversion W; subst. cbn [map].
  destruct (fold_max_int zs (of_int z) z) as [I R]; try assumption; [apply is_int_of; assumption|].
  do 2 f_equal. apply simplify_int; assumption.
Qed.

(** ** Bits *)

Lemma bitwise_numerals op va vb vs a b zs : numeral va a -> numeral vb b -> Forall2 numeral vs zs ->
  Forall within64 (a :: b :: zs) -> bitwise op va vb vs = Ok (vint64 (fold_left op zs (op a b))).
Proof.
  intros Na Nb F W. inversion W as [|? ? Wa W']; subst. inversion W' as [|? ? Wb Wz]; subst. unfold bitwise.
  rewrite (to_int_numeral va a Na Wa), (to_int_numeral vb b Nb Wb), (map_to_int vs zs F Wz). reflexivity.
Qed.

Lemma fold_bits op (f : bool -> bool -> bool) : (forall x y i, Z.testbit (op x y) i = f (Z.testbit x i) (Z.testbit y i)) ->
  forall zs a i, Z.testbit (fold_left op zs a) i = fold_left f (map (fun z => Z.testbit z i) zs) (Z.testbit a i).
Proof. intros H. induction zs as [|z zs IH]; intros a i; [reflexivity|]. cbn [fold_left map]. rewrite IH, H. reflexivity. Qed.

Lemma fold_closed op (P : Z -> Prop) : (forall x y, P x -> P y -> P (op x y)) -> forall zs a, P a -> Forall P zs -> P (fold_left op zs a).
Proof. intros H. induction zs as [|z zs IH]; intros a Ha F; [exact Ha|]. inversion F; subst. cbn [fold_left]. apply IH; auto. Qed.

Lemma fold_perm (op : Z -> Z -> Z) : (forall x y z, op (op x y) z = op (op x z) y) -> forall l l', Permutation l l' ->
  forall a, fold_left op l a = fold_left op l' a.
Proof.
  intros H l l' P. induction P as [|x l l' P IH|x y l|l l' l'' P1 IH1 P2 IH2]; intro a; cbn [fold_left]; auto.
  - rewrite H. reflexivity.
  - rewrite IH1. apply IH2.
Qed.

Lemma fold_orb l a : fold_left orb l a = orb a (existsb (fun b => b) l).
Proof. revert a. induction l as [|b l IH]; intro a; cbn; [destruct a; reflexivity|]. rewrite IH. destruct a, b; reflexivity. Qed.
Lemma fold_andb l a : fold_left andb l a = andb a (forallb (fun b => b) l).
Proof. revert a. induction l as [|b l IH]; intro a; cbn; [destruct a; reflexivity|]. rewrite IH. destruct a, b; reflexivity. Qed.
Lemma fold_clear l a : fold_left (fun x y => x && negb y) l a = andb a (negb (existsb (fun b => b) l)).
Proof. revert a. induction l as [|b l IH]; intro a; cbn; [destruct a; reflexivity|]. rewrite IH. destruct a, b; reflexivity. Qed.

(** ** Shifts *)

Lemma lshift_value x n : 0 <= n -> (if 64 <=? n then 0 else shl64 x n) = wrap64 (x * 2 ^ n).
Proof.
  intro H. destruct (Z.leb_spec 64 n); [|reflexivity].
  replace (x * 2 ^ n) with (x * 2 ^ (n - 64) * 2 ^ 64).
  - unfold wrap64. rewrite Z.add_comm, Z.mod_add by lia. reflexivity.
  - rewrite <- Z.mul_assoc, <- Z.pow_add_r by lia. do 2 f_equal. lia.
Qed.

Lemma rshift_value x n : 0 <= n -> within64 x -> (if 64 <=? n then (if x <? 0 then - 1 else 0) else shr64 x n) = x / 2 ^ n.
Proof.
  intros H [R1 R2]. destruct (Z.leb_spec 64 n); [|reflexivity].
  assert (P : 2 ^ 64 <= 2 ^ n) by (apply Z.pow_le_mono_r; lia).
  destruct (Z.ltb_spec x 0).
  - apply (Z.div_unique _ _ (-1) (x + 2 ^ n)); lia.
  - symmetry. apply Z.div_small. lia.
Qed.

Lemma lshift_numerals va vn a n : numeral va a -> numeral vn n -> within64 a -> 0 <= n < 2 ^ 64 ->
  tpl_lshift va vn = Ok (vint64 (wrap64 (a * 2 ^ n))).
Proof.
  intros Na Nn Wa Wn. unfold tpl_lshift. rewrite process_scalar by exact (numeral_scal va a Na).
  rewrite (to_int_numeral va a Na Wa), (to_uint_numeral vn n Nn Wn). cbn [bind trap]. do 2 f_equal. apply lshift_value. lia.
Qed.
Lemma rshift_numerals va vn a n : numeral va a -> numeral vn n -> within64 a -> 0 <= n < 2 ^ 64 ->
  tpl_rshift va vn = Ok (vint64 (a / 2 ^ n)).
Proof.
  intros Na Nn Wa Wn. unfold tpl_rshift. rewrite process_scalar by exact (numeral_scal va a Na).
  rewrite (to_int_numeral va a Na Wa), (to_uint_numeral vn n Nn Wn). cbn [bind trap]. do 2 f_equal. apply rshift_value; [lia|exact Wa].
Qed.

Lemma forall2_map {A B C} (P : A -> C -> Prop) (Q : A -> B -> Prop) (g : B -> C) l zs :
  Forall2 Q l zs -> (forall x z, Q x z -> In z zs -> P x (g z)) -> Forall2 P l (map g zs).
Proof.
  induction 1 as [|x z l zs H F IH]; intro HP; [constructor|]. cbn [map]. constructor; [apply HP; [exact H|left; reflexivity]|].
  apply IH. intros. apply HP; [assumption|right; assumption].
Qed.

Lemma vint64_scal zs : Forall scal (map vint64 zs).
Proof. induction zs; constructor; [eexists; reflexivity|assumption]. Qed.
Lemma vstr_scal ss : Forall scal (map vstr ss).
Proof. induction ss; constructor; [eexists; reflexivity|assumption]. Qed.

Lemma lshift_list i vs vn zs n : Forall2 numeral vs zs -> numeral vn n -> Forall within64 zs -> 0 <= n < 2 ^ 64 -> (2 <= List.length vs)%nat ->
  tpl_lshift (VList i vs) vn = Ok (VList i (map (fun a => vint64 (wrap64 (a * 2 ^ n))) zs)).
Proof.
  intros F Nn W Wn L. unfold tpl_lshift. apply process_list; [exact (numerals_scal vs zs F)| |rewrite <- (map_map (fun a => wrap64 (a * 2 ^ n)) vint64); apply vint64_scal|exact L].
  apply (forall2_map _ numeral _ vs zs F). intros x z N I. rewrite Forall_forall in W.
  rewrite (to_int_numeral x z N) by (apply W; exact I). rewrite (to_uint_numeral vn n Nn Wn). cbn [bind]. do 2 f_equal. apply lshift_value. lia.
Qed.

(** ** hex and decimal *)

Lemma parse_hex_upper n : 0 <= n < 2 ^ 64 -> parse_uint 16 (hex_upper n) = Ok n.
Proof.
  intros [H1 H2]. unfold parse_uint. pose proof (hex_upper_nonempty n). destruct (hex_upper n) as [|c s] eqn:Eh; [contradiction|].
  rewrite <- Eh, hex_upper_val by exact H1. replace (n <? 2 ^ 64) with true; [reflexivity|]. symmetry. apply Z.ltb_lt. exact H2.
Qed.

Lemma parse_hex_text z : within64 z -> parse_int 16 ((if z <? 0 then $"-" else []) ++ hex_upper (Z.abs z)) = Ok z.
Proof.
  intros [R1 R2]. unfold parse_int. pose proof (hex_upper_nonempty (Z.abs z)) as NEm.
  destruct ((if z <? 0 then $"-" else []) ++ hex_upper (Z.abs z)) as [|c s] eqn:Eh.
  - apply app_eq_nil in Eh. destruct Eh; contradiction.
  - rewrite <- Eh. clear Eh c s. destruct (Z.ltb_spec z 0).
    + change ($"-" ++ hex_upper (Z.abs z)) with ("-"%char :: hex_upper (Z.abs z)). cbn [sign_split].
      rewrite parse_hex_upper by lia. cbn [bind]. replace (Z.abs z <=? 2 ^ 63) with true by (symmetry; apply Z.leb_le; lia).
      f_equal. lia.
    + cbn [app]. rewrite sign_split_hex by (apply hex_fuel_first; lia). rewrite parse_hex_upper by lia. cbn [bind].
      replace (Z.abs z <? 2 ^ 63) with true by (symmetry; apply Z.ltb_lt; lia). f_equal. lia.
Qed.

Lemma trim_0x s : trim_prefix $"0x" ($"0x" ++ s) = s.
Proof. reflexivity. Qed.

Lemma hex_numeral v z : numeral v z -> within64 z -> tpl_hex v = Ok (vstr (hex_text z)).
Proof.
  intros N W. unfold tpl_hex. rewrite process_scalar by exact (numeral_scal v z N). rewrite (to_int_numeral v z N W). reflexivity.
Qed.

Lemma decimal_text s z : parse_int 16 (trim_prefix $"0x" s) = Ok z -> tpl_decimal (vstr s) = Ok (vint64 z).
Proof.
  intro H. unfold tpl_decimal. rewrite process_scalar by (eexists; reflexivity). unfold vstr. cbn [sprint sprint_scalar]. rewrite H. reflexivity.
Qed.

Lemma decimal_hex v z : numeral v z -> within64 z -> exists s, tpl_hex v = Ok (vstr s) /\ tpl_decimal (vstr s) = Ok (vint64 z).
Proof.
  intros N W. exists (hex_text z). split; [apply hex_numeral; assumption|]. apply decimal_text. unfold hex_text. rewrite trim_0x.
  apply parse_hex_text. exact W.
Qed.

Lemma hex_value_digits : forall s acc, Forall upper_hex s ->
  digits_val 16 acc s = Some (fold_left (fun a c => a * 16 + (if (N_of_ascii c <=? 57)%N then Z.of_N (N_of_ascii c) - 48 else Z.of_N (N_of_ascii c) - 55)) s acc).
Proof.
  induction s as [|c s IH]; intros acc F; [reflexivity|]. inversion F as [|? ? Fc Fs]; subst. cbn [digits_val fold_left].
  assert (D : digit_val 16 c = Some (if (N_of_ascii c <=? 57)%N then Z.of_N (N_of_ascii c) - 48 else Z.of_N (N_of_ascii c) - 55)).
  { destruct c as [[] [] [] [] [] [] [] []]; cbv in Fc; try (exfalso; tauto); reflexivity. }
  rewrite D. apply IH. exact Fs.
Qed.

Lemma numeral_int64 z : numeral (vint64 z) z.
Proof. exists (SInt KInt64 z). split; reflexivity. Qed.

(** hex after decimal, for canonical literals whose value is in range. *)
Lemma hex_decimal s : hex_literal s -> forall z,
  parse_int 16 (trim_prefix $"0x" s) = Ok z -> tpl_decimal (vstr s) = Ok (vint64 z) /\ tpl_hex (vint64 z) = Ok (vstr s).
Proof.
  intros L z P. split; [apply decimal_text; exact P|].
  assert (W : within64 z /\ hex_text z = s).
  { destruct L as [->|(neg & d & ds & -> & Hd & N0 & F)].
    - cbn in P. injection P as <-. split; [split; lia|]. reflexivity.
    - rewrite trim_0x in P.
      destruct (hex_canonical (d :: ds)) as (n & V & Pn & U); [constructor; assumption|discriminate|exact N0|].
      assert (PU : parse_uint 16 (d :: ds) = if n <? 2 ^ 64 then Ok n else Err range_error).
      { unfold parse_uint. rewrite V. reflexivity. }
      destruct neg.
      + change ($"-" ++ d :: ds) with ("-"%char :: d :: ds) in P. unfold parse_int in P. cbn [sign_split] in P. rewrite PU in P.
        destruct (n <? 2 ^ 64); [|discriminate]. cbn [bind] in P. destruct (Z.leb_spec n (2 ^ 63)); [|discriminate]. injection P as <-.
        split; [split; lia|]. unfold hex_text. replace (- n <? 0) with true by (symmetry; apply Z.ltb_lt; lia).
        rewrite Z.abs_opp, Z.abs_eq by lia. rewrite U. reflexivity.
      + cbn [app] in P. unfold parse_int in P.
        rewrite sign_split_hex in P by (constructor; assumption). rewrite PU in P.
        destruct (n <? 2 ^ 64); [|discriminate]. cbn [bind] in P. destruct (Z.ltb_spec n (2 ^ 63)); [|discriminate]. injection P as <-.
        split; [split; lia|]. unfold hex_text. replace (n <? 0) with false by (symmetry; apply Z.ltb_ge; lia).
        rewrite Z.abs_eq by lia. rewrite U. reflexivity. }
  destruct W as [W T]. rewrite (hex_numeral (vint64 z) z (numeral_int64 z) W), T. reflexivity.
Qed.

(** ** Numeric sequences *)

Lemma sprig_round_int f z : is_int f z -> small z -> is_int (sprig_round f 0) z.
Proof.
  intros I R. unfold sprig_round. replace (10 ^ 0) with 1 by reflexivity.
  assert (I1 : is_int (fmul (of_int 1) f) z).
  { rewrite <- (Z.mul_1_l z). apply fmul_int; [apply is_int_of; exact one_small|exact I|exact one_small|exact R|]. rewrite Z.mul_1_l. exact R. }
  set (digit := fmul (of_int 1) f) in *.
  assert (FR : SFleb half (ffrac digit) = false).
  { destruct (Z.eq_dec z 0) as [->|N].
    - destruct (zero_inv digit I1) as [s ->]. reflexivity.
    - destruct (is_int_unpack digit z I1 R N) as (m & e & -> & C & B & V). cbn [ffrac].
      destruct (Z.leb_spec 0 e); [reflexivity|].
      assert (M0 : Z.pos m mod 2 ^ (- e) = 0).
      { replace (2 ^ 52) with (2 ^ (- e) * 2 ^ (e + 52)) in V by (rewrite <- Z.pow_add_r by lia; f_equal; lia).
        rewrite Z.mul_assoc in V. apply Z.mul_cancel_r in V; [|apply Z.pow_nonzero; lia]. rewrite V. apply Z.mod_mul. apply Z.pow_nonzero; lia. }
      rewrite M0. reflexivity. }
  rewrite FR. rewrite (ffloor_int digit z I1 R).
  apply (fdiv_int _ _ z 1); [rewrite Z.mul_1_r; exact I1|apply is_int_of; exact one_small|rewrite Z.mul_1_r; exact R|exact one_small|exact R|lia].
Qed.

Definition seq_small (z : Z) : Prop := - 2 ^ 52 <= z <= 2 ^ 52.

(** Terms remaining from current at distance d of stop. *)
Lemma seq_loop_up limit : forall n fuel fstep fstop fcur step stop cur,
  is_int fstep step -> is_int fstop stop -> is_int fcur cur -> 0 < step -> seq_small step -> seq_small stop -> - 2 ^ 52 <= cur <= 2 ^ 53 ->
  Z.of_nat n = Z.max 0 (term_count limit (stop - cur) step) -> (n <= fuel)%nat ->
  seq_loop fuel limit true 0 fstep fstop fcur = Some (map (fun k => vint64 (cur + Z.of_nat k * step)) (seq 0 n)).
Proof.
  induction n as [|n IH]; intros fuel fstep fstop fcur step stop cur Is It Ic P Ss St Sc HN HF.
  - assert (Cn : seq_continues limit true fstop fcur = false).
    { unfold seq_continues. cbn [negb andb]. rewrite orb_false_r.
      rewrite (leb_int fcur fstop cur stop), (eqb_int fcur fstop cur stop) by (try assumption; unfold small, seq_small in *; lia).
      unfold term_count in HN. destruct limit.
      - assert (stop - cur < 0) by (pose proof (Z.div_pos (stop - cur) step); lia).
        replace (cur <=? stop) with false by (symmetry; apply Z.leb_gt; lia). reflexivity.
      - assert (stop - cur <= 0). { destruct (Z.ltb_spec 0 (stop - cur)); [|lia]. assert (1 <= (stop - cur + step - 1) / step) by (apply Z.div_le_lower_bound; lia). lia. }
        destruct (Z.leb_spec cur stop); [|reflexivity]. replace (cur =? stop) with true by (symmetry; apply Z.eqb_eq; lia). reflexivity. }
    destruct fuel; cbn [seq_loop]; rewrite Cn; reflexivity.
  - destruct fuel as [|fuel]; [lia|].
    assert (D : (if limit then 0 <= stop - cur else 0 < stop - cur)).
    { unfold term_count in HN. destruct limit.
      - destruct (Z.ltb_spec (stop - cur) 0); [|lia]. assert ((stop - cur) / step < 0) by (apply Z.div_lt_upper_bound; lia). lia.
      - destruct (Z.leb_spec (stop - cur) 0); [|lia]. assert ((stop - cur + step - 1) / step < 1) by (apply Z.div_lt_upper_bound; lia). lia. }
    assert (Cn : seq_continues limit true fstop fcur = true).
    { unfold seq_continues. cbn [negb andb]. rewrite orb_false_r.
      rewrite (leb_int fcur fstop cur stop), (eqb_int fcur fstop cur stop) by (try assumption; unfold small, seq_small in *; lia).
      replace (cur <=? stop) with true by (symmetry; apply Z.leb_le; destruct limit; lia).
      destruct limit; [reflexivity|]. replace (cur =? stop) with false by (symmetry; apply Z.eqb_neq; lia). reflexivity. }
    assert (Rc : small cur) by (unfold small, seq_small in *; lia).
    pose proof (sprig_round_int fcur cur Ic Rc) as Ir.
    assert (cur <= stop) by (destruct limit; lia).
    cbn [seq_loop]. rewrite Cn.
    rewrite (IH fuel fstep fstop _ step stop (cur + step)); try assumption; try lia.
    + cbn [option_map seq map]. f_equal. f_equal.
      * rewrite (simplify_int _ cur Ir Rc). f_equal. lia.
      * rewrite <- seq_shift, map_map. apply map_ext. intro k. f_equal. lia.
    + apply fadd_int; [exact Ir|exact Is|]. unfold small, seq_small in *. lia.
    + unfold seq_small in *. lia.
    + unfold term_count in *. destruct limit.
      * replace (stop - (cur + step)) with (stop - cur + (- 1) * step) by lia. rewrite Z.div_add by lia. lia.
      * replace (stop - (cur + step) + step - 1) with (stop - cur + step - 1 + (- 1) * step) by lia. rewrite Z.div_add by lia. lia.
Qed.

Lemma seq_loop_down limit : forall n fuel fstep fstop fcur step stop cur,
  is_int fstep (- step) -> is_int fstop stop -> is_int fcur cur -> 0 < step -> seq_small step -> seq_small stop -> - 2 ^ 53 <= cur <= 2 ^ 52 ->
  Z.of_nat n = Z.max 0 (term_count limit (cur - stop) step) -> (n <= fuel)%nat ->
  seq_loop fuel limit false 0 fstep fstop fcur = Some (map (fun k => vint64 (cur - Z.of_nat k * step)) (seq 0 n)).
Proof.
  induction n as [|n IH]; intros fuel fstep fstop fcur step stop cur Is It Ic P Ss St Sc HN HF.
  - assert (Cn : seq_continues limit false fstop fcur = false).
    { unfold seq_continues. cbn [negb andb orb].
      rewrite (leb_int fstop fcur stop cur), (eqb_int fcur fstop cur stop) by (try assumption; unfold small, seq_small in *; lia).
      unfold term_count in HN. destruct limit.
      - assert (cur - stop < 0) by (pose proof (Z.div_pos (cur - stop) step); lia).
        replace (stop <=? cur) with false by (symmetry; apply Z.leb_gt; lia). reflexivity.
      - assert (cur - stop <= 0). { destruct (Z.ltb_spec 0 (cur - stop)); [|lia]. assert (1 <= (cur - stop + step - 1) / step) by (apply Z.div_le_lower_bound; lia). lia. }
        destruct (Z.leb_spec stop cur); [|reflexivity]. replace (cur =? stop) with true by (symmetry; apply Z.eqb_eq; lia). reflexivity. }
    destruct fuel; cbn [seq_loop]; rewrite Cn; reflexivity.
  - destruct fuel as [|fuel]; [lia|].
    assert (D : (if limit then 0 <= cur - stop else 0 < cur - stop)).
    { unfold term_count in HN. destruct limit.
      - destruct (Z.ltb_spec (cur - stop) 0); [|lia]. assert ((cur - stop) / step < 0) by (apply Z.div_lt_upper_bound; lia). lia.
      - destruct (Z.leb_spec (cur - stop) 0); [|lia]. assert ((cur - stop + step - 1) / step < 1) by (apply Z.div_lt_upper_bound; lia). lia. }
    assert (Cn : seq_continues limit false fstop fcur = true).
    { unfold seq_continues. cbn [negb andb orb].
      rewrite (leb_int fstop fcur stop cur), (eqb_int fcur fstop cur stop) by (try assumption; unfold small, seq_small in *; lia).
      replace (stop <=? cur) with true by (symmetry; apply Z.leb_le; destruct limit; lia).
      destruct limit; [reflexivity|]. replace (cur =? stop) with false by (symmetry; apply Z.eqb_neq; lia). reflexivity. }
    assert (Rc : small cur) by (unfold small, seq_small in *; lia).
    pose proof (sprig_round_int fcur cur Ic Rc) as Ir.
    assert (stop <= cur) by (destruct limit; lia).
    cbn [seq_loop]. rewrite Cn.
    rewrite (IH fuel fstep fstop _ step stop (cur - step)); try assumption; try lia.
    + cbn [option_map seq map]. f_equal. f_equal.
      * rewrite (simplify_int _ cur Ir Rc). f_equal. lia.
      * rewrite <- seq_shift, map_map. apply map_ext. intro k. f_equal. lia.
    + replace (cur - step) with (cur + - step) by lia. apply fadd_int; [exact Ir|exact Is|]. unfold small, seq_small in *. lia.
    + unfold seq_small in *. lia.
    + unfold term_count in *. destruct limit.
      * replace (cur - step - stop) with (cur - stop + (- 1) * step) by lia. rewrite Z.div_add by lia. lia.
      * replace (cur - step - stop + step - 1) with (cur - stop + step - 1 + (- 1) * step) by lia. rewrite Z.div_add by lia. lia.
Qed.

Lemma is_int_opp f z : is_int f z -> is_int (SFopp f) (- z).
Proof. intros [V H]. split; [apply valid_opp; exact V|]. rewrite sval_opp, H. ring. Qed.
Lemma is_int_abs f z : is_int f z -> is_int (SFabs f) (Z.abs z).
Proof.
  intros [V H]. destruct f as [s| | |s m e]; cbn [valid] in V; try contradiction; cbn [SFabs].
  - cbn [sval] in H. pose proof p1074. assert (z = 0) by nia. subst. apply is_int_zero.
  - split; [exact V|]. cbn [sval] in *. pose proof (mval_pos m e (canon_min _ _ V)). pose proof p1074. destruct s; cbn [cond_Zopp] in *; nia.
Qed.

Lemma term_count_nonneg limit d step : 0 <= d -> 0 < step -> 0 <= term_count limit d step.
Proof. intros. unfold term_count. destruct limit; [pose proof (Z.div_pos d step); lia|apply Z.div_pos; lia]. Qed.

Lemma numeric_array_core fuel limit params fa fb fs a b s :
  seq_params limit params = Ok (fa, fb, fs, 0) -> is_int fa a -> is_int fb b -> is_int fs s -> 0 < s ->
  seq_small a -> seq_small b -> seq_small s -> Z.abs (b - a) <= max_cap ->
  (Z.to_nat (term_count limit (Z.abs (b - a)) s) <= fuel)%nat ->
  numeric_array fuel limit params = Some (Ok (VList dflt (map vint64 (arith_seq limit a b s)))).
Proof.
  intros HP Ia Ib Is Ps Sa Sb Ss Cap HF. unfold numeric_array. rewrite HP.
  assert (Ra : small a) by (unfold small, seq_small in *; lia). assert (Rb : small b) by (unfold small, seq_small in *; lia).
  assert (Rs : small s) by (unfold small, seq_small in *; lia). assert (R0 : small 0) by (unfold small; lia).
  rewrite (eqb_int fs fzero s 0 Is (is_int_zero false) Rs R0). replace (s =? 0) with false by (symmetry; apply Z.eqb_neq; lia).
  assert (Id : is_int (SFabs (fsub fb fa)) (Z.abs (b - a))).
  { apply is_int_abs. apply fsub_int; [exact Ib|exact Ia|]. unfold small, seq_small in *. lia. }
  rewrite (f_int64_int _ _ Id) by (unfold small, seq_small in *; lia).
  replace (Z.abs (b - a) <? 0) with false by (symmetry; apply Z.ltb_ge; lia).
  replace (max_cap <? Z.abs (b - a)) with false by (symmetry; apply Z.ltb_ge; lia). cbn [orb].
  rewrite (ltb_int fa fb a b Ia Ib Ra Rb). unfold arith_seq.
  destruct (Z.ltb_spec a b).
  - rewrite (seq_loop_up limit (Z.to_nat (term_count limit (Z.abs (b - a)) s)) fuel fs fb fa s b a); try assumption.
    + cbn [option_map]. do 3 f_equal. rewrite map_map. apply map_ext. intro k. f_equal. ring.
    + unfold seq_small in *. lia.
    + rewrite Z.abs_eq by lia. pose proof (term_count_nonneg limit (b - a) s ltac:(lia) Ps). lia.
  - rewrite (seq_loop_down limit (Z.to_nat (term_count limit (Z.abs (b - a)) s)) fuel (SFopp fs) fb fa s b a); try assumption.
    + cbn [option_map]. do 3 f_equal. rewrite map_map. apply map_ext. intro k. f_equal. ring.
    + apply is_int_opp. exact Is.
    + unfold seq_small in *. lia.
    + rewrite Z.abs_neq by lia. replace (- (b - a)) with (a - b) by lia. pose proof (term_count_nonneg limit (a - b) s ltac:(lia) Ps). lia.
Qed.

Lemma small53 z : seq_small z -> within53 z.
Proof. unfold seq_small, within53. lia. Qed.

Lemma seq1 (limit : bool) vb b fuel : numeral vb b -> seq_small b -> Z.abs (b - (if limit then 1 else 0)) <= max_cap ->
  (Z.to_nat (term_count limit (Z.abs (b - (if limit then 1 else 0))) 1) <= fuel)%nat ->
  numeric_array fuel limit [vb] = Some (Ok (VList dflt (map vint64 (arith_seq limit (if limit then 1 else 0) b 1)))).
Proof.
  intros Nb Sb Cap HF. apply (numeric_array_core _ _ _ (if limit then of_int 1 else fzero) (of_int b) (of_int 1)); try assumption; try lia.
  - cbn [seq_params]. rewrite (to_float_numeral vb b Nb (small53 b Sb)). reflexivity.
  - destruct limit; [apply is_int_of; exact one_small|apply is_int_zero].
  - apply is_int_of. apply small53. exact Sb.
  - apply is_int_of. exact one_small.
  - destruct limit; unfold seq_small; lia.
  - unfold seq_small. lia.
Qed.

Lemma seq2 limit va vb a b fuel : numeral va a -> numeral vb b -> seq_small a -> seq_small b -> Z.abs (b - a) <= max_cap ->
  (Z.to_nat (term_count limit (Z.abs (b - a)) 1) <= fuel)%nat ->
  numeric_array fuel limit [va; vb] = Some (Ok (VList dflt (map vint64 (arith_seq limit a b 1)))).
Proof.
  intros Na Nb Sa Sb Cap HF. apply (numeric_array_core _ _ _ (of_int a) (of_int b) (of_int 1)); try assumption; try lia.
  - cbn [seq_params]. rewrite (to_float_numeral vb b Nb (small53 b Sb)), (to_float_numeral va a Na (small53 a Sa)). reflexivity.
  - apply is_int_of. apply small53. exact Sa.
  - apply is_int_of. apply small53. exact Sb.
  - apply is_int_of. exact one_small.
  - unfold seq_small. lia.
Qed.

Lemma abs_of_int z : small z -> SFabs (of_int z) = of_int (Z.abs z).
Proof.
  intro R. assert (R' : small (Z.abs z)) by (unfold small in *; lia).
  destruct (is_int_inv _ _ (is_int_abs _ _ (is_int_of z R)) R') as [Ei|[Z0 _]]; [exact Ei|].
  assert (z = 0) by lia. subst. reflexivity.
Qed.

Lemma no_dot_precision s : (forall c, In c s -> c <> "."%char) -> zlen (snd (split2 s $".")) = 0.
Proof.
  intro H. unfold split2, split_n2. assert (index $"." s = None) as ->; [|reflexivity].
  apply contains_false_index. destruct (contains $"." s) eqn:Ec; [|reflexivity]. apply contains_iff in Ec.
  destruct Ec as [p [q Hq]]. subst s. exfalso. apply (H "."%char); [|reflexivity]. apply in_or_app. right. left. reflexivity.
Qed.

Lemma seq3 limit va vb vs a b s fuel : numeral va a -> numeral vb b -> numeral vs s -> seq_small a -> seq_small b -> seq_small s -> s <> 0 ->
  Z.abs (b - a) <= max_cap -> (forall c, In c (fmtx (vfloat (of_int (Z.abs s)))) -> c <> "."%char) ->
  (Z.to_nat (term_count limit (Z.abs (b - a)) (Z.abs s)) <= fuel)%nat ->
  numeric_array fuel limit [va; vb; vs] = Some (Ok (VList dflt (map vint64 (arith_seq limit a b (Z.abs s))))).
Proof.
  intros Na Nb Ns Sa Sb Ss S0 Cap Dot HF.
  apply (numeric_array_core _ _ _ (of_int a) (of_int b) (of_int (Z.abs s))); try assumption; try lia.
  - cbn [seq_params]. rewrite (to_float_numeral vb b Nb (small53 b Sb)), (to_float_numeral va a Na (small53 a Sa)), (to_float_numeral vs s Ns (small53 s Ss)).
    cbn [bind]. rewrite abs_of_int by (apply small53; exact Ss). unfold step_precision. cbn [sprint sprint_scalar vfloat].
    rewrite no_dot_precision by exact Dot. reflexivity.
  - apply is_int_of. apply small53. exact Sa.
  - apply is_int_of. apply small53. exact Sb.
  - apply is_int_of. apply small53. unfold seq_small in *. lia.
  - unfold seq_small in *. lia.
Qed.


(** ** Errors *)

Lemma digits_val_only : forall s acc n, digits_val 10 acc s = Some n -> forall c, In c s -> (48 <= N_of_ascii c <= 57)%N.
Proof.
  induction s as [|c s IH]; intros acc n H d I; [contradiction|]. cbn [digits_val] in H.
  destruct (digit_val 10 c) as [x|] eqn:D; [|discriminate]. destruct I as [->|I]; [|apply (IH _ _ H d I)].
  destruct d as [[] [] [] [] [] [] [] []]; try discriminate D; vm_compute; split; congruence.
Qed.

Lemma parse_uint_bad s : not_integer_text s -> exists m, parse_uint 10 s = Err m.
Proof.
  intros (c & I & N1 & N2 & N3). unfold parse_uint. destruct s as [|d s]; [contradiction|].
  destruct (digits_val 10 0 (d :: s)) as [n|] eqn:D; [|eexists; reflexivity]. exfalso. apply N3. eapply digits_val_only; eassumption.
Qed.

Lemma sign_split_bad s : not_integer_text s -> not_integer_text (snd (sign_split s)).
Proof.
  intros (c & I & N1 & N2 & N3). destruct s as [|d s]; [contradiction|].
  assert (X : snd (sign_split (d :: s)) = d :: s \/ (snd (sign_split (d :: s)) = s /\ (d = "+"%char \/ d = "-"%char))).
  { destruct d as [[] [] [] [] [] [] [] []]; auto. }
  destruct X as [->|[-> D]]; [exists c; auto|]. destruct I as [->|I]; [destruct D; contradiction|]. exists c. auto.
Qed.

Lemma parse_int_bad s : not_integer_text s -> exists m, parse_int 10 s = Err m.
Proof.
  intro B. pose proof (sign_split_bad s B) as B2. unfold parse_int. destruct s as [|d s].
  - destruct B as (c & [] & _).
  - destruct (sign_split (d :: s)) as [neg r]. cbn [snd] in B2. destruct (parse_uint_bad r B2) as [m ->]. eexists. reflexivity.
Qed.

Lemma to_int_bad v : not_integer_text (sprint v) -> exists m, to_int v = Panic m.
Proof. intro B. unfold to_int. destruct (parse_int_bad _ B) as [m ->]. eexists. reflexivity. Qed.
Lemma to_int_not_err v m : to_int v <> Err m.
Proof. unfold to_int. destruct (parse_int 10 (sprint v)); discriminate. Qed.
Lemma map_to_int_bad vs v : In v vs -> not_integer_text (sprint v) -> exists m, map_res to_int vs = Panic m.
Proof.
  induction vs as [|w vs IH]; intros I B; [contradiction|]. cbn [map_res]. destruct I as [->|I].
  - destruct (to_int_bad v B) as [m ->]. eexists. reflexivity.
  - destruct (IH I B) as [m Hm]. destruct (to_int w) as [x|x|x] eqn:Tw; [|exfalso; exact (to_int_not_err w x Tw)|eexists; reflexivity].
    cbn [bind]. rewrite Hm. eexists. reflexivity.
Qed.
Lemma bitwise_bad op va vb vs v : In v (va :: vb :: vs) -> not_integer_text (sprint v) -> exists m, bitwise op va vb vs = Err m.
Proof.
  intros I B. destruct (map_to_int_bad (va :: vb :: vs) v I B) as [m H]. unfold bitwise. cbn [map_res] in H.
  destruct (to_int va) as [a|a|a] eqn:Ta; [|exfalso; exact (to_int_not_err va a Ta)|eexists; reflexivity].
  destruct (to_int vb) as [b|b|b] eqn:Tb; [|exfalso; exact (to_int_not_err vb b Tb)|eexists; reflexivity]. cbn [bind] in *.
  destruct (map_res to_int vs) as [l|l|l]; [discriminate H|eexists; reflexivity|eexists; reflexivity].
Qed.

(** ** Average *)

Lemma numerals_length vs zs : Forall2 numeral vs zs -> List.length vs = List.length zs.
Proof. induction 1; cbn [List.length]; congruence. Qed.

Lemma average_numerals v vs z zs q : numeral v z -> Forall2 numeral vs zs -> Forall within53 (z :: zs) ->
  partial_results Z.add within53 z zs -> fold_left Z.add zs z = q * (1 + Z.of_nat (List.length zs)) -> within53 q ->
  Z.of_nat (List.length zs) < 2 ^ 53 -> tpl_average v vs = Ok (vint64 q).
Proof.
  intros N F W P HQ Wq L. pose proof (numeral_scal v z N) as Sv. pose proof (numerals_scal vs zs F) as Ss.
  pose proof (partial_last _ _ _ _ P) as WS.
  unfold tpl_average. destruct Sv as [s ->]. rewrite convert_args_scal by (auto; exists s; reflexivity). cbn [snd].
  rewrite (add_numerals _ _ z zs N F W P). rewrite HQ in *. set (n := 1 + Z.of_nat (List.length zs)) in *.
  rewrite (to_float_numeral (vint64 (q * n)) (q * n) (numeral_int64 _) WS). cbn [bind trap].
  assert (En : 1 + zlen vs = n) by (unfold zlen, n; rewrite (numerals_length vs zs F); reflexivity). rewrite En.
  assert (Wn : within53 n) by (unfold within53, n; lia).
  do 2 f_equal. apply simplify_int; [|exact Wq].
  apply (fdiv_int _ _ q n); [apply is_int_of; exact WS|apply is_int_of; exact Wn|exact WS|exact Wn|exact Wq|unfold n; lia].
Qed.

Lemma multiply_list i vs z zs : Forall2 numeral vs (z :: zs) -> Forall within53 (z :: zs) ->
  partial_results Z.mul within53 z zs -> tpl_multiply (VList i vs) [] = Ok (vint64 (fold_left Z.mul zs z)).
Proof.
  intros F W P. pose proof (numerals_scal vs (z :: zs) F) as Ss.
  unfold tpl_multiply. rewrite convert_args_list by assumption.
  rewrite (to_floats_numerals vs (z :: zs)) by assumption.
  cbn [trap map]. unfold fproduct. cbn [map fold_left]. inversion W as [|? ? Wz Wzs]; subst.
  do 2 f_equal. apply simplify_int.
  - apply product_int; try assumption. rewrite <- (Z.mul_1_l z) at 2.
    apply fmul_int; [apply is_int_of; exact one_small|apply is_int_of; exact Wz|exact one_small|exact Wz|].
    rewrite Z.mul_1_l. exact Wz.
  - exact (partial_last _ _ _ _ P).
Qed.

Lemma rshift_list i vs vn zs n : Forall2 numeral vs zs -> numeral vn n -> Forall within64 zs -> 0 <= n < 2 ^ 64 -> (2 <= List.length vs)%nat ->
  tpl_rshift (VList i vs) vn = Ok (VList i (map (fun a => vint64 (a / 2 ^ n)) zs)).
Proof.
  intros F Nn W Wn L. unfold tpl_rshift. apply process_list; [exact (numerals_scal vs zs F)| |rewrite <- (map_map (fun a => a / 2 ^ n) vint64); apply vint64_scal|exact L].
  apply (forall2_map _ numeral _ vs zs F). intros x z N I. rewrite Forall_forall in W.
  rewrite (to_int_numeral x z N) by (apply W; exact I). rewrite (to_uint_numeral vn n Nn Wn). cbn [bind]. do 2 f_equal. apply rshift_value; [lia|apply W; exact I].
Qed.

Lemma shift_back va vn a n : numeral va a -> numeral vn n -> within64 a -> 0 <= n < 2 ^ 64 -> within64 (a * 2 ^ n) ->
  exists w, tpl_lshift va vn = Ok w /\ tpl_rshift w vn = Ok (vint64 a).
Proof.
  intros Na Nn Wa Wn Wr. exists (vint64 (a * 2 ^ n)). split.
  - rewrite (lshift_numerals va vn a n) by assumption. rewrite wrap64_id by (apply in_int64_iff; exact Wr). reflexivity.
  - rewrite (rshift_numerals (vint64 (a * 2 ^ n)) vn (a * 2 ^ n) n); try assumption; [|apply numeral_int64].
    rewrite Z.div_mul by (apply Z.pow_nonzero; lia). reflexivity.
Qed.

(** ** Statements of the property file *)

Lemma hex_of_decimal s : hex_literal s ->
  forall neg digits, s = $"0x" ++ (if neg : bool then $"-" else []) ++ digits -> (digits = [] -> False) ->
  (forall c, In c digits -> c <> "-"%char) ->
  within64 (if neg then - hex_value digits else hex_value digits) ->
  tpl_decimal (vstr s) = Ok (vint64 (if neg then - hex_value digits else hex_value digits)) /\
  tpl_hex (vint64 (if neg then - hex_value digits else hex_value digits)) = Ok (vstr s).
Proof.
  intros L neg digits Es Nn ND W. apply (hex_decimal s L).
  assert (F : Forall upper_hex digits).
  { destruct L as [->|(neg' & d & ds & Es' & Hd & N0 & Fs)].
    - destruct neg; cbn in Es; [discriminate|]. injection Es as <-. constructor; [|constructor]. left. vm_compute. split; congruence.
    - rewrite Es in Es'. apply app_inv_head in Es'. destruct neg, neg'; cbn [app lit] in Es'.
      + change ($"-") with ["-"%char] in Es'. cbn [app] in Es'. injection Es' as ->. constructor; assumption.
      + change ($"-") with ["-"%char] in Es'. cbn [app] in Es'. injection Es' as <- _. destruct Hd as [Hd|Hd]; vm_compute in Hd; destruct Hd as [H1 H2]; congruence.
      + change ($"-") with ["-"%char] in Es'. cbn [app] in Es'. subst digits. exfalso. apply (ND "-"%char); [left; reflexivity|reflexivity].
      + subst digits. constructor; assumption. }
  assert (D : digits_val 16 0 digits = Some (hex_value digits)) by (apply (hex_value_digits digits 0 F)).
  destruct digits as [|c ds]; [contradiction Nn; reflexivity|].
  assert (V0 : 0 <= hex_value (c :: ds)).
  { clear -D F. assert (G : forall l acc n, Forall upper_hex l -> 0 <= acc -> digits_val 16 acc l = Some n -> 0 <= n).
    { induction l as [|x l IH]; intros acc n Fl A H; [injection H as <-; exact A|]. inversion Fl as [|? ? Fx Fl']; subst. cbn [digits_val] in H.
      destruct (digit_val 16 x) as [y|] eqn:Dy; [|discriminate]. apply (IH _ _ Fl') in H; [exact H|].
      assert (0 <= y). { clear -Dy. destruct x as [[] [] [] [] [] [] [] []]; try discriminate Dy; injection Dy as <-; vm_compute; congruence. } lia. }
    apply (G _ 0 _ F ltac:(lia) D). }
  assert (PU : hex_value (c :: ds) < 2 ^ 64 -> parse_uint 16 (c :: ds) = Ok (hex_value (c :: ds))).
  { intro B. unfold parse_uint. rewrite D. replace (hex_value (c :: ds) <? 2 ^ 64) with true by (symmetry; apply Z.ltb_lt; exact B). reflexivity. }
  rewrite Es, trim_0x. set (hv := hex_value (c :: ds)) in *. destruct W as [W1 W2]. destruct neg.
  - change ($"-" ++ c :: ds) with ("-"%char :: c :: ds). unfold parse_int. cbn [sign_split]. rewrite PU by lia. cbn [bind].
    replace (hv <=? 2 ^ 63) with true by (symmetry; apply Z.leb_le; lia). reflexivity.
  - cbn [app]. unfold parse_int. rewrite sign_split_hex by exact F. rewrite PU by lia. cbn [bind].
    replace (hv <? 2 ^ 63) with true by (symmetry; apply Z.ltb_lt; lia). reflexivity.
Qed.

Lemma existsb_map {A} (f : A -> bool) l : existsb (fun b => b) (map f l) = existsb f l.
Proof. induction l as [|x l IH]; [reflexivity|]. cbn. rewrite IH. reflexivity. Qed.
Lemma forallb_map {A} (f : A -> bool) l : forallb (fun b => b) (map f l) = forallb f l.
Proof. induction l as [|x l IH]; [reflexivity|]. cbn. rewrite IH. reflexivity. Qed.
Lemma fold_xorb {A} (f : A -> bool) l a : fold_left xorb (map f l) a = xorb a (Nat.odd (List.length (filter f l))).
Proof.
  revert a. induction l as [|x l IH]; intro a; cbn [map fold_left filter]; [destruct a; reflexivity|]. rewrite IH.
  destruct (f x); [|rewrite xorb_false_r; reflexivity]. cbn [List.length]. rewrite Nat.odd_succ, <- Nat.negb_odd.
  destruct a, (Nat.odd (List.length (filter f l))); reflexivity.
Qed.

Lemma bits_spec va vb vs a b zs : numeral va a -> numeral vb b -> Forall2 numeral vs zs -> Forall within64 (a :: b :: zs) ->
  exists r_or r_and r_xor r_clear,
    tpl_bor va vb vs = Ok (vint64 r_or) /\ tpl_band va vb vs = Ok (vint64 r_and) /\
    tpl_bxor va vb vs = Ok (vint64 r_xor) /\ tpl_bclear va vb vs = Ok (vint64 r_clear) /\
    within64 r_or /\ within64 r_and /\ within64 r_xor /\ within64 r_clear /\
    forall i,
      Z.testbit r_or i = existsb (fun z => Z.testbit z i) (a :: b :: zs) /\
      Z.testbit r_and i = forallb (fun z => Z.testbit z i) (a :: b :: zs) /\
      Z.testbit r_xor i = Nat.odd (List.length (filter (fun z => Z.testbit z i) (a :: b :: zs))) /\
      Z.testbit r_clear i = (Z.testbit a i && negb (existsb (fun z => Z.testbit z i) (b :: zs)))%bool.
Proof.
  intros Na Nb F W. exists (fold_left Z.lor (b :: zs) a), (fold_left Z.land (b :: zs) a), (fold_left Z.lxor (b :: zs) a), (fold_left Z.ldiff (b :: zs) a).
  inversion W as [|? ? Wa Ws]; subst.
  do 4 (split; [apply bitwise_numerals; assumption|]).
  split; [apply fold_closed; try assumption; intros; apply in_int64_iff; apply int64_lor; apply in_int64_iff; assumption|].
  split; [apply fold_closed; try assumption; intros; apply in_int64_iff; apply int64_land; apply in_int64_iff; assumption|].
  split; [apply fold_closed; try assumption; intros; apply in_int64_iff; apply int64_lxor; apply in_int64_iff; assumption|].
  split; [apply fold_closed; try assumption; intros; apply in_int64_iff; apply int64_ldiff; apply in_int64_iff; assumption|].
  intro i. change (existsb (fun z => Z.testbit z i) (a :: b :: zs)) with (orb (Z.testbit a i) (existsb (fun z => Z.testbit z i) (b :: zs))).
  change (forallb (fun z => Z.testbit z i) (a :: b :: zs)) with (andb (Z.testbit a i) (forallb (fun z => Z.testbit z i) (b :: zs))).
  split; [rewrite (fold_bits Z.lor orb Z.lor_spec), fold_orb, existsb_map; reflexivity|].
  split; [rewrite (fold_bits Z.land andb Z.land_spec), fold_andb, forallb_map; reflexivity|].
  split.
  - rewrite (fold_bits Z.lxor xorb Z.lxor_spec), fold_xorb.
    change (filter (fun z => Z.testbit z i) (a :: b :: zs)) with (if Z.testbit a i then a :: filter (fun z => Z.testbit z i) (b :: zs) else filter (fun z => Z.testbit z i) (b :: zs)).
    generalize (filter (fun z => Z.testbit z i) (b :: zs)). intro l. destruct (Z.testbit a i); [|destruct (Nat.odd (List.length l)); reflexivity].
    cbn [List.length]. rewrite Nat.odd_succ, <- Nat.negb_odd. destruct (Nat.odd (List.length l)); reflexivity.
  - rewrite (fold_bits Z.ldiff (fun x y => x && negb y)%bool Z.ldiff_spec), fold_clear, existsb_map. reflexivity.
Qed.

Lemma numeral_unique v z z' : numeral v z -> numeral v z' -> z = z'.
Proof. intros (s & -> & H) (s' & E' & H'). injection E' as <-. rewrite H in H'. apply itoa_inj. exact H'. Qed.

Lemma numerals_perm vs vs' : Permutation vs vs' -> forall zs, Forall2 numeral vs zs -> exists zs', Forall2 numeral vs' zs' /\ Permutation zs zs'.
Proof.
  induction 1 as [|x l l' P IH|x y l|l l' l'' P1 IH1 P2 IH2]; intros zs F.
  - inversion F; subst. exists []. split; constructor.
  - inversion F as [|? z ? zs0 Hx Hl]; subst. destruct (IH _ Hl) as (zs' & F' & P'). exists (z :: zs'). split; constructor; assumption.
  - inversion F as [|? z ? zs0 Hx Hl]; subst. inversion Hl as [|? z2 ? zs1 Hy Hl2]; subst. exists (z2 :: z :: zs1). split; [repeat constructor; assumption|constructor].
  - destruct (IH1 _ F) as (z1 & F1 & Q1). destruct (IH2 _ F1) as (z2 & F2 & Q2). exists z2. split; [exact F2|]. eapply Permutation_trans; eassumption.
Qed.

Lemma bits_perm va vb va' vb' vs vs' zs :
  Forall2 numeral (va :: vb :: vs) zs -> Forall within64 zs -> Permutation (va :: vb :: vs) (va' :: vb' :: vs') ->
  tpl_bor va vb vs = tpl_bor va' vb' vs' /\ tpl_band va vb vs = tpl_band va' vb' vs' /\ tpl_bxor va vb vs = tpl_bxor va' vb' vs'.
Proof.
  intros F W P. destruct (numerals_perm _ _ P zs F) as (zs' & F' & P').
  assert (W' : Forall within64 zs') by (rewrite Forall_forall in *; intros z I; apply W; eapply Permutation_in; [apply Permutation_sym; exact P'|exact I]).
  inversion F as [|? a ? zs0 Ha Fs]; subst. inversion Fs as [|? b ? zs1 Hb Fz]; subst.
  inversion F' as [|? a' ? zs0' Ha' Fs']; subst. inversion Fs' as [|? b' ? zs1' Hb' Fz']; subst.
  assert (G : forall op, (forall x y, op x y = op y x) -> (forall x y z, op (op x y) z = op x (op y z)) ->
    forall unit, (forall x, op unit x = x) -> bitwise op va vb vs = bitwise op va' vb' vs').
  { intros op C A u U. rewrite (bitwise_numerals op va vb vs a b zs1), (bitwise_numerals op va' vb' vs' a' b' zs1') by assumption.
    do 2 f_equal. assert (X := fold_perm op ltac:(intros x y z; rewrite !A, (C y z); reflexivity) _ _ P' u). cbn [fold_left] in X. rewrite !U in X. exact X. }
  split; [|split]; unfold tpl_bor, tpl_band, tpl_bxor.
  - apply (G Z.lor Z.lor_comm) with (unit := 0); [intros; symmetry; apply Z.lor_assoc|apply Z.lor_0_l].
  - apply (G Z.land Z.land_comm) with (unit := -1); [intros; symmetry; apply Z.land_assoc|apply Z.land_m1_l].
  - apply (G Z.lxor Z.lxor_comm) with (unit := 0); [intros; apply Z.lxor_assoc|apply Z.lxor_0_l].
Qed.

Lemma bits_bad va vb v vs : In v (va :: vb :: vs) -> not_integer_text (sprint v) ->
  (exists m, tpl_bor va vb vs = Err m) /\ (exists m, tpl_band va vb vs = Err m) /\
  (exists m, tpl_bxor va vb vs = Err m) /\ (exists m, tpl_bclear va vb vs = Err m).
Proof. intros I B. repeat split; apply (bitwise_bad _ va vb vs v I B). Qed.

Lemma lshift_spec va vn a n : numeral va a -> numeral vn n -> within64 a -> 0 <= n < 2 ^ 64 ->
  exists r k, tpl_lshift va vn = Ok (vint64 r) /\ within64 r /\ r = a * 2 ^ n + k * 2 ^ 64.
Proof.
  intros Na Nn Wa Wn. destruct (wrap64_mod (a * 2 ^ n)) as [k K]. exists (wrap64 (a * 2 ^ n)), k.
  split; [apply lshift_numerals; assumption|]. split; [apply in_int64_iff; apply wrap64_range|exact K].
Qed.

Lemma shift_lists i vs vn zs n : Forall2 numeral vs zs -> numeral vn n -> Forall within64 zs -> 0 <= n < 2 ^ 64 -> (2 <= List.length vs)%nat ->
  tpl_rshift (VList i vs) vn = Ok (VList i (map (fun a => vint64 (a / 2 ^ n)) zs)) /\
  exists rs, tpl_lshift (VList i vs) vn = Ok (VList i (map vint64 rs)) /\
    Forall2 (fun a r => within64 r /\ exists k, r = a * 2 ^ n + k * 2 ^ 64) zs rs.
Proof.
  intros F Nn W Wn L. split; [apply rshift_list; assumption|]. exists (map (fun a => wrap64 (a * 2 ^ n)) zs). rewrite map_map.
  split; [apply lshift_list; assumption|]. clear. induction zs as [|z zs IH]; constructor; [|exact IH].
  split; [apply in_int64_iff; apply wrap64_range|apply wrap64_mod].
Qed.

Lemma seq1_spec (limit : bool) vb b : numeral vb b -> - 2 ^ 52 <= b <= 2 ^ 52 -> 2 ^ 53 <= max_cap ->
  exists fuel, numeric_array fuel limit [vb] = Some (Ok (VList dflt (map vint64 (arith_seq limit (if limit then 1 else 0) b 1)))).
Proof. intros N B C. eexists. apply seq1; [exact N|exact B| |apply le_n]. destruct limit; lia. Qed.

Lemma seq2_spec limit va vb a b : numeral va a -> numeral vb b -> - 2 ^ 52 <= a <= 2 ^ 52 -> - 2 ^ 52 <= b <= 2 ^ 52 -> Z.abs (b - a) <= max_cap ->
  exists fuel, numeric_array fuel limit [va; vb] = Some (Ok (VList dflt (map vint64 (arith_seq limit a b 1)))).
Proof. intros. eexists. apply seq2; try eassumption. apply le_n. Qed.

Lemma seq3_spec limit va vb vs a b s : numeral va a -> numeral vb b -> numeral vs s -> s <> 0 ->
  - 2 ^ 52 <= a <= 2 ^ 52 -> - 2 ^ 52 <= b <= 2 ^ 52 -> - 2 ^ 52 <= s <= 2 ^ 52 -> Z.abs (b - a) <= max_cap ->
  ~ In "."%char (fmtx (vfloat (of_int (Z.abs s)))) ->
  exists fuel, numeric_array fuel limit [va; vb; vs] = Some (Ok (VList dflt (map vint64 (arith_seq limit a b (Z.abs s))))).
Proof.
  intros Na Nb Ns S0 Ra Rb Rs C D. eexists. apply seq3; try eassumption; [|apply le_n].
  intros c I ->. exact (D I).
Qed.

Lemma seq_zero limit va vb vs a b fuel : numeral va a -> numeral vb b -> numeral vs 0 -> within53 a -> within53 b ->
  exists m, numeric_array fuel limit [va; vb; vs] = Some (Err m).
Proof.
  intros Na Nb Ns Wa Wb. unfold numeric_array. cbn [seq_params].
  assert (W0 : within53 0) by (split; vm_compute; congruence).
  rewrite (to_float_numeral vb b Nb Wb), (to_float_numeral va a Na Wa), (to_float_numeral vs 0 Ns W0). cbn [bind].
  eexists. reflexivity.
Qed.

Lemma arith_seq_in inclusive a b s x : 0 < s ->
  (In x (arith_seq inclusive a b s) <->
   exists k, 0 <= k /\ x = a + (if a <? b then 1 else - 1) * k * s /\
     (if a <? b then a <= x else x <= a) /\ (if inclusive then Z.abs (x - a) <= Z.abs (b - a) else Z.abs (x - a) < Z.abs (b - a))).
Proof.
  intro P. unfold arith_seq. rewrite in_map_iff. set (d := Z.abs (b - a)).
  assert (X : forall k, 0 <= k -> (if inclusive then k * s <= d else k * s < d) <-> k < term_count inclusive d s).
  { intros k K. unfold term_count. destruct inclusive.
    - split; intro H.
      + assert (k <= d / s) by (apply Z.div_le_lower_bound; lia). lia.
      + pose proof (Z.mul_div_le d s P). nia.
    - split; intro H.
      + assert (k + 1 <= (d + s - 1) / s) by (apply Z.div_le_lower_bound; nia). lia.
      + pose proof (Z.mul_div_le (d + s - 1) s P). nia. }
  split.
  - intros (k & <- & I). apply in_seq in I. exists (Z.of_nat k). split; [lia|]. split; [reflexivity|].
    assert (K : Z.of_nat k < term_count inclusive d s) by lia. apply X in K; [|lia].
    assert (0 <= Z.of_nat k * s) by nia.
    split; [destruct (a <? b); nia|]. fold d.
    replace (Z.abs _) with (Z.of_nat k * s); [exact K|]. destruct (a <? b); nia.
  - intros (k & K & -> & _ & H). exists (Z.to_nat k). rewrite Z2Nat.id by exact K. split; [reflexivity|]. apply in_seq.
    assert (0 <= k * s) by nia.
    assert (k < term_count inclusive d s).
    { apply X; [exact K|]. replace (Z.abs _) with (k * s) in H; [exact H|]. destruct (a <? b); nia. }
    lia.
Qed.

Lemma min_max_spec vs zs : Forall2 numeral vs zs -> Forall within53 zs -> zs <> [] ->
  exists lo hi, tpl_min vs = Ok (vint64 lo) /\ tpl_max vs = Ok (vint64 hi) /\
    In lo zs /\ In hi zs /\ forall z, In z zs -> lo <= z <= hi.
Proof.
  intros F W N. destruct zs as [|z zs]; [contradiction N; reflexivity|].
  exists (fold_left Z.min zs z), (fold_left Z.max zs z).
  split; [apply min_numerals; assumption|]. split; [apply max_numerals; assumption|].
  clear. revert z. induction zs as [|y zs IH]; intro z.
  - split; [left; reflexivity|]. split; [left; reflexivity|]. intros x [->|[]]. cbn. lia.
  - cbn [fold_left]. destruct (IH (Z.min z y)) as (I1 & _ & B1). destruct (IH (Z.max z y)) as (_ & I2 & B2). split; [|split].
    + destruct I1 as [I1|I1]; [|right; right; exact I1]. rewrite <- I1. destruct (Z.min_spec z y) as [[_ ->]|[_ ->]]; [left|right; left]; reflexivity.
    + destruct I2 as [I2|I2]; [|right; right; exact I2]. rewrite <- I2. destruct (Z.max_spec z y) as [[_ ->]|[_ ->]]; [right; left|left]; reflexivity.
    + intros x Ix. pose proof (B1 (Z.min z y) (or_introl eq_refl)). pose proof (B2 (Z.max z y) (or_introl eq_refl)).
      destruct Ix as [->|[->|Ix]]; [lia|lia|]. pose proof (B1 x (or_intror Ix)). pose proof (B2 x (or_intror Ix)). lia.
Qed.

End WithEnv.
