(** Properties C31 to C35: the arithmetic template functions. *)
From Coq Require Import String Ascii List ZArith NArith Bool Permutation Lia.
From Coq Require Import SpecFloat.
From Verif Require Import GoStr ValueModel FloatModel FloatFacts MathModel NumFacts MathSpec MathProofs ExampleEnv.
Import ListNotations.
Local Open Scope Z_scope.

(** Environment of the examples: floats print as Go prints them. *)
Definition env1 : Env := {| fmtx := fun v => match v with VScal (SFloat f) => fmt_float f | _ => $"?" end; dflt := Base |}.
Definition num1 : NumEnv := {| int64_oob := fun _ => - 2 ^ 63; parse_other := fun _ => None; max_cap := 2 ^ 44 |}.
Definition i_ (z : Z) : value := vint64 z.

(** ** C31: hex and decimal *)

Theorem C31_decimal_of_hex (E : Env) (v : value) (z : Z) :
  numeral v z -> within64 z ->
  exists s, tpl_hex v = Ok (vstr s) /\ tpl_decimal (vstr s) = Ok (vint64 z).
Proof. exact (decimal_hex v z). Qed.
Print Assumptions C31_decimal_of_hex.

Theorem C31_hex_of_decimal (E : Env) (s : str) :
  hex_literal s ->
  forall neg digits, s = $"0x" ++ (if neg : bool then $"-" else []) ++ digits -> (digits = [] -> False) ->
  (forall c, In c digits -> c <> "-"%char) ->
  within64 (if neg then - hex_value digits else hex_value digits) ->
  tpl_decimal (vstr s) = Ok (vint64 (if neg then - hex_value digits else hex_value digits)) /\
  tpl_hex (vint64 (if neg then - hex_value digits else hex_value digits)) = Ok (vstr s).
Proof. exact (hex_of_decimal s). Qed.
Print Assumptions C31_hex_of_decimal.

Example C31_ex :
  let E := env0 in
  (tpl_hex (n_ (-255)), tpl_decimal (s_ "0x-FF"), tpl_hex (i_ (- 2 ^ 63)), tpl_decimal (s_ "0x-8000000000000000"), tpl_decimal (s_ "ff"))
  = (Ok (s_ "0x-FF"), Ok (i_ (-255)), Ok (s_ "0x-8000000000000000"), Ok (i_ (- 2 ^ 63)), Ok (i_ 255)).
Proof. vm_compute. reflexivity. Qed.
Example C31_ex_range : let E := env0 in is_ok (tpl_decimal (s_ "0x8000000000000000")) = false.
Proof. vm_compute. reflexivity. Qed.

(** ** C32: bitwise operators *)

Theorem C32_bits (E : Env) (va vb : value) (vs : list value) (a b : Z) (zs : list Z) :
  numeral va a -> numeral vb b -> Forall2 numeral vs zs -> Forall within64 (a :: b :: zs) ->
  exists r_or r_and r_xor r_clear,
    tpl_bor va vb vs = Ok (vint64 r_or) /\ tpl_band va vb vs = Ok (vint64 r_and) /\
    tpl_bxor va vb vs = Ok (vint64 r_xor) /\ tpl_bclear va vb vs = Ok (vint64 r_clear) /\
    within64 r_or /\ within64 r_and /\ within64 r_xor /\ within64 r_clear /\
    forall i,
      Z.testbit r_or i = existsb (fun z => Z.testbit z i) (a :: b :: zs) /\
      Z.testbit r_and i = forallb (fun z => Z.testbit z i) (a :: b :: zs) /\
      Z.testbit r_xor i = Nat.odd (List.length (filter (fun z => Z.testbit z i) (a :: b :: zs))) /\
      Z.testbit r_clear i = (Z.testbit a i && negb (existsb (fun z => Z.testbit z i) (b :: zs)))%bool.
Proof. exact (bits_spec va vb vs a b zs). Qed.
Print Assumptions C32_bits.

Theorem C32_any_order (E : Env) (va vb va' vb' : value) (vs vs' : list value) (zs : list Z) :
  Forall2 numeral (va :: vb :: vs) zs -> Forall within64 zs -> Permutation (va :: vb :: vs) (va' :: vb' :: vs') ->
  tpl_bor va vb vs = tpl_bor va' vb' vs' /\ tpl_band va vb vs = tpl_band va' vb' vs' /\ tpl_bxor va vb vs = tpl_bxor va' vb' vs'.
Proof. exact (bits_perm va vb va' vb' vs vs' zs). Qed.
Print Assumptions C32_any_order.

Theorem C32_other_arguments (E : Env) (va vb v : value) (vs : list value) :
  In v (va :: vb :: vs) -> not_integer_text (sprint v) ->
  (exists m, tpl_bor va vb vs = Err m) /\ (exists m, tpl_band va vb vs = Err m) /\
  (exists m, tpl_bxor va vb vs = Err m) /\ (exists m, tpl_bclear va vb vs = Err m).
Proof. exact (bits_bad va vb v vs). Qed.
Print Assumptions C32_other_arguments.

Example C32_ex :
  let E := env0 in
  (tpl_bor (n_ 12) (s_ "10") [n_ 1], tpl_band (n_ (-1)) (n_ 12) [n_ 10], tpl_bxor (n_ 12) (n_ (-10)) [n_ 3], tpl_bclear (n_ 15) (n_ 2) [s_ "4"], is_ok (tpl_bor (n_ 1) (s_ "x") []))
  = (Ok (i_ 15), Ok (i_ 8), Ok (i_ (-7)), Ok (i_ 9), false).
Proof. vm_compute. reflexivity. Qed.

(** ** C33: shifts *)

Theorem C33_lshift (E : Env) (va vn : value) (a n : Z) :
  numeral va a -> numeral vn n -> within64 a -> 0 <= n < 2 ^ 64 ->
  exists r k, tpl_lshift va vn = Ok (vint64 r) /\ within64 r /\ r = a * 2 ^ n + k * 2 ^ 64.
Proof. exact (lshift_spec va vn a n). Qed.
Print Assumptions C33_lshift.

Theorem C33_rshift (E : Env) (va vn : value) (a n : Z) :
  numeral va a -> numeral vn n -> within64 a -> 0 <= n < 2 ^ 64 -> tpl_rshift va vn = Ok (vint64 (a / 2 ^ n)).
Proof. exact (rshift_numerals va vn a n). Qed.
Print Assumptions C33_rshift.

Theorem C33_inverse (E : Env) (va vn : value) (a n : Z) :
  numeral va a -> numeral vn n -> within64 a -> 0 <= n < 2 ^ 64 -> within64 (a * 2 ^ n) ->
  exists w, tpl_lshift va vn = Ok w /\ tpl_rshift w vn = Ok (vint64 a).
Proof. exact (shift_back va vn a n). Qed.
Print Assumptions C33_inverse.

(** On lists the shift is applied to every element. *)
Theorem C33_lists (E : Env) (i : impl) (vs : list value) (vn : value) (zs : list Z) (n : Z) :
  Forall2 numeral vs zs -> numeral vn n -> Forall within64 zs -> 0 <= n < 2 ^ 64 -> (2 <= List.length vs)%nat ->
  tpl_rshift (VList i vs) vn = Ok (VList i (map (fun a => vint64 (a / 2 ^ n)) zs)) /\
  exists rs, tpl_lshift (VList i vs) vn = Ok (VList i (map vint64 rs)) /\
    Forall2 (fun a r => within64 r /\ exists k, r = a * 2 ^ n + k * 2 ^ 64) zs rs.
Proof. exact (shift_lists i vs vn zs n). Qed.
Print Assumptions C33_lists.

Example C33_ex :
  let E := env0 in
  (tpl_lshift (n_ 3) (n_ 4), tpl_lshift (n_ 1) (n_ 63), tpl_lshift (n_ 5) (n_ 64), tpl_rshift (n_ (-5)) (n_ 1), tpl_rshift (n_ (-5)) (n_ 1000), tpl_lshift (l_ [n_ 1; s_ "2"]) (n_ 3))
  = (Ok (i_ 48), Ok (i_ (- 2 ^ 63)), Ok (i_ 0), Ok (i_ (-3)), Ok (i_ (-1)), Ok (l_ [i_ 8; i_ 16])).
Proof. vm_compute. reflexivity. Qed.

(** ** C34: numeric sequences *)

Theorem C34_one_argument (E : Env) (NE : NumEnv) (limit : bool) (vb : value) (b : Z) :
  numeral vb b -> - 2 ^ 52 <= b <= 2 ^ 52 -> 2 ^ 53 <= max_cap ->
  exists fuel, numeric_array fuel limit [vb] = Some (Ok (VList dflt (map vint64 (arith_seq limit (if limit then 1 else 0) b 1)))).
Proof. exact (seq1_spec limit vb b). Qed.
Print Assumptions C34_one_argument.

Theorem C34_two_arguments (E : Env) (NE : NumEnv) (limit : bool) (va vb : value) (a b : Z) :
  numeral va a -> numeral vb b -> - 2 ^ 52 <= a <= 2 ^ 52 -> - 2 ^ 52 <= b <= 2 ^ 52 -> Z.abs (b - a) <= max_cap ->
  exists fuel, numeric_array fuel limit [va; vb] = Some (Ok (VList dflt (map vint64 (arith_seq limit a b 1)))).
Proof. exact (seq2_spec limit va vb a b). Qed.
Print Assumptions C34_two_arguments.

(** With a step whose shortest text has no dot (all integers below a million). *)
Theorem C34_step (E : Env) (NE : NumEnv) (limit : bool) (va vb vs : value) (a b s : Z) :
  numeral va a -> numeral vb b -> numeral vs s -> s <> 0 ->
  - 2 ^ 52 <= a <= 2 ^ 52 -> - 2 ^ 52 <= b <= 2 ^ 52 -> - 2 ^ 52 <= s <= 2 ^ 52 -> Z.abs (b - a) <= max_cap ->
  ~ In "."%char (fmtx (vfloat (of_int (Z.abs s)))) ->
  exists fuel, numeric_array fuel limit [va; vb; vs] = Some (Ok (VList dflt (map vint64 (arith_seq limit a b (Z.abs s))))).
Proof. exact (seq3_spec limit va vb vs a b s). Qed.
Print Assumptions C34_step.

Theorem C34_zero_step (E : Env) (NE : NumEnv) (limit : bool) (va vb vs : value) (a b : Z) (fuel : nat) :
  numeral va a -> numeral vb b -> numeral vs 0 -> within53 a -> within53 b ->
  exists m, numeric_array fuel limit [va; vb; vs] = Some (Err m).
Proof. exact (seq_zero limit va vb vs a b fuel). Qed.
Print Assumptions C34_zero_step.

(** The sequence of the specification: the elements are exactly the start plus multiples of the
    step which do not pass the stop, in order. *)
Theorem C34_sequence_meaning (inclusive : bool) (a b s x : Z) : 0 < s ->
  (In x (arith_seq inclusive a b s) <->
   exists k, 0 <= k /\ x = a + (if a <? b then 1 else - 1) * k * s /\
     (if a <? b then a <= x else x <= a) /\ (if inclusive then Z.abs (x - a) <= Z.abs (b - a) else Z.abs (x - a) < Z.abs (b - a))).
Proof. exact (arith_seq_in inclusive a b s x). Qed.
Print Assumptions C34_sequence_meaning.

Example C34_ex :
  let E := env1 in let N := num1 in
  (numeric_array 10 true [n_ 3], numeric_array 10 false [n_ (-3)], numeric_array 10 true [n_ 5; s_ "-5"; n_ 3], numeric_array 10 false [n_ 0; n_ 9; n_ (-3)])
  = (Some (Ok (l_ [i_ 1; i_ 2; i_ 3])), Some (Ok (l_ [i_ 0; i_ (-1); i_ (-2)])), Some (Ok (l_ [i_ 5; i_ 2; i_ (-1); i_ (-4)])), Some (Ok (l_ [i_ 0; i_ 3; i_ 6]))).
Proof. vm_compute. reflexivity. Qed.
Example C34_ex_no_dot : let E := env1 in forallb (fun s => forallb (fun c => negb (Ascii.eqb c "."%char)) (fmtx (vfloat (of_int s)))) [1; 9; 10; 100; 12345; 999999; 1000000; 2000000] = true.
Proof. vm_compute. reflexivity. Qed.

Lemma seq_endless : let E := env1 in let N := num1 in forall fuel, numeric_array fuel true [s_ "0"; s_ "3e-7"; s_ "1e-7"] = None.
Proof.
  intros E N fuel. unfold numeric_array.
  set (p := seq_params true [s_ "0"; s_ "3e-7"; s_ "1e-7"]). vm_compute in p. subst p. cbv iota beta.
  match goal with |- (if ?b then _ else _) = _ => let v := eval vm_compute in b in replace b with v by (vm_compute; reflexivity) end. cbv iota.
  match goal with |- context [if ?b then Some _ else _] => let v := eval vm_compute in b in replace b with v by (vm_compute; reflexivity) end. cbv iota.
  match goal with |- context [SFltb ?a ?b] => replace (SFltb a b) with true by (vm_compute; reflexivity) end. cbv iota zeta.
  match goal with |- context [seq_loop fuel true true 0 ?a ?b ?c] => set (st := a); set (sp := b) end.
  assert (L : forall f, seq_loop f true true 0 st sp st = None).
  { induction f as [|f IH]; [vm_compute; reflexivity|]. cbn [seq_loop].
    replace (seq_continues true true sp st) with true by (vm_compute; reflexivity).
    replace (fadd (sprig_round st 0) st) with st by (vm_compute; reflexivity). rewrite IH. reflexivity. }
  destruct fuel as [|f]; [vm_compute; reflexivity|]. cbn [seq_loop].
  match goal with |- context [seq_continues ?a ?b ?c ?d] => replace (seq_continues a b c d) with true by (vm_compute; reflexivity) end.
  match goal with |- context [fadd ?a ?b] => replace (fadd a b) with st by (vm_compute; reflexivity) end. rewrite L. reflexivity.
Qed.

(** Termination is false: the step 1e-07 is rounded away on every iteration. *)
Theorem C34_terminates_refuted : exists (E : Env) (NE : NumEnv) (params : list value), forall fuel, numeric_array fuel true params = None.
Proof. exists env1, num1, [s_ "0"; s_ "3e-7"; s_ "1e-7"]. exact seq_endless. Qed.
Print Assumptions C34_terminates_refuted.

(** Exactness is false for large steps: the digits printed after the dot of 3.53050952070144e+14,
    exponent included, are used as the number of decimals to round to. *)
Theorem C34_large_step_refuted : exists (E : Env) (NE : NumEnv) (s : Z), 0 < s < 2 ^ 50 /\
  numeric_array 10 true [i_ 0; i_ (2 * s); i_ s] <> Some (Ok (VList dflt (map vint64 (arith_seq true 0 (2 * s) s)))).
Proof. exists env1, num1, 353050952070144. split; [lia|]. vm_compute. discriminate. Qed.
Print Assumptions C34_large_step_refuted.

(** Without step the bounds are rounded to integers: to(0.5, 3) begins with 1. *)
Theorem C34_fractional_start_refuted : exists (E : Env) (NE : NumEnv),
  numeric_array 10 true [s_ "0.5"; s_ "3"] = Some (Ok (l_ [i_ 1; i_ 2; i_ 3])).
Proof. exists env1, num1. vm_compute. reflexivity. Qed.
Print Assumptions C34_fractional_start_refuted.

(** ** C35: integers through floating point *)

Theorem C35_add (E : Env) (NE : NumEnv) (v : value) (vs : list value) (z : Z) (zs : list Z) :
  numeral v z -> Forall2 numeral vs zs -> Forall within53 (z :: zs) -> partial_results Z.add within53 z zs ->
  tpl_add v vs = Ok (vint64 (fold_left Z.add zs z)).
Proof. exact (add_numerals v vs z zs). Qed.
Print Assumptions C35_add.

Theorem C35_add_list (E : Env) (NE : NumEnv) (i : impl) (vs : list value) (z : Z) (zs : list Z) :
  Forall2 numeral vs (z :: zs) -> Forall within53 (z :: zs) -> partial_results Z.add within53 z zs ->
  tpl_add (VList i vs) [] = Ok (vint64 (fold_left Z.add zs z)).
Proof. exact (add_list i vs z zs). Qed.
Print Assumptions C35_add_list.

Theorem C35_multiply (E : Env) (NE : NumEnv) (v : value) (vs : list value) (z : Z) (zs : list Z) :
  numeral v z -> Forall2 numeral vs zs -> Forall within53 (z :: zs) -> partial_results Z.mul within53 z zs ->
  tpl_multiply v vs = Ok (vint64 (fold_left Z.mul zs z)).
Proof. exact (multiply_numerals v vs z zs). Qed.
Print Assumptions C35_multiply.

Theorem C35_multiply_list (E : Env) (NE : NumEnv) (i : impl) (vs : list value) (z : Z) (zs : list Z) :
  Forall2 numeral vs (z :: zs) -> Forall within53 (z :: zs) -> partial_results Z.mul within53 z zs ->
  tpl_multiply (VList i vs) [] = Ok (vint64 (fold_left Z.mul zs z)).
Proof. exact (multiply_list i vs z zs). Qed.
Print Assumptions C35_multiply_list.

Theorem C35_subtract (E : Env) (NE : NumEnv) (va vb : value) (a b : Z) :
  numeral va a -> numeral vb b -> within53 a -> within53 b -> within53 (a - b) -> tpl_subtract va vb = Ok (vint64 (a - b)).
Proof. exact (subtract_numerals va vb a b). Qed.
Print Assumptions C35_subtract.

Theorem C35_divide (E : Env) (NE : NumEnv) (va vb : value) (q b : Z) :
  numeral va (q * b) -> numeral vb b -> within53 (q * b) -> within53 b -> within53 q -> b <> 0 ->
  tpl_divide va vb = Ok (vint64 q).
Proof. exact (divide_numerals va vb q b). Qed.
Print Assumptions C35_divide.

Theorem C35_divide_by_zero (E : Env) (NE : NumEnv) (va vb : value) (a : Z) :
  numeral va a -> within53 a -> numeral vb 0 -> exists m, tpl_divide va vb = Err m.
Proof. exact (divide_zero va vb a). Qed.
Print Assumptions C35_divide_by_zero.

Theorem C35_modulo (E : Env) (NE : NumEnv) (va vb : value) (a b : Z) :
  numeral va a -> numeral vb b -> within53 a -> within53 b -> b <> 0 -> tpl_modulo va vb = Ok (vint64 (Z.rem a b)).
Proof. exact (modulo_numerals va vb a b). Qed.
Print Assumptions C35_modulo.

Theorem C35_average (E : Env) (NE : NumEnv) (v : value) (vs : list value) (z : Z) (zs : list Z) (q : Z) :
  numeral v z -> Forall2 numeral vs zs -> Forall within53 (z :: zs) -> partial_results Z.add within53 z zs ->
  fold_left Z.add zs z = q * (1 + Z.of_nat (List.length zs)) -> within53 q -> Z.of_nat (List.length zs) < 2 ^ 53 ->
  tpl_average v vs = Ok (vint64 q).
Proof. exact (average_numerals v vs z zs q). Qed.
Print Assumptions C35_average.

Theorem C35_min_max (E : Env) (NE : NumEnv) (vs : list value) (zs : list Z) :
  Forall2 numeral vs zs -> Forall within53 zs -> zs <> [] ->
  exists lo hi, tpl_min vs = Ok (vint64 lo) /\ tpl_max vs = Ok (vint64 hi) /\
    In lo zs /\ In hi zs /\ forall z, In z zs -> lo <= z <= hi.
Proof. exact (min_max_spec vs zs). Qed.
Print Assumptions C35_min_max.

Example C35_ex :
  let E := env1 in let N := num1 in
  (tpl_add (n_ 1) [s_ "2"; n_ (-7)], tpl_add (l_ [n_ 1; n_ 2]) [], tpl_multiply (n_ 94906265) [n_ 94906265], tpl_subtract (n_ 3) (n_ 5), tpl_divide (n_ 84) (n_ (-4)), tpl_modulo (n_ (-7)) (n_ 3))
  = (Ok (i_ (-4)), Ok (i_ 3), Ok (i_ 9007199136250225), Ok (i_ (-2)), Ok (i_ (-21)), Ok (i_ (-1))).
Proof. vm_compute. reflexivity. Qed.
Example C35_ex_more :
  let E := env1 in let N := num1 in
  (tpl_divide (n_ 1) (n_ 4), is_ok (tpl_divide (n_ 1) (n_ 0)), tpl_min [n_ 3; s_ "-2"; n_ 7], tpl_max [n_ 3; s_ "11"; n_ 7], tpl_average (n_ 1) [n_ 2; n_ 6])
  = (Ok (vfloat (S754_finite false 4503599627370496 (-54))), false, Ok (i_ (-2)), Ok (i_ 11), Ok (i_ 3)).
Proof. vm_compute. reflexivity. Qed.

(** Operands and result within 2^53 are not enough for three operands: 2^53 + 1 - 1. *)
Theorem C35_exact_refuted : exists (E : Env) (NE : NumEnv) (a b c r : Z),
  within53 a /\ within53 b /\ within53 c /\ within53 (a + b + c) /\ tpl_add (i_ a) [i_ b; i_ c] = Ok (i_ r) /\ r <> a + b + c.
Proof.
  exists env1, num1, (2 ^ 53), 1, (-1), (2 ^ 53 - 1). unfold within53. repeat split; try lia; try (vm_compute; congruence).
Qed.
Print Assumptions C35_exact_refuted.

(** Beyond 2^53 the sum of two int64 values can be wrong, products beyond int64 are not the product,
    and max does not even return one of its arguments. *)
Theorem C35_beyond_refuted : exists (E : Env) (NE : NumEnv),
  tpl_add (i_ (2 ^ 53)) [i_ 1] = Ok (i_ (2 ^ 53)) /\
  tpl_multiply (i_ (2 ^ 62)) [i_ 4] = Ok (i_ (- 2 ^ 63)) /\
  tpl_max [i_ (2 ^ 53 + 1); i_ 0] = Ok (i_ (2 ^ 53)).
Proof. exists env1, num1. vm_compute. repeat split; reflexivity. Qed.
Print Assumptions C35_beyond_refuted.
