(** Go float64 values: conversions from and to integers and decimal text, and the operations of
    package math used by the template functions.  The arithmetic itself is the standard library's
    SpecFloat with 53 bits of precision. *)
From Coq Require Import String Ascii List ZArith NArith Bool.
From Coq Require Import SpecFloat.
From Verif Require Import GoStr.
Import ListNotations.
Local Open Scope Z_scope.

Definition fprec : Z := 53.
Definition femax : Z := 1024.

Definition fadd : spec_float -> spec_float -> spec_float := SFadd fprec femax.
Definition fsub : spec_float -> spec_float -> spec_float := SFsub fprec femax.
Definition fmul : spec_float -> spec_float -> spec_float := SFmul fprec femax.
Definition fdiv : spec_float -> spec_float -> spec_float := SFdiv fprec femax.
Definition fzero : spec_float := S754_zero false.

(** float64(z) for an integer z: nearest float, ties to even. *)
Definition of_int (z : Z) : spec_float := binary_normalize fprec femax z 0 false.

(** The integer part, rounded towards zero: the exact value of Go's float to integer conversion
    before it is reduced to the range of the integer type. *)
Definition trunc_z (f : spec_float) : Z :=
  match f with
  | S754_finite s m e =>
      let a := if 0 <=? e then Z.pos m * 2 ^ e else Z.pos m / 2 ^ (- e) in
      if s then - a else a
  | _ => 0
  end.

(** The largest integer below. *)
Definition floor_z (f : spec_float) : Z :=
  match f with
  | S754_finite s m e =>
      let a := if s then - Z.pos m else Z.pos m in
      if 0 <=? e then a * 2 ^ e else a / 2 ^ (- e)
  | _ => 0
  end.

(** math.Floor, math.Ceil, and the fractional part of math.Modf. *)
Definition ffloor (f : spec_float) : spec_float :=
  match f with
  | S754_finite s m e =>
      if 0 <=? e then f
      else if floor_z f =? 0 then S754_zero s else of_int (floor_z f)
  | _ => f
  end.
Definition fceil (f : spec_float) : spec_float := SFopp (ffloor (SFopp f)).
Definition ffrac (f : spec_float) : spec_float :=
  match f with
  | S754_finite s m e =>
      if 0 <=? e then S754_zero s else
      match Z.pos m mod 2 ^ (- e) with
      | Z.pos r => binary_normalize fprec femax (if s then Z.neg r else Z.pos r) e s
      | _ => S754_zero s
      end
  | S754_infinity _ => S754_nan
  | _ => f
  end.

(** math.Min and math.Max. *)
Definition fsign (f : spec_float) : bool :=
  match f with
  | S754_zero s | S754_infinity s | S754_finite s _ _ => s
  | S754_nan => false
  end.
Definition fmin (x y : spec_float) : spec_float :=
  match x, y with
  | S754_infinity true, _ | _, S754_infinity true => S754_infinity true
  | S754_nan, _ | _, S754_nan => S754_nan
  | S754_zero sx, S754_zero sy => S754_zero (sx || sy)
  | _, _ => if SFltb x y then x else y
  end.
Definition fmax (x y : spec_float) : spec_float :=
  match x, y with
  | S754_infinity false, _ | _, S754_infinity false => S754_infinity false
  | S754_nan, _ | _, S754_nan => S754_nan
  | S754_zero sx, S754_zero sy => S754_zero (sx && sy)
  | _, _ => if SFltb y x then x else y
  end.

(** ** Text to numbers (package strconv) *)

(** The value of a digit in base 10 or 16. *)
Definition digit_val (base : Z) (c : ascii) : option Z :=
  let n := Z.of_N (N_of_ascii c) in
  let v := if (48 <=? n) && (n <=? 57) then Some (n - 48)
           else if (97 <=? n) && (n <=? 102) then Some (n - 87)
           else if (65 <=? n) && (n <=? 70) then Some (n - 55) else None in
  match v with Some d => if d <? base then Some d else None | None => None end.

Fixpoint digits_val (base acc : Z) (s : str) : option Z :=
  match s with
  | [] => Some acc
  | c :: s' => match digit_val base c with Some d => digits_val base (acc * base + d) s' | None => None end
  end.

Definition syntax_error : str := $"invalid syntax".
Definition range_error : str := $"value out of range".

(** strconv.ParseUint(s, base, 64) for base 10 or 16. *)
Definition parse_uint (base : Z) (s : str) : res Z :=
  match s with
  | [] => Err syntax_error
  | _ => match digits_val base 0 s with
         | None => Err syntax_error
         | Some n => if n <? 2 ^ 64 then Ok n else Err range_error
         end
  end.

Definition sign_split (s : str) : bool * str :=
  match s with
  | "-"%char :: r => (true, r)
  | "+"%char :: r => (false, r)
  | _ => (false, s)
  end.

(** strconv.ParseInt(s, base, 64); strconv.Atoi(s) is the case base = 10 (int has 64 bits). *)
Definition parse_int (base : Z) (s : str) : res Z :=
  match s with
  | [] => Err syntax_error
  | _ =>
      let '(neg, r) := sign_split s in
      do n <- parse_uint base r ;
      if neg then if n <=? 2 ^ 63 then Ok (- n) else Err range_error
      else if n <? 2 ^ 63 then Ok n else Err range_error
  end.

(** A decimal literal: sign, all the digits of the mantissa as a number, power of ten. *)
Fixpoint read_digits (s : str) : str * str :=
  match s with
  | c :: s' => match digit_val 10 c with
               | Some _ => let '(d, r) := read_digits s' in (c :: d, r)
               | None => ([], s)
               end
  | [] => ([], [])
  end.

Definition nat_of_digits (s : str) : Z :=
  match digits_val 10 0 s with Some n => n | None => 0 end.

Definition read_exponent (s : str) : option (Z * str) :=
  match s with
  | c :: r =>
      if (Ascii.eqb c "e" || Ascii.eqb c "E")%bool then
        let '(neg, r') := sign_split r in
        let '(d, r'') := read_digits r' in
        match d with
        | [] => None
        | _ => Some (if neg then - nat_of_digits d else nat_of_digits d, r'')
        end
      else Some (0, s)
  | [] => Some (0, s)
  end.

Definition read_decimal (s : str) : option (bool * Z * Z) :=
  let '(neg, r) := sign_split s in
  let '(ip, r1) := read_digits r in
  let '(fp, r2) := match r1 with "."%char :: r' => read_digits r' | _ => ([], r1) end in
  match ip ++ fp with
  | [] => None
  | ds => match read_exponent r2 with
          | Some (x, []) => Some (neg, nat_of_digits ds, x - Z.of_nat (List.length fp))
          | _ => None
          end
  end.

(** The float nearest to +-d * 10^x (ties to even): the quotient is computed with at least 64
    significant bits and a sticky bit, and rounded once. *)
Definition dec_float (neg : bool) (d x : Z) : spec_float :=
  match d with
  | Z.pos p =>
      if 310 <? x then S754_infinity neg
      else if Z.log2 d + 3 * x <? - 2000 then S754_zero neg
      else if 0 <=? x then binary_round fprec femax neg (Z.to_pos (d * 10 ^ x)) 0
      else
        let den := 10 ^ (- x) in
        let k := Z.max 0 (66 + Z.log2 den - Z.log2 d) in
        let q := d * 2 ^ k / den in
        let sticky := if d * 2 ^ k mod den =? 0 then 0 else 1 in
        binary_round fprec femax neg (Z.to_pos (2 * q + sticky)) (- k - 1)
  | _ => S754_zero neg
  end.

(** strconv.ParseFloat(s, 64).  [other] is the result for the texts that are not plain decimal
    literals (infinities, NaN, hexadecimal literals, underscores between digits), which the model
    leaves open. *)
Definition parse_float (other : str -> option spec_float) (s : str) : res spec_float :=
  match read_decimal s with
  | Some (neg, d, x) =>
      match dec_float neg d x with
      | S754_infinity _ => Err range_error
      | f => Ok f
      end
  | None => match other s with Some f => Ok f | None => Err syntax_error end
  end.

(** ** Numbers to text: strconv.FormatFloat(f, 'g', -1, 64), the shortest decimal that reads back as
    the same float.  It is used in examples; the theorems only assume what they need about it. *)

(** Number of decimal digits of a positive integer. *)
Fixpoint ndigits_fuel (fuel : nat) (z : Z) : Z :=
  match fuel with
  | O => 0
  | S n => if z <? 10 then 1 else 1 + ndigits_fuel n (z / 10)
  end.
Definition ndigits (z : Z) : Z := ndigits_fuel (Z.to_nat (Z.log2 z + 1)) z.

(** num/den in [10^(k-1), 10^k): the k, found from the digit counts. *)
Definition dec_exp (num den : Z) : Z :=
  let k := ndigits num - ndigits den in
  let ge := if 0 <=? k then den * 10 ^ k <=? num else den <=? num * 10 ^ (- k) in
  if ge then k + 1 else k.

(** The n digit candidates below and above num/den = d * 10^(k-n), the nearest first. *)
Definition dec_candidates (num den k n : Z) : list Z :=
  let x := k - n in
  let num' := if 0 <=? x then num else num * 10 ^ (- x) in
  let den' := if 0 <=? x then den * 10 ^ x else den in
  let d := num' / den' in
  let r := num' mod den' in
  if (2 * r <? den') || ((2 * r =? den') && Z.even d) then [d; d + 1] else [d + 1; d].

Fixpoint shortest_from (fuel : nat) (n : Z) (f : spec_float) (num den k : Z) : Z * Z :=
  match fuel with
  | O => (0, 0)
  | S fuel' =>
      match filter (fun d => SFeqb (dec_float false d (k - n)) f) (dec_candidates num den k n) with
      | d :: _ => (d, k - n)
      | [] => shortest_from fuel' (n + 1) f num den k
      end
  end.

Definition shortest (m : positive) (e : Z) : Z * Z :=
  let num := if 0 <=? e then Z.pos m * 2 ^ e else Z.pos m in
  let den := if 0 <=? e then 1 else 2 ^ (- e) in
  shortest_from 18 1 (S754_finite false m e) num den (dec_exp num den).

Fixpoint strip_zeros (fuel : nat) (d x : Z) : Z * Z :=
  match fuel with
  | O => (d, x)
  | S n => if (d mod 10 =? 0) && negb (d =? 0) then strip_zeros n (d / 10) (x + 1) else (d, x)
  end.

Definition pad2 (z : Z) : str := if z <? 10 then $"0" ++ itoa z else itoa z.

Definition fmt_pos (m : positive) (e : Z) : str :=
  let '(d0, x0) := shortest m e in
  let '(d, x) := strip_zeros 20 d0 x0 in
  let ds := itoa d in
  let nd := Z.of_nat (List.length ds) in
  let dp := nd + x in
  let ex := dp - 1 in
  if (ex <? - 4) || (6 <=? ex)
  then firstn 1 ds ++ (match skipn 1 ds with [] => [] | r => $"." ++ r end)
       ++ $"e" ++ (if ex <? 0 then $"-" ++ pad2 (- ex) else $"+" ++ pad2 ex)
  else if dp <=? 0 then $"0." ++ repeat "0"%char (Z.to_nat (- dp)) ++ ds
  else if nd <=? dp then ds ++ repeat "0"%char (Z.to_nat (dp - nd))
  else firstn (Z.to_nat dp) ds ++ $"." ++ skipn (Z.to_nat dp) ds.

Definition fmt_float (f : spec_float) : str :=
  match f with
  | S754_zero s => if s then $"-0" else $"0"
  | S754_infinity s => if s then $"-Inf" else $"+Inf"
  | S754_nan => $"NaN"
  | S754_finite s m e => (if s then $"-" else []) ++ fmt_pos m e
  end.
