(** The arithmetic template functions: template/math_utilities.go, math_base.go, math_bits.go,
    math_stats.go and part of extra_math.go. *)
From Coq Require Import String Ascii List ZArith NArith Bool.
From Coq Require Import SpecFloat.
From Verif Require Import GoStr ValueModel ListModel DataModel TextModel FloatModel.
Import ListNotations.
Local Open Scope Z_scope.

(** What the model leaves open about numbers: the int64 conversion of floats outside of the int64
    range (implementation dependent in Go), the texts strconv.ParseFloat accepts besides decimal
    literals, and the largest capacity make accepts. *)
Class NumEnv := { int64_oob : spec_float -> Z; parse_other : str -> option spec_float; max_cap : Z }.

Definition vfloat (f : spec_float) : value := VScal (SFloat f).
Definition vint64 (z : Z) : value := VScal (SInt KInt64 z).
Definition in_int64 (z : Z) : bool := (- 2 ^ 63 <=? z) && (z <? 2 ^ 63).

(** Two's complement reduction to 64 bits. *)
Definition wrap64 (z : Z) : Z := (z + 2 ^ 63) mod 2 ^ 64 - 2 ^ 63.

Fixpoint map_res {A B} (f : A -> res B) (l : list A) : res (list B) :=
  match l with
  | [] => Ok []
  | x :: r => do y <- f x; do ys <- map_res f r; Ok (y :: ys)
  end.

Section WithEnv.
Context {E : Env} {NE : NumEnv}.

(** must: template/utils.go:13; an error is a panic. *)
Definition must {A} (r : res A) : res A := match r with Err m => Panic m | _ => r end.

(** toInt, toInt64, toUnsignedInteger, toFloat: math_utilities.go:11-29 *)
Definition to_int (v : value) : res Z := must (parse_int 10 (sprint v)).
Definition to_uint (v : value) : res Z := must (parse_uint 10 (sprint v)).
Definition to_float (v : value) : res spec_float := must (parse_float parse_other (sprint v)).

(** int64(f) *)
Definition f_int64 (f : spec_float) : Z :=
  match f with
  | S754_zero _ | S754_finite _ _ _ => if in_int64 (trunc_z f) then trunc_z f else int64_oob f
  | _ => int64_oob f
  end.

(** simplify: math_utilities.go:129-131 *)
Definition simplify (f : spec_float) : value :=
  if SFeqb (ffloor f) f then vint64 (f_int64 f) else vfloat f.

(** convertArgs: math_utilities.go:110-127 *)
Definition convert_args1 (arg1 : value) (args : list value) : impl * list value :=
  match args with
  | [] => c_as_list arg1
  | _ => match c_try_as_list arg1 with
         | Some (i, _) => (i, list_append i (list_append i [] [arg1]) args)
         | None => (dflt, list_append dflt (new_list dflt [arg1]) args)
         end
  end.
Definition convert_args (arg1 : value) (args : list value) : impl * list value :=
  match arg1, args with
  | VNil, [] => (dflt, [])
  | VNil, a :: r => convert_args1 a r
  | _, _ => convert_args1 arg1 args
  end.

(** toListOfFloats and asFloats: math_utilities.go:31-63; the implementation of the list and its
    floats.  A failing conversion is an error. *)
Definition to_floats (values : list value) : res (impl * list spec_float) :=
  let '(i, l) := convert_args VNil values in
  trap (do fs <- map_res to_float (list_clone i l); Ok (i, fs)).

(** process with the handler of execute: math_utilities.go:64-84, 96-108 *)
Definition process (arg : value) (handler : value -> res value) : res value :=
  let '(i, l) := convert_args arg [] in
  trap match l with
       | [] => Ok VNil
       | [x] => handler x
       | _ => do vs <- map_res handler (list_clone i l); Ok (VList i (map (conv i) vs))
       end.

(** processFloat, processFloat2: math_utilities.go:86-94; a panicking handler is a Panic. *)
Definition process_float (arg : value) (h : spec_float -> res spec_float) : res value :=
  process arg (fun v => do f <- to_float v; do r <- h f; Ok (simplify r)).
Definition process_float2 (a b : value) (h : spec_float -> spec_float -> res spec_float) : res value :=
  process_float a (fun x => do y <- to_float b; h x y).

(** fmt.Sprint(args...): a space between operands when neither is a string. *)
Definition is_str (v : value) : bool := match v with VScal (SStr _ _) => true | _ => false end.
Fixpoint sprint_all (args : list value) : str :=
  match args with
  | [] => []
  | [a] => sprint a
  | a :: (b :: _) as r => sprint a ++ (if is_str a || is_str b then [] else $" ") ++ sprint_all r
  end.

Definition is_slice (v : value) : bool := match v with VSlice _ _ | VList _ _ => true | _ => false end.
Definition is_ok {A} (r : res A) : bool := match r with Ok _ => true | _ => false end.
Definition nil_panic : str := $"invalid memory address or nil pointer dereference".
Definition index_panic : str := $"index out of range".

Definition fsum (fs : list spec_float) : spec_float := fold_left fadd fs fzero.
Definition fproduct (fs : list spec_float) : spec_float := fold_left fmul fs (of_int 1).

(** The part of add after the numeric conversion failed: math_base.go:21-48 *)
Definition add_other (args : list value) : res value :=
  let generic :=
    match args with
    | [] => Panic index_panic
    | VNil :: _ => Panic nil_panic
    | a :: r =>
        if is_slice a then
          match r with
          | [] => Panic index_panic
          | VNil :: _ => Panic nil_panic
          | b :: _ =>
              if is_slice b then
                match merge_lists [convert_args a []; convert_args b []] with
                | Some (i, l) => Ok (VList i l)
                | None => Ok VNil
                end
              else let '(i, l) := convert_args a [] in Ok (VList i (list_append i l [b]))
          end
        else Ok (vstr (sprint_all args))
    end in
  match args with
  | [a; b] =>
      match to_floats (snd (convert_args a [])) with
      | Ok (i, af) =>
          if is_ok (parse_float parse_other (sprint b))
          then process_float2 (VList i (map vfloat af)) b (fun x y => Ok (fadd x y))
          else generic
      | _ => generic
      end
  | _ => generic
  end.

(** add: math_base.go:13-57 *)
Definition tpl_add (a : value) (args : list value) : res value :=
  match a with
  | VNil => Ok VNil
  | _ =>
      let '(_, l) := convert_args a args in
      trap match to_floats l with
           | Ok (_, fs) => Ok (simplify (fsum fs))
           | _ => add_other l
           end
  end.

(** multiply: math_base.go:59-113.  The product of two lists calls multiply again with the first list
    and a float, which always ends in processFloat2 (line 78). *)
Definition tpl_multiply (a : value) (args : list value) : res value :=
  match a, args with
  | VNil, [] | VNil, [_] => Ok VNil
  | _, _ =>
      let '(_, l) := convert_args a args in
      trap match to_floats l with
           | Ok (_, []) => Ok (vint 0)
           | Ok (_, fs) => Ok (simplify (fproduct fs))
           | _ =>
               match l with
               | [x; y] =>
                   let rep :=
                     do n <- to_int y;
                     if n <? 0 then Panic $"negative count" else
                     match x with
                     | VScal (SStr false s) => Ok (vstr (concat (repeat s (Z.to_nat n))))
                     | _ => Ok (VSlice 0 (repeat x (Z.to_nat n)))
                     end in
                   match to_floats (snd (convert_args x [])) with
                   | Ok (i, af) =>
                       let row b := process_float2 (VList i (map vfloat af)) b (fun x y => Ok (fmul x y)) in
                       if is_ok (parse_float parse_other (sprint y)) then row y
                       else match to_floats (snd (convert_args y [])) with
                            | Ok (_, af2) =>
                                Ok (VSlice 0 (map (fun f => match row (vfloat f) with Ok v => v | _ => VNil end) af2))
                            | _ => rep
                            end
                   | _ => rep
                   end
               | _ => Panic nil_panic
               end
           end
  end.

(** math.Mod *)
Definition fmod (x y : spec_float) : spec_float :=
  match x, y with
  | S754_nan, _ | _, S754_nan | _, S754_zero _ | S754_infinity _, _ => S754_nan
  | S754_zero _, _ | _, S754_infinity _ => x
  | S754_finite sx mx ex, S754_finite _ my ey =>
      let e := Z.min ex ey in
      let r := (Z.pos mx * 2 ^ (ex - e)) mod (Z.pos my * 2 ^ (ey - e)) in
      binary_normalize fprec femax (if sx then - r else r) e sx
  end.

(** subtract, divide, modulo: math_base.go:115-133; average: math_stats.go:7-19 *)
Definition tpl_subtract (a b : value) : res value := process_float2 a b (fun x y => Ok (fsub x y)).
Definition tpl_divide (a b : value) : res value :=
  process_float2 a b (fun x y => if SFeqb y fzero then Panic $"division by 0" else Ok (fdiv x y)).
Definition tpl_modulo (a b : value) : res value := process_float2 a b (fun x y => Ok (fmod x y)).
Definition tpl_average (a : value) (args : list value) : res value :=
  match a with
  | VNil => Err $"first argument could not be nil"
  | _ =>
      match snd (convert_args a args) with
      | [] => Ok (vint 0)
      | x :: r =>
          trap (do f <- to_float (match tpl_add x r with Ok v => v | _ => VNil end);
                Ok (simplify (fdiv f (of_int (1 + zlen r)))))
      end
  end.

(** compareNumerics and compareStrings: math_utilities.go:133-158; min and max: math_stats.go:21-22 *)
Definition compare_strings (use_min : bool) (l : list str) : str :=
  match l with
  | [] => []
  | s :: r => fold_left (fun acc v => if (use_min && str_ltb v acc) || (negb use_min && str_ltb acc v) then v else acc) r s
  end.
Definition compare_numerics (use_min : bool) (vs : list value) : res value :=
  match vs with
  | [] => Ok VNil
  | _ =>
      match to_floats (as_list_arr dflt vs) with
      | Ok (_, f :: fs) => Ok (simplify (fold_left (if use_min then fmin else fmax) fs f))
      | Ok (_, []) => Panic index_panic
      | _ => Ok (vstr (compare_strings use_min (map sprint vs)))
      end
  end.
Definition tpl_min := compare_numerics true.
Definition tpl_max := compare_numerics false.

(** generateNumericArray: math_utilities.go:160-196.
    round of sprig (numeric.go), with math.Pow(10, p) which is exact for p <= 22: *)
Definition half : spec_float := S754_finite false 4503599627370496 (-53).
Definition sprig_round (f : spec_float) (p : Z) : spec_float :=
  let pow := of_int (10 ^ p) in
  let digit := fmul pow f in
  fdiv (if SFleb half (ffrac digit) then fceil digit else ffloor digit) pow.

(** The loop, with a bound on the number of iterations: None when the bound is reached. *)
Definition seq_continues (limit forward : bool) (stop current : spec_float) : bool :=
  ((forward && SFleb current stop) || (negb forward && SFleb stop current)) && (limit || negb (SFeqb current stop)).
Fixpoint seq_loop (fuel : nat) (limit forward : bool) (p : Z) (step stop current : spec_float) : option (list value) :=
  if seq_continues limit forward stop current then
    match fuel with
    | O => None
    | S n => let c := sprig_round current p in
             option_map (cons (simplify c)) (seq_loop n limit forward p step stop (fadd c step))
    end
  else Some [].

(** len(frac) of line 173: the text of the step after the dot. *)
Definition step_precision (step : spec_float) : Z :=
  zlen (snd (split2 (sprint (vfloat step)) $".")).

Definition seq_params (limit : bool) (params : list value) : res (spec_float * spec_float * spec_float * Z) :=
  match params with
  | [b] => do stop <- to_float b; Ok ((if limit then of_int 1 else fzero), stop, of_int 1, 0)
  | [a; b] => do start <- to_float a; do stop <- to_float b; Ok (start, stop, of_int 1, 0)
  | [a; b; c] =>
      do s <- to_float c; do start <- to_float a; do stop <- to_float b;
      Ok (start, stop, SFabs s, step_precision (SFabs s))
  | _ => Err $"invalid arguments, must be start [stop] [step]"
  end.

(** The outer None stands for a loop of more than fuel iterations. *)
Definition numeric_array (fuel : nat) (limit : bool) (params : list value) : option (res value) :=
  match seq_params limit params with
  | Ok (start, stop, step, p) =>
      if SFeqb step fzero then Some (Err $"step cannot be zero")
      else
        let cap := f_int64 (SFabs (fsub stop start)) in
        if (cap <? 0) || (max_cap <? cap) then Some (Err $"makeslice: cap out of range")
        else
          let forward := SFltb start stop in
          let step := if forward then step else SFopp step in
          option_map (fun l => Ok (VList dflt l)) (seq_loop fuel limit forward p step stop start)
  | Err m => Some (Err m)
  | Panic m => Some (Err m)
  end.

(** ** Bits: math_bits.go *)

(** leftShift, rightShift: math_bits.go:9-17; an int64 shifted by an unsigned count. *)
Definition shl64 (a n : Z) : Z := wrap64 (a * 2 ^ n).
Definition shr64 (a n : Z) : Z := a / 2 ^ n.
Definition tpl_lshift (a b : value) : res value :=
  process a (fun v => do x <- to_int v; do n <- to_uint b;
                      Ok (vint64 (if 64 <=? n then 0 else shl64 x n))).
Definition tpl_rshift (a b : value) : res value :=
  process a (fun v => do x <- to_int v; do n <- to_uint b;
                      Ok (vint64 (if 64 <=? n then (if x <? 0 then - 1 else 0) else shr64 x n))).

(** bitwiseOr, bitwiseAnd, bitwiseXor, bitwiseClear: math_bits.go:19-53 *)
Definition bitwise (op : Z -> Z -> Z) (a b : value) (rest : list value) : res value :=
  trap (do x <- to_int a; do y <- to_int b; do zs <- map_res to_int rest;
        Ok (vint64 (fold_left op zs (op x y)))).
Definition tpl_bor := bitwise Z.lor.
Definition tpl_band := bitwise Z.land.
Definition tpl_bxor := bitwise Z.lxor.
Definition tpl_bclear := bitwise Z.ldiff.

(** Upper case hexadecimal digits of a natural number, the %X verb. *)
Definition hex_digit (d : Z) : ascii := ascii_of_N (Z.to_N (if d <? 10 then 48 + d else 55 + d)).
Fixpoint hex_fuel (fuel : nat) (n : Z) : str :=
  match fuel with
  | O => []
  | S f => (if n <? 16 then [] else hex_fuel f (n / 16)) ++ [hex_digit (n mod 16)]
  end.
Definition hex_upper (n : Z) : str := hex_fuel (S (Z.to_nat (Z.log2 n))) n.

(** hex, decimal: math_bits.go:55-67 *)
Definition hex_text (z : Z) : str := $"0x" ++ (if z <? 0 then $"-" else []) ++ hex_upper (Z.abs z).
Definition tpl_hex (a : value) : res value := process a (fun v => do z <- to_int v; Ok (vstr (hex_text z))).
Definition tpl_decimal (a : value) : res value :=
  process a (fun v => do z <- must (parse_int 16 (trim_prefix $"0x" (sprint v))); Ok (vint64 z)).

End WithEnv.
