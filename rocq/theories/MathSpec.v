(** Vocabulary of the properties of the arithmetic functions, independent of their model. *)
From Coq Require Import String Ascii List ZArith NArith Bool.
From Verif Require Import GoStr ValueModel.
Import ListNotations.
Local Open Scope Z_scope.

Section WithEnv.
Context {E : Env}.

(** A scalar that prints as the integer z: an integer of any type, or a string such as "12". *)
Definition numeral (v : value) (z : Z) : Prop := exists s, v = VScal s /\ sprint_scalar s = itoa z.

End WithEnv.

(** A text that cannot be a decimal integer: it holds something else than digits and signs. *)
Definition not_integer_text (s : str) : Prop :=
  exists c, In c s /\ c <> "+"%char /\ c <> "-"%char /\ ~ (48 <= N_of_ascii c <= 57)%N.

(** Integers that floats represent exactly. *)
Definition within53 (z : Z) : Prop := - 2 ^ 53 <= z <= 2 ^ 53.
Definition within64 (z : Z) : Prop := - 2 ^ 63 <= z < 2 ^ 63.

(** All partial results of folding op over the list satisfy P. *)
Fixpoint partial_results (op : Z -> Z -> Z) (P : Z -> Prop) (acc : Z) (l : list Z) : Prop :=
  P acc /\ match l with
           | [] => True
           | x :: r => partial_results op P (op acc x) r
           end.

(** The number of terms of the sequence start, start + step, ... up to the distance d = |stop - start|:
    the multiples of step not above d, or below d when the end is excluded. *)
Definition term_count (inclusive : bool) (d step : Z) : Z :=
  if inclusive then d / step + 1 else (d + step - 1) / step.

(** The arithmetic sequence from start towards stop. *)
Definition arith_seq (inclusive : bool) (start stop step : Z) : list Z :=
  let dir := if start <? stop then 1 else - 1 in
  map (fun k => start + dir * Z.of_nat k * step)
      (seq 0 (Z.to_nat (term_count inclusive (Z.abs (stop - start)) step))).

(** A canonical hexadecimal literal: 0x0, or 0x, an optional minus and upper case digits without
    leading zero. *)
Definition upper_hex (c : ascii) : Prop := (48 <= N_of_ascii c <= 57 \/ 65 <= N_of_ascii c <= 70)%N.
Definition hex_literal (s : str) : Prop :=
  s = $"0x0" \/
  exists neg d ds, s = $"0x" ++ (if neg : bool then $"-" else []) ++ d :: ds /\
    upper_hex d /\ d <> "0"%char /\ Forall upper_hex ds.

(** The value of a digit string, most significant first. *)
Definition hex_value (s : str) : Z :=
  fold_left (fun acc c => acc * 16 + (if (N_of_ascii c <=? 57)%N then Z.of_N (N_of_ascii c) - 48
                                      else Z.of_N (N_of_ascii c) - 55)) s 0.
