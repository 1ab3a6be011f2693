(** Reading back quoted texts, written from the Go language specification (interpreted string
    literals) independently of the model. *)
From Coq Require Import String Ascii List ZArith NArith Bool.
From Verif Require Import GoStr.
Import ListNotations.
Local Open Scope N_scope.

(** The value of a hexadecimal digit. *)
Definition digit_value (c : ascii) : option N :=
  let n := N_of_ascii c in
  if (48 <=? n) && (n <=? 57) then Some (n - 48)
  else if (97 <=? n) && (n <=? 102) then Some (n - 87)
  else if (65 <=? n) && (n <=? 70) then Some (n - 55)
  else None.
Definition number (ds : str) : option N :=
  fold_left (fun o c => match o, digit_value c with Some n, Some d => Some (16 * n + d) | _, _ => None end) ds (Some 0).

(** The UTF-8 encoding of a code point. *)
Definition utf8 (r : N) : str :=
  map ascii_of_N
    (if r <? 128 then [r]
     else if r <? 2048 then [192 + r / 64; 128 + r mod 64]
     else if r <? 65536 then [224 + r / 4096; 128 + r / 64 mod 64; 128 + r mod 64]
     else [240 + r / 262144; 128 + r / 4096 mod 64; 128 + r / 64 mod 64; 128 + r mod 64]).

(** The body of a literal up to the closing quote: the text and what follows the quote. *)
Definition more (a : option str) (r : option (str * str)) : option (str * str) :=
  match a, r with Some a, Some (t, rest) => Some (a ++ t, rest) | _, _ => None end.
Definition code (ds : str) : option str := match number ds with Some r => Some (utf8 r) | None => None end.
Definition one_byte (ds : str) : option str := match number ds with Some r => Some [ascii_of_N r] | None => None end.
Definition simple_escape (c : ascii) : option str :=
  match c with
  | "a" => Some [ascii_of_N 7] | "b" => Some [ascii_of_N 8] | "f" => Some [ascii_of_N 12]
  | "n" => Some [ascii_of_N 10] | "r" => Some [ascii_of_N 13] | "t" => Some [ascii_of_N 9]
  | "v" => Some [ascii_of_N 11] | "\" => Some ["\"] | """" => Some [""""]
  | _ => None
  end%char.
Fixpoint literal_body (s : str) : option (str * str) :=
  match s with
  | [] => None
  | """" :: r => Some ([], r)
  | "\" :: "x" :: a :: b :: r => more (one_byte [a; b]) (literal_body r)
  | "\" :: "u" :: a :: b :: c :: d :: r => more (code [a; b; c; d]) (literal_body r)
  | "\" :: "U" :: a :: b :: c :: d :: e :: f :: g :: h :: r => more (code [a; b; c; d; e; f; g; h]) (literal_body r)
  | "\" :: c :: r => more (simple_escape c) (literal_body r)
  | c :: r => more (Some [c]) (literal_body r)
  end%char.

(** A literal at the beginning of a text: its value and what follows. *)
Definition read_literal (s : str) : option (str * str) :=
  match s with """"%char :: r => literal_body r | _ => None end.
