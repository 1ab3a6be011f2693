(** Quoting of texts as done by Go (fmt verb %q, strconv.Quote). *)
From Coq Require Import String Ascii List ZArith NArith Bool.
From Verif Require Import GoStr Utf8.
Import ListNotations.
Local Open Scope N_scope.

(** What the model does not define: which runes beyond ASCII unicode.IsPrint accepts. *)
Class PrintEnv := { is_print_other : N -> bool }.

(** n in hexadecimal on the given number of digits: strconv/quote.go, appendEscapedRune *)
Definition low_digit (n : N) : ascii := nth (N.to_nat n) $"0123456789abcdef" "0"%char.
Fixpoint low_hex (width : nat) (n : N) : str :=
  match width with O => [] | S w => low_hex w (n / 16) ++ [low_digit (n mod 16)] end.

Section WithEnv.
Context {P : PrintEnv}.

(** strconv.IsPrint *)
Definition is_print (r : N) : bool := if r <? 128 then (32 <=? r) && (r <=? 126) else is_print_other r.

(** The escaped form of one rune, or of one invalid byte: strconv/quote.go, appendQuotedWith and
    appendEscapedRune. *)
Definition escape (r : N) : str :=
  BSL :: (if r =? 7 then $"a" else if r =? 8 then $"b" else if r =? 12 then $"f" else if r =? 10 then $"n"
          else if r =? 13 then $"r" else if r =? 9 then $"t" else if r =? 11 then $"v"
          else if (r <? 32) || (r =? 127) then $"x" ++ low_hex 2 r
          else if r <? 65536 then $"u" ++ low_hex 4 r else $"U" ++ low_hex 8 r).
Definition quote_chunk (c : chunk) : str :=
  let (r, b) := c in
  match b with
  | [x] => if r =? rune_error then BSL :: $"x" ++ low_hex 2 (N_of_ascii x)
           else if (r =? 34) || (r =? 92) then [BSL; x]
           else if is_print r then b else escape r
  | _ => if is_print r then b else escape r
  end.

(** fmt.Sprintf of one text with the verb %q *)
Definition go_quote (s : str) : str := DQ :: concat (map quote_chunk (chunks s)) ++ [DQ].

End WithEnv.
