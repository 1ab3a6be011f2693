(** The automaton of razor documents with assignments, and the replacements it excludes. *)
From Coq Require Import String Ascii List ZArith NArith Bool.
From Verif Require Import GoStr TemplateModel ReModel ReSyntaxModel RazorTableModel ReSound RazorRefAuto.
Import ListNotations.
Local Open Scope char_scope.

(** Characters of assigned expressions *)
Definition is_value (c : ascii) : bool :=
  is_word c || is_blank c || one_of ["+"; "-"; "*"; "/"; "%"; "("; ")"; ","; "<"; ">"; "="; "!"; "&"; "|"; "^"; "."] c.
Definition kw2 : list str := [$"else"; $"end"].

Section Delta.
(** Are there targets without braces? *)
Variable open : bool.
Definition name_state2 (v : str) : str := if existsb (has_prefix v) kw2 then "n" :: v else $"I".
Definition name_step2 (u : str) (c : ascii) : list str :=
  let v := u ++ [c] in if mem v kw2 then [] else [name_state2 v].
Definition op_step (blank : bool) (c : ascii) : list str :=
  if Ascii.eqb c "=" then [$"V"]
  else if one_of [":"; "/"; "|"; "^"] c then [$"O="]
  else if blank && one_of ["+"; "-"; "*"; "%"] c then [$"O="]
  else if Ascii.eqb c "&" then [$"O&"]
  else if Ascii.eqb c "<" then [$"O<"]
  else if Ascii.eqb c ">" then [$"O>"]
  else [].
Definition after_name (c : ascii) : list str :=
  if Ascii.eqb c "." then [$"@."] else if is_blank c then [$"B"] else op_step false c.
Definition adelta (q : str) (c : ascii) : list str :=
  if str_eqb q $"L" then
    (if is_blank c || Ascii.eqb c "010" then [$"L"]
     else if Ascii.eqb c "@" then [$"@"] else [$"T"])
  else if str_eqb q $"T" then (if Ascii.eqb c "010" then [$"L"] else if Ascii.eqb c "@" then [] else [$"T"])
  else if str_eqb q $"@" then
    (if Ascii.eqb c "{" then [$"{"]
     else if negb open then []
     else if is_alpha c then name_step2 [] c
     else if Ascii.eqb c "." then [$"@."] else if Ascii.eqb c "$" then [$"@$"] else [])
  else if str_eqb q $"@$" then (if Ascii.eqb c "." then [$"@."] else if is_alpha c then [$"I"] else [])
  else if str_eqb q $"@." then (if is_alpha c then [$"I"] else [])
  else if str_eqb q $"I" then (if is_word c then [$"I"] else after_name c)
  else if str_eqb q $"{" then (if is_alpha c then [$"J"] else [])
  else if str_eqb q $"J" then (if is_word c then [$"J"] else if Ascii.eqb c "." then [$"{"] else if Ascii.eqb c "}" then [$"B"] else [])
  else if str_eqb q $"B" then (if is_blank c then [$"B"] else op_step true c)
  else if str_eqb q $"O=" then (if Ascii.eqb c "=" then [$"V"] else [])
  else if str_eqb q $"O&" then (if Ascii.eqb c "=" then [$"V"] else if Ascii.eqb c "^" then [$"O="] else [])
  else if str_eqb q $"O<" then (if Ascii.eqb c "<" then [$"O="] else [])
  else if str_eqb q $"O>" then (if Ascii.eqb c ">" then [$"O="] else [])
  else if str_eqb q $"V" then (if is_blank c then [$"V"] else if is_value c then [$"E"] else [])
  else if str_eqb q $"E" then (if is_value c then [$"E"] else if Ascii.eqb c "010" then [$"L"] else [])
  else match q with
       | "n" :: u => if is_word c then name_step2 u c else after_name c
       | _ => []
       end.
End Delta.
(** A text may be cut anywhere: the states without those that follow a delimiter, as they are reached from T with text. *)
Definition inits : list str := [$"L"; $"T"].
Definition asilent_with (bytes : list ascii) (fuel : nat) (open : bool) (ws : list str) : re -> bool :=
  let d := dead bytes (adelta open) inits in fun r => if needs bytes fuel ws [] [r] then true else d r.
Definition asilent : bool -> list str -> re -> bool := asilent_with all_bytes 400.
