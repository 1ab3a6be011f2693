(** The automaton of razor documents with calls and expressions, and the replacements it excludes. *)
From Coq Require Import String Ascii List ZArith NArith Bool.
From Verif Require Import GoStr TemplateModel ReModel ReSyntaxModel RazorTableModel ReSound RazorRefSpec RazorRefAuto RazorAsgAuto BlockAuto CallSpec.
Import ListNotations.
Local Open Scope char_scope.

Definition taken_names : list str := reserved ++ indenters.
Definition begun : list str := [$"else"; $"end"] ++ taken_names.
Section Delta.
(** Are there calls?  Are their names compared with the keywords?  Are there names in parentheses? *)
Variables calls track names : bool.
Definition call_name_state (v : str) : str := if existsb (has_prefix v) begun then "n" :: v else $"I".
Definition call_name_step (u : str) (c : ascii) : list str :=
  if track then (let v := u ++ [c] in if mem v kw2 then [] else [call_name_state v]) else [$"I"].
(** After the last parenthesis, and after the blanks that follow it *)
Definition behind (bad : list ascii) (c : ascii) : list str :=
  if Ascii.eqb c "010" then [$"P"] else if one_of ([")"; "@"] ++ bad) c then []
  else if is_blank c then [$"R"] else [$"Z"].
Definition edelta (q : str) (c : ascii) : list str :=
  if str_eqb q $"P" then (if Ascii.eqb c "@" then [$"@"] else [$"P"])
  else if str_eqb q $"T" then (if Ascii.eqb c "010" then [$"P"] else if Ascii.eqb c "@" then [] else [$"T"])
  else if str_eqb q $"@" then
    (if Ascii.eqb c "(" then [$"("]
     else if Ascii.eqb c "-" then [$"@-"]
     else if negb calls then []
     else if Ascii.eqb c "_" then [$"@_"]
     else if is_alpha c then call_name_step [] c else [])
  else if str_eqb q $"@-" then
    (if Ascii.eqb c "(" then [$"("]
     else if Ascii.eqb c "-" then [$"@="]
     else if negb calls then []
     else if is_alpha c then call_name_step [] c else [])
  else if str_eqb q $"@=" then (if Ascii.eqb c "(" then [$"("] else if negb calls then [] else if is_alpha c then call_name_step [] c else [])
  else if str_eqb q $"@_" then (if Ascii.eqb c "-" then [$"@+"] else if is_alpha c then call_name_step [] c else [])
  else if str_eqb q $"@+" then (if is_alpha c then call_name_step [] c else [])
  else if str_eqb q $"I" then (if is_word c then [$"I"] else if Ascii.eqb c "(" then [$"C"] else [])
  (* the arguments of a call, and what follows a parenthesis in them *)
  else if str_eqb q $"C" then (if is_value c then (if Ascii.eqb c ")" then [$"C)"; $"A"] else [$"C"]) else [])
  else if str_eqb q $"C)" then (if Ascii.eqb c "." then [] else if is_value c then (if Ascii.eqb c ")" then [$"C)"; $"A"] else [$"C"]) else [])
  else if str_eqb q $"A" then behind ["["; "."] c
  (* an expression: a name, or something else *)
  else if str_eqb q $"(" then (if is_blank c then [$"("] else if is_alpha c || Ascii.eqb c "_" then [$"(i"] else if is_value c then [$"(v"] else [])
  else if str_eqb q $"(i" then (if is_word c || Ascii.eqb c "." then [$"(i"] else if Ascii.eqb c ")" then (if names then [$"D"] else []) else if is_blank c then [$"(b"] else if is_value c then [$"(v"] else [])
  else if str_eqb q $"(b" then (if is_blank c then [$"(b"] else if Ascii.eqb c ")" then [] else if is_value c then [$"(v"] else [])
  else if str_eqb q $"(v" then (if is_value c then (if Ascii.eqb c ")" then [$"(v"; $"D"] else [$"(v"]) else [])
  else if str_eqb q $"D" then behind ["["] c
  else if str_eqb q $"R" then (if Ascii.eqb c "010" then [$"P"] else if one_of [")"; "@"] c then [] else if is_blank c then [$"R"] else [$"Z"])
  else if str_eqb q $"Z" then (if Ascii.eqb c "010" then [$"P"] else if one_of [")"; "@"] c then [] else [$"Z"])
  else match q with
       | "n" :: u => if is_word c then call_name_step u c else if Ascii.eqb c "(" then (if mem u taken_names then [] else [$"C"]) else []
       | _ => []
       end.
Definition one_call (q : str) (c : ascii) : list str := if str_eqb q $"*" || Ascii.eqb c "010" then [$"*"] else edelta q c.
End Delta.
Definition places : list str := [$"P"; $"T"].
Definition esilent_with (bytes : list ascii) (fuel : nat) (calls track names : bool) (ws : list str) : re -> bool :=
  let d := dead bytes (edelta calls track names) places in fun r => if needs bytes fuel ws [] [r] then true else d r.
Definition esilent : bool -> bool -> bool -> list str -> re -> bool := esilent_with all_bytes 400.
Definition eforeign_with (d : (str -> ascii -> list str) -> list str -> re -> bool) (calls track names : bool) (r : re) : bool := d (one_call calls track names) places r.
Definition eforeign : bool -> bool -> bool -> re -> bool := eforeign_with (dead all_bytes).
