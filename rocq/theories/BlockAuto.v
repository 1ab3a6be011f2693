(** The automaton of razor documents with blocks and assignments, and the replacements it excludes. *)
From Coq Require Import String Ascii List ZArith NArith Bool.
From Verif Require Import GoStr TemplateModel ReModel ReSyntaxModel RazorTableModel ReSound RazorRefAuto RazorAsgAuto.
Import ListNotations.
Local Open Scope char_scope.

Definition mark_texts : list str := [$""; $"_"; $"-"; $"--"; $"_-"].
Section Delta.
(** The keywords of the lines *)
Variable keys : list str.
Definition key_words : list str := flat_map (fun m => map (app m) keys) mark_texts.
(** What follows a keyword *)
Definition after_key (w : str) : list str :=
  if has_suffix $"else" w then (if mem $"if" keys then [$"ce"; $"cf"] else [$"ce"])
  else if has_suffix $"end" w then [$"cz"]
  else if has_suffix $"for" w then [$"co"; $"cx"]
  else [$"co"].
Definition key_step (u : str) (c : ascii) : list str :=
  let v := u ++ [c] in
  if mem v key_words then after_key v else if existsb (has_prefix v) key_words then ["k" :: v] else [].
Definition cdelta (q : str) (c : ascii) : list str :=
  if str_eqb q $"@" then key_step [] c
  else if str_eqb q $"ce" then (if Ascii.eqb c "010" then [$"L"] else if one_of ["@"; "("] c then [] else [$"ce"])
  else if str_eqb q $"cz" then (if Ascii.eqb c "010" then [$"L"] else if Ascii.eqb c "@" then [] else [$"cz"])
  else if str_eqb q $"cf" then (if is_blank c then [$"cf"] else if Ascii.eqb c "i" then [$"cg"] else [])
  else if str_eqb q $"cg" then (if Ascii.eqb c "f" then [$"co"] else [])
  else if str_eqb q $"cx" then (if is_blank c then [$"cx"] else if Ascii.eqb c "e" then [$"x1"] else [])
  else if str_eqb q $"x1" then (if Ascii.eqb c "a" then [$"x2"] else [])
  else if str_eqb q $"x2" then (if Ascii.eqb c "c" then [$"x3"] else [])
  else if str_eqb q $"x3" then (if Ascii.eqb c "h" then [$"co"] else [])
  else if str_eqb q $"co" then (if is_blank c then [$"co"] else if Ascii.eqb c "(" then [$"cv"] else [])
  else if str_eqb q $"cv" then (if is_value c then (if Ascii.eqb c ")" then [$"cv"; $"ct"] else [$"cv"]) else [])
  else if str_eqb q $"ct" then (if Ascii.eqb c "010" then [$"L"] else if one_of [")"; "@"; ";"; "{"] c then [] else [$"ct"])
  else match q with
       | "k" :: u => key_step u c
       | _ => []
       end.
Definition bdelta (q : str) (c : ascii) : list str := adelta true q c ++ cdelta q c.
(** The first line only: anything after it *)
Definition one_line (q : str) (c : ascii) : list str :=
  if str_eqb q $"*" || Ascii.eqb c "010" then [$"*"] else bdelta q c.
End Delta.
Definition bsilent_with (bytes : list ascii) (fuel : nat) (keys ws : list str) : re -> bool :=
  let d := dead bytes (bdelta keys) inits in fun r => if needs bytes fuel ws [] [r] then true else d r.
Definition bsilent : list str -> list str -> re -> bool := bsilent_with all_bytes 400.
Definition foreign_with (d : (str -> ascii -> list str) -> list str -> re -> bool) (keys : list str) (r : re) : bool := d (one_line keys) inits r.
Definition foreign : list str -> re -> bool := foreign_with (dead all_bytes).
Definition all_keys : list str := [$"for"; $"if"; $"with"; $"range"; $"else"; $"end"].
Definition some_keys : list str := [$"if"; $"with"; $"range"; $"else"; $"end"].
Definition late_keys : list str := [$"else"; $"end"].
