(** The automaton of plain razor documents, and the replacements it excludes. *)
From Coq Require Import String Ascii List ZArith NArith Bool Lia ZifyBool ZifyN.
From Verif Require Import GoStr GoStrFacts Utf8 Utf8Facts TemplateModel ReModel ReSyntaxModel RazorTableModel ReSound RazorRefSpec.
Import ListNotations.
Local Open Scope char_scope.

Definition is_alpha (c : ascii) : bool := let n := N_of_ascii c in between 65 90 n || between 97 122 n.
Definition is_word (c : ascii) : bool := is_alpha c || between 48 57 (N_of_ascii c) || Ascii.eqb c "_".
Definition is_blank (c : ascii) : bool := Ascii.eqb c " " || Ascii.eqb c "009".
Definition one_of (l : list ascii) (c : ascii) : bool := existsb (Ascii.eqb c) l.
Definition is_glue : ascii -> bool := one_of ["+"; "*"; "%"; "#"; "!"; "~"; "-"].
Definition is_op : ascii -> bool := one_of ["/"; "&"; "|"; "^"; "<"; ">"; ":"].
Definition is_op2 (c : ascii) : bool := is_op c || one_of ["+"; "-"; "*"; "%"; "~"] c.

Definition words : list str := $"else" :: $"end" :: reserved.
Definition kw_prefix (u : str) : bool := existsb (has_prefix u) words.

Section Delta.
Variable esc : bool.
Definition at_states : list str := if esc then [$"@"; $"E"] else [$"@"].
(** The state of a name of which v was read *)
Definition name_state (v : str) : str := if kw_prefix v then "n" :: v else $"I".
Definition name_step (u : str) (c : ascii) : list str :=
  let v := u ++ [c] in if mem v [$"else"; $"end"] then [] else [name_state v].
(** After a name *)
Definition exits (c : ascii) : list str :=
  if is_glue c then [$"M"]
  else if is_blank c then [$"B"]
  else if Ascii.eqb c "@" then at_states
  else if Ascii.eqb c ";" then [$"T"]
  else if is_op c then [$"O"]
  else if low c && negb (is_word c) && negb (one_of ["="; "("; "["; "."] c) then [$"T"]
  else [].
Definition go_text (c : ascii) : list str := if Ascii.eqb c "@" then at_states else [$"T"].
Definition delta (q : str) (c : ascii) : list str :=
  if str_eqb q $"T" then go_text c
  else if str_eqb q $"E" then (if Ascii.eqb c "@" then [$"T"] else [])
  else if str_eqb q $"@" then (if one_of ["-"; "_"] c then [$"@1"] else if is_alpha c then name_step [] c else [])
  else if str_eqb q $"@1" then (if Ascii.eqb c "-" then [$"@2"] else if is_alpha c then name_step [] c else [])
  else if str_eqb q $"@2" then (if is_alpha c then name_step [] c else [])
  else if str_eqb q $"I" then (if is_word c then [$"I"] else exits c)
  else if str_eqb q $"M" then (if is_word c || is_glue c then [$"M"] else exits c)
  else if str_eqb q $"B" then (if is_blank c then [$"B"] else if Ascii.eqb c "@" then at_states
                               else if is_op2 c then [$"O"]
                               else if negb (low c) then [$"X"]
                               else if Ascii.eqb c "=" then [] else [$"T"])
  else if str_eqb q $"O" then (if one_of ["="; "<"; ">"; "^"] c then [] else go_text c)
  else if str_eqb q $"X" then (if one_of ["171"; "183"; "187"] c then [] else go_text c)
  else match q with
       | "n" :: u => if is_word c then name_step u c else if mem u reserved then [] else exits c
       | _ => []
       end.
End Delta.

Definition starts (esc : bool) : list str := if esc then [$"T"; $"E"] else [$"T"].
Definition silent_with (bytes : list ascii) (fuel : nat) (esc : bool) (ws : list str) : re -> bool :=
  let d := dead bytes (delta esc) (starts esc) in fun r => if needs bytes fuel ws [] [r] then true else d r.
Definition needs_with (bytes : list ascii) (fuel : nat) (ws : list str) (r : re) : bool := needs bytes fuel ws [] [r].
Definition silent : bool -> list str -> re -> bool := silent_with all_bytes 400.
Definition needy : list str -> re -> bool := needs_with all_bytes 400.

(** The rows *)
Definition res_of (rows : list replacement) (n m : nat) : list re := map (fun r => c_re (r_re r)) (firstn m (skipn n rows)).
Section Rows.
Variable beyond : N -> bool.
Definition table : list replacement := match replacements beyond default_delims with Some l => l | None => [] end.
Definition words_a := [$"`"; $"${"].
Definition words_b := [$"{{ /*"; $"*/ }}"; $"#!"; $"//!"; $"##"; $"///"].
Definition words_c := [$"@"; $"""<<"; $"""{{ raw"; $"""{{- raw"; $"""{{ ellipsis"; $"""{{- ellipsis"].
Definition words_d := [$"=!TRIPLE_BT!="; $"=!REPL!="; $"`"].

Lemma rows_a : forallb (silent true words_a) (res_of table 0 4) = true.
Proof. vm_compute. reflexivity. Qed.
Lemma rows_b : forallb (silent false words_b) (res_of table 5 126) = true.
Proof. vm_compute. reflexivity. Qed.
Lemma rows_c : forallb (needy words_c) (res_of table 132 29) = true.
Proof. vm_compute. reflexivity. Qed.
Lemma rows_d : forallb (needy words_d) (res_of table 162 3) = true.
Proof. vm_compute. reflexivity. Qed.
End Rows.
