(** Reserved words and words for operators in razor expressions: template/razor_repl_expr.go. *)
From Coq Require Import String Ascii List ZArith NArith Bool.
From Verif Require Import GoStr RazorExprModel.
Import ListNotations.

(** reservedKeywords and reserved: template/razor_repl_expr.go:26-37 *)
Definition reserved_keywords : list str := [$"$"; $"..."; $"range"; $"default"; $"func"; $"type"; $"struct"; $"map"].
Definition reserved : list (str * str) :=
  [($"$", $"__REPL_0__"); ($"...", $"__REPL_1__"); ($"range", $"__REPL_2__"); ($"default", $"__REPL_3__");
   ($"func", $"__REPL_4__"); ($"type", $"__REPL_5__"); ($"struct", $"__REPL_6__"); ($"map", $"__REPL_7__")].

(** A loop over a map of texts to replace; the order in which the map is visited is the order of the list. *)
Definition replace_each (order : list (str * str)) (s : str) : str :=
  fold_left (fun s kv => replace_all (fst kv) (snd kv) s) order s.

(** template/razor_repl_expr.go:69-71 *)
Definition protect_words (order : list (str * str)) (s : str) : str := replace_each order s.
(** The symbols of template/razor_repl_expr.go:73-81, the last entry is the one of the dots. *)
Definition symbols : list (str * str) :=
  [($"<>", $"!="); ($"≠", $"!="); ($"÷", $"/"); ($"≦", $"<="); ($"≧", $">="); ($"«", $"<<"); ($"»", $">>");
   ($"__REPL_1__", $"...")].
(** template/razor_repl_expr.go:83-85: the words of operators, between blanks, become operators. *)
Definition operator_words : list (str * str) := map (fun kv => ($" " ++ snd kv ++ $" ", fst kv)) operators.

(** template/razor_repl_expr.go:130-136: the words come back in the translated expression; the dollar sign
    is doubled because the text becomes the replacement of a regular expression. *)
Definition restore_words (s : str) : str :=
  let s := replace_all $"__REPL_0__" $"$$" s in
  let s := replace_each (map (fun kv => (snd kv, fst kv)) reserved) s in
  replace_all global_rep $"$$." (replace_all dot_rep $"." s).

(** The template of regexp.ReplaceAllString (regexp/regexp.go, expand and extract); [groups] gives the text
    of a group by its name or number.  Bytes above 127 are taken as letters.  The fuel is the length. *)
Definition group_char (c : ascii) : bool :=
  let n := N_of_ascii c in
  ((48 <=? n) && (n <=? 57) || (65 <=? n) && (n <=? 90) || (97 <=? n) && (n <=? 122) || (n =? 95) || (128 <=? n))%N.
(** extract: the name after a dollar sign and what follows it *)
Definition extract (s : str) : option (str * str) :=
  match s with
  | [] => None
  | c :: r =>
      if Ascii.eqb c "{" then
        match take_while group_char r, drop_while group_char r with
        | (_ :: _) as name, e :: rest => if Ascii.eqb e "}" then Some (name, rest) else None
        | _, _ => None
        end
      else match take_while group_char s with
           | [] => None
           | name => Some (name, drop_while group_char s)
           end
  end%char.
Fixpoint expand_go (fuel : nat) (groups : str -> str) (s : str) : str :=
  match fuel with
  | O => s
  | S fuel =>
      match s with
      | [] => []
      | c :: r =>
          if Ascii.eqb c "$" then
            match r with
            | "$" :: r' => "$" :: expand_go fuel groups r'
            | _ => match extract r with
                   | Some (name, rest) => groups name ++ expand_go fuel groups rest
                   | None => "$" :: expand_go fuel groups r
                   end
            end
          else c :: expand_go fuel groups r
      end
  end%char.
Definition expand (groups : str -> str) (s : str) : str := expand_go (List.length s) groups s.

(** What a translated expression becomes in the template when nothing surrounds it: exprRepl,
    template/razor_repl_expr.go:130-140 and razor.go:43 (the marker of calls is removed at the end).  The
    regular expression of exprRepl has the group [expr] only, which holds the whole expression. *)
Definition finish (expression s : str) : str :=
  let groups name := if str_eqb name $"expr" || str_eqb name $"0" || str_eqb name $"1" then expression else [] in
  replace_all func_call [] (replace_all $"$.slice " $"slice $." (expand groups (restore_words s))).
