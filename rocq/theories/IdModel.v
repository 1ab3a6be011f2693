(** The template function id (template/extra_utils.go:177-196), over the model of package regexp. *)
From Coq Require Import String Ascii List ZArith NArith Bool.
From Verif Require Import GoStr Utf8 ReModel ReSyntaxModel RazorAssignModel.
Import ListNotations.

Section Id.
Variable beyond : N -> bool.   (* \p{L} beyond ASCII *)
(** validChars, duplicateUnderscore, regexSpecial: template/extra_utils.go:194-196 *)
Definition valid_chars : option compiled := compile beyond $"[^\p{L}\d_]".
Definition duplicate_underscore : option compiled := compile beyond $"_+".
Definition regex_special : option compiled := compile beyond $"[\+\.\?\(\)\[\]\{\}\\]".
(** id: template/extra_utils.go:177-192; [sprint] is fmt.Sprint of the optional arguments, None is a panic of
    regexp.MustCompile. *)
Definition id_text (s sprint : str) : option str :=
  let replacement := if str_eqb sprint [] then $"_" else sprint in
  match valid_chars, duplicate_underscore, regex_special with
  | Some valid, Some under, Some special =>
      let dup := if str_eqb replacement $"_" then Some under
                 else compile beyond ($"(?:" ++ replace_all_string special $"\$0" replacement ++ $")+") in
      match dup with
      | Some dup => Some (replace_all_string dup replacement (replace_all_string valid replacement s))
      | None => None
      end
  | _, _, _ => None
  end.
End Id.
