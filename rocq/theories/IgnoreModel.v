(** The razor names left alone: template/razor.go:19-31, template/template.go:143-158, 361-387. *)
From Coq Require Import String Ascii List ZArith NArith Bool.
From Verif Require Import GoStr Utf8 CliModel ReModel ReSyntaxModel RazorAssignModel.
Import ListNotations.

Section Ignore.
Variable beyond : N -> bool.   (* \p{L} beyond ASCII *)

(** One round of the loop of applyRazor: template/razor.go:20-31.  None is a panic of regexp.MustCompile. *)
Definition ignore_one (delim expr content : str) : option str :=
  let expr := trim_space expr in
  if str_eqb expr [] then Some content
  else
    let expr := if has_suffix $"*" expr || has_suffix $"+" expr then expr ++ $"?" else expr in
    match compile beyond (delim ++ expr ++ $"\b") with
    | Some c => Some (replace_re (c_re c) (fun m _ => replace_first delim literal_at m) content)
    | None => None
    end.

(** The loop: template/razor.go:19-31 *)
Fixpoint ignore_all (delim : str) (l : list str) (content : str) : option str :=
  match l with
  | [] => Some content
  | e :: l => match ignore_one delim e content with
              | Some content => ignore_all delim l content
              | None => None
              end
  end.

(** AppendIgnoreRazorExpression: template/template.go:378-380 *)
Definition append_ignored (expr known : list str) : list str := expr ++ known.

(** The value of GOTEMPLATE_IGNORE_RAZOR: template/template.go:143-158.  [convert] is collections.ConvertData into a
    list followed by collections.ToStrings, None its error; None is then the error of NewTemplate. *)
Definition env_ignored (convert : str -> option (list str)) (value : str) : option (list str) :=
  match value with
  | [] => Some []
  | c :: _ =>
      if letter beyond (N_of_ascii c)
      then Some (split $"," (replace_all $" " $"," (replace_all ["010"%char] $"," (replace_all ["013"; "010"]%char $"," value))))
      else convert value
  end.
End Ignore.
