(** The substitutions of a template and the raw texts: template/template.go:132-141, template/add_funcs.go:52-55,
    template/extra_utils.go:210-219, utils/list.go:25-42, utils/substitute.go. *)
From Coq Require Import String Ascii List ZArith NArith Bool.
From Verif Require Import GoStr Utf8 ValueModel DataModel CliModel ReModel ReSyntaxModel RazorWordsModel.
Import ListNotations.

(** baseSubstitutesRegex: template/template.go:133-137 *)
Definition base_substitutes : list str :=
  [$"/(?m)^\s*#!\s*$/"; $"/""!Q!(?P<content>[\S]+?)!Q!""/${content}"; $"/""!Q!(?P<content>.*?)!Q!""/""${content}"""].

(** Regexp.ReplaceAllString *)
Definition replace_all_string (c : compiled) (content template : str) : str :=
  replace_re (c_re c) (fun m g => expand (named_group (c_names c) m g) template) content.

Section Raw.
Variable beyond : N -> bool.   (* \p{L} beyond ASCII *)

(** The substitutions of NewTemplate: template/template.go:132-141; [env] is the value of GOTEMPLATE_SUBSTITUTES,
    a panic is turned into the error of NewTemplate (112-116). *)
Definition template_substitutes (env : str) (substitutes : list str) : res (list (compiled * str)) :=
  init_replacers (compile beyond) ((base_substitutes ++ match env with [] => [] | _ => split ["010"%char] env end) ++ substitutes).

(** substitute: template/add_funcs.go:53-55 *)
Definition substituted (env : str) (substitutes : list str) (content : str) : res str :=
  do rs <- template_substitutes env substitutes; Ok (substitute replace_all_string content rs).
End Raw.

Section Lists.
Context {E : Env}.
Variable print : value -> str.              (* the verb %v *)
Variable sprint_all : list value -> str.    (* fmt.Sprint *)

(** The format of rawPrint and rawList: "!Q!%v!Q!" *)
Definition raw_format (v : value) : str := $"!Q!" ++ print v ++ $"!Q!".
(** rawPrint: template/extra_utils.go:210-215, a text or a list *)
Definition raw_print (args : list value) : str + (impl * list value) :=
  if Nat.leb (length args) 1 then inl (sprint_all args) else inr (format_list raw_format args).
(** rawList: template/extra_utils.go:217-219 *)
Definition raw_list (args : list value) : impl * list value := format_list raw_format args.
End Lists.
