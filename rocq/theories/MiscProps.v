(** C48, C53, C70, C72, C99: undefined values, base names, e-mail addresses, checked assignments and expressions that
    Go cannot parse. *)
From Coq Require Import String Ascii List ZArith NArith Bool PeanoNat.
From Verif Require Import GoStr QuoteModel TemplateModel RazorExprModel RazorTableModel RazorAssignModel ContextModel MiscSpec MiscProofs.
From Verif Require IncludeModel.
Import ListNotations.
Local Open Scope char_scope.

(** C53.  The name of a file is the last name of its path; every path has one. *)
Theorem C53_base : forall p b, base_of p b -> path_base p = b.
Proof. exact @base_spec. Qed.
Print Assumptions C53_base.
Theorem C53_base_total : forall p, exists b, base_of p b.
Proof. exact @base_exists. Qed.
Print Assumptions C53_base_total.
Example C53_base_example : path_base $"/a/b.json//" = $"b.json" /\ path_base $"//" = $"/" /\ path_base [] = $"." /\ path_base $"x" = $"x".
Proof. vm_compute. repeat split; reflexivity. Qed.

(** C70.  The sign in an e-mail address is doubled, so that the address survives; what starts with a razor sign or
    with a number sign is left alone. *)
Theorem C70_mail : forall a b, ~ In "@" a -> a <> [] -> (forall r, a <> "#" :: r) -> protect_email (a ++ "@" :: b) = a ++ "@" :: "@" :: b.
Proof. exact @mail_spec. Qed.
Print Assumptions C70_mail.
Theorem C70_not_mail : forall c s, c = "@" \/ c = "#" -> protect_email (c :: s) = c :: s.
Proof. intros c s [-> | ->]; reflexivity. Qed.
Print Assumptions C70_not_mail.
Example C70_mail_example : protect_email $" john@doe.com" = $" john@@doe.com" /\ protect_email $"@john@doe.com" = $"@john@doe.com".
Proof. vm_compute. split; reflexivity. Qed.

(** C72.  Whatever the mode of validation, the declaration of a global variable is not checked; any other assignment is
    checked as the mode says. *)
Theorem C72_guard : forall beyond words signs opers parse mode (P : PrintEnv) d m name expr accept e,
  ~ In "." name -> name <> [] -> translate beyond words signs opers parse true expr = Ok (e, false) ->
  let set := left_delim d ++ $"- set $ """ ++ name ++ $""" " ++ e ++ $" " ++ right_delim d in
  write_assign beyond words signs opers parse mode d m $"@" name $":=" expr accept = Ok set /\
  write_assign beyond words signs opers parse mode d m $"@" name $"=" expr accept = Ok (guard mode (left_delim d) (right_delim d) name ++ set).
Proof. exact @assign_guarded. Qed.
Print Assumptions C72_guard.
Example C72_guard_example : guard StrictValidation $"{{" $"}}" $"x" = $"{{- assert (not (isNil $.x)) ""$.x does not exist, use := to declare new variable"" }}"
  /\ guard NoValidation $"{{" $"}}" $"x" = [].
Proof. split; vm_compute; reflexivity. Qed.

(** C48.  Unless they are accepted, undefined values in the result are an error; otherwise the result and the error are
    those of the engine. *)
Theorem C48_undefined : forall source filename out err,
  (contains $"<nil>" out = true \/ contains $"<no value>" out = true ->
   exists r, IncludeModel.finish false source filename out err = IncludeModel.Ret r filename (Some ($"contains undefined value(s) in " ++ r))) /\
  (contains $"<nil>" out = false -> contains $"<no value>" out = false -> exists f, IncludeModel.finish false source filename out err = IncludeModel.Ret out f err) /\
  (exists f, IncludeModel.finish true source filename out err = IncludeModel.Ret out f err).
Proof. exact @undefined_spec. Qed.
Print Assumptions C48_undefined.
Example C48_undefined_example : IncludeModel.finish false $"{{.x}}" $"f" $"a <nil> b" None =
  IncludeModel.Ret $"a <no value> b" $"f" (Some $"contains undefined value(s) in a <no value> b").
Proof. vm_compute. reflexivity. Qed.

(** C99.  What Go cannot parse is left as it is by the replacements that skip errors, and is copied without change by the
    other ones. *)
Theorem C99_unparsed : forall beyond words signs opers parse mode (P : PrintEnv) d r m expression e,
  multi_match (r_re r) m $"expr" = expression -> multi_match (r_re r) m $"index" = [] -> multi_match (r_re r) m $"selection" = [] ->
  expression <> [] -> go_text beyond words signs opers expression = Ok e -> e <> [] -> parse e = None ->
  razor_parser beyond words signs opers parse mode d r PExprSkip m = Ok m /\
  razor_parser beyond words signs opers parse mode d r PExpr m =
    Ok (replace_all_string (r_re r) (replace_all $"${expr}" (replace_all $"$" $"$$" expression) (r_replace r)) m).
Proof. exact @unparsed. Qed.
Print Assumptions C99_unparsed.
Definition a_row : replacement := {| r_name := $"x"; r_expr := []; r_replace := $"{{ ${expr} }}"; r_re := must_compile (fun _ => false) $"@\((?P<expr>[^)]*)\)"; r_parser := None |}.
Example C99_unparsed_example : forall mode (P : PrintEnv) d,
  razor_parser (fun _ => false) [] [] [] (fun _ => None) mode d a_row PExprSkip $"@(1 $ 2)" = Ok $"@(1 $ 2)" /\
  razor_parser (fun _ => false) [] [] [] (fun _ => None) mode d a_row PExpr $"@(1 $ 2)" = Ok $"{{ 1 $ 2 }}".
Proof. intros mode P d. vm_compute. split; reflexivity. Qed.
