(** C50: razor expressions keep their grouping. *)
From Coq Require Import String Ascii List ZArith NArith Bool.
From Verif Require Import GoStr QuoteModel RazorExprModel RazorExprSpec RazorExprProofs.
Import ListNotations.

(** The text of an expression is a command whose operands are those of the expression, in the same order
    and with the same grouping ... *)
Theorem C50_command : forall {P : PrintEnv} e, fine e -> starred e = false ->
  exists s, node_value e = Ok s /\ read_command s = Some (words e).
Proof. exact @translation. Qed.
Print Assumptions C50_command.
(** ... and as an operand it is one operand. *)
Theorem C50_operand : forall {P : PrintEnv} e, usable e ->
  exists s, node_value_internal e = Ok s /\ read_command s = Some [call_tree e].
Proof. exact @operand_translation. Qed.
Print Assumptions C50_operand.
(** Expressions with different call trees have different texts. *)
Theorem C50_unambiguous : forall {P : PrintEnv} e1 e2, fine e1 -> starred e1 = false -> fine e2 -> starred e2 = false ->
  node_value e1 = node_value e2 -> words e1 = words e2.
Proof. exact @unambiguous. Qed.
Print Assumptions C50_unambiguous.

(** Every expression made of the known kinds and operators is translated, every other one is refused with
    an error; there is no panic. *)
Theorem C50_translated : forall {P : PrintEnv} e, literals e -> supported e -> exists s, node_value e = Ok s.
Proof. exact @translated. Qed.
Print Assumptions C50_translated.
Theorem C50_refused : forall {P : PrintEnv} e, literals e -> ~ supported e -> exists m, node_value e = Err m.
Proof. exact @refused. Qed.
Print Assumptions C50_refused.

Definition env1 : PrintEnv := {| is_print_other := fun _ => true |}.

(** A product whose right operand contains a star, if only in a text, becomes a power and the star is lost. *)
Theorem C50_star_refuted : exists e (P : PrintEnv), supported e /\ starless e = false /\
  node_value e = Ok $"power 2 (f__FuncCall__ """")" /\
  words e = [Atom $"mul"; Atom $"2"; App [Atom $"f__FuncCall__"; Atom $"""*"""]].
Proof. exists (Binary $"*" (Lit $"2") (Call (Ident $"f") [Lit $"""*"""] false)), env1. vm_compute. intuition. Qed.
Print Assumptions C50_star_refuted.
(** A method of the current context called with arguments is not bracketed: its arguments and those of the
    operator are put together. *)
Theorem C50_method_refuted : exists e (P : PrintEnv), supported e /\
  node_value e = Ok $"add __DoTPrefix__a.m__FuncCall__ 1 2" /\
  words e = [Atom $"add"; App [Atom $"__DoTPrefix__a.m__FuncCall__"; Atom $"1"]; Atom $"2"] /\
  read_command $"add __DoTPrefix__a.m__FuncCall__ 1 2" = Some [Atom $"add"; Atom $"__DoTPrefix__a.m__FuncCall__"; Atom $"1"; Atom $"2"].
Proof. exists (Binary $"+" (Call (Sel (Ident $"__DoTPrefix__a") $"m") [Lit $"1"] false) (Lit $"2")), env1. vm_compute. intuition. Qed.
Print Assumptions C50_method_refuted.
(** The result of a call cannot be called: f(1)(2) has the text of f(1, 2). *)
Theorem C50_twice_refuted : exists e1 e2 s (P : PrintEnv), supported e1 /\ supported e2 /\ e1 <> e2 /\ node_value e1 = Ok s /\
  exists t, node_value e2 = Ok t /\ replace_all $"__FuncCall__" [] s = replace_all $"__FuncCall__" [] t.
Proof.
  exists (Call (Call (Ident $"f") [Lit $"1"] false) [Lit $"2"] false), (Call (Ident $"f") [Lit $"1"; Lit $"2"] false). eexists.
  exists env1. split; [vm_compute; auto|]. split; [vm_compute; auto|]. split; [discriminate|]. split; [reflexivity|].
  eexists. split; [reflexivity|]. vm_compute. reflexivity.
Qed.
Print Assumptions C50_twice_refuted.
(** A method of a literal text is not a template at all. *)
Theorem C50_literal_refuted : exists e s (P : PrintEnv), supported e /\ node_value e = Ok s /\ read_command s = None.
Proof. exists (Sel (Lit $"""a b""") $"len"). eexists. exists env1. split; [exact I|]. split; [reflexivity|]. vm_compute. reflexivity. Qed.
Print Assumptions C50_literal_refuted.

(** a ** (b - 1) + f("x y", -3).len *)
Definition sample : expr :=
  Binary $"+" (Binary $"*" (Ident $"a") (Star (Paren (Binary $"-" (Ident $"b") (Lit $"1")))))
              (Sel (Call (Ident $"f") [Lit $"""x y"""; Unary $"-" (Lit $"3")] false) $"len").
Example C50_sample : let P := env1 in
  node_value sample = Ok $"add (power __GlobalVar__a ((sub __GlobalVar__b 1))) ((f__FuncCall__ ""x y"" -3).len)" /\
  words sample =
    [Atom $"add"; App [Atom $"power"; Atom $"__GlobalVar__a"; App [Atom $"sub"; Atom $"__GlobalVar__b"; Atom $"1"]];
     Field (App [Atom $"f__FuncCall__"; Atom $"""x y"""; Atom $"-3"]) $"len"] /\
  fine sample.
Proof.
  vm_compute. split; [reflexivity|]. split; [reflexivity|]. repeat split; try (intro; discriminate); tauto.
Qed.
(** list(x[1], y[2:n])... and -x, !(p && q), .m(1) alone. *)
Example C50_forms : let P := env1 in
  node_value (Call (Ident $"list") [Index (Ident $"x") (Lit $"1"); Slice (Ident $"y") (Some (Lit $"2")) (Some (Ident $"n"))] true)
    = Ok $"ellipsis ""list__FuncCall__"" (slice __GlobalVar__x 1) (slice __GlobalVar__y 2 __GlobalVar__n)" /\
  node_value (Unary $"-" (Ident $"__REPL_0__x")) = Ok $"sub 0 __REPL_0__x" /\
  node_value (Unary $"!" (Paren (Binary $"&&" (Ident $"p") (Ident $"q")))) = Ok $"not (and __GlobalVar__p __GlobalVar__q)" /\
  node_value (Call (Ident $"__DoTPrefix__m") [Lit $"1"] false) = Ok $"__DoTPrefix__m__FuncCall__ 1" /\
  node_value (Binary $":=" (Ident $"p") (Ident $"q")) = Err $"unknown operator :=" /\
  node_value_internal (Lit $"`a b`") = Ok $"(`a b`)" /\
  read_command $"(`a b`)" = Some [Atom $"`a b`"] /\
  read_command $"f (g 1).x.y ""a)\""""" = Some [Atom $"f"; Field (Field (App [Atom $"g"; Atom $"1"]) $"x") $"y"; Atom $"""a)\"""""] /\
  read_command $"f (g" = None.
Proof. vm_compute. repeat split. Qed.
