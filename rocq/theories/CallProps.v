(** C99, C100: razor documents that show the values of expressions and of functions. *)
From Coq Require Import String Ascii List NArith Bool Permutation.
From Verif Require Import GoStr QuoteModel TemplateModel TemplateSpec TextModel RazorExprModel RazorWordsModel ReModel ReSyntaxModel RazorTableModel RazorAssignModel RazorRefSpec RazorRefAuto RazorRefProofs RazorAsgSpec RazorAsgMain RazorAsgSample RazorAssignProps
  BlockSpec CallSpec CallSample CallMain2.
Import ListNotations.
Local Open Scope char_scope.

(** ** C99: lines of text, lines with an expression in parentheses and lines with a call *)
(** The parameters are those of C72.  The expression or the call becomes the action of the template that shows its
    value, with the trims of its mark, and the text around it remains, whatever the other replacements of the table do. *)
Theorem C99_calls : forall beyond words signs opers parse mode (P : PrintEnv) other l,
  Permutation words RazorWordsModel.reserved -> Permutation signs symbols -> Permutation opers operator_words ->
  follows_code beyond words signs opers parse mode default_delims other ->
  Forall (call_ok parse) l -> quiet (call_lines call_source l) ->
  apply_razor beyond other default_delims (call_lines call_source l) = Some (call_lines call_output l).
Proof. intros beyond words signs opers parse mode P other l HW HS HO HF. exact (call_document parse beyond words signs opers mode HW HS HO other HF l). Qed.
Print Assumptions C99_calls.

(** *** A document *)
Definition fx : expr := Call (Ident $"f") [Ident $"x"] false.
Definition call_base (s : str) : option expr :=
  if str_eqb s $"x" then Some (Ident $"x")
  else if str_eqb s $"f(x)" then Some fx
  else if str_eqb s $"a.b" then Some (Sel (Ident $"a") $"b")
  else if str_eqb s $"upper( f(x), 7 )" then Some (Call (Ident $"upper") [fx; V $"7"] false)
  else if str_eqb s $"now()" then Some (Call (Ident $"now") [] false)
  else if str_eqb s $"f(x) - (see)" then Some (Binary $"-" fx (Paren (Ident $"see")))
  else if str_eqb s $"_(x)" then Some (Call (Ident $"_") [Ident $"x"] false)
  else if str_eqb s $"endless(x)" then Some (Call (Ident $"endless") [Ident $"x"] false)
  else if str_eqb s $"autoIndent(x)" then Some (Call (Ident $"autoIndent") [Ident $"x"] false)
  else if str_eqb s $"spaceIndent(`a `, x)" then Some (Call (Ident $"spaceIndent") [V $"`a `"; Ident $"x"] false)
  else base s.
Definition product : expr := Binary $"*" (Call (Ident $"f") [Ident $"x"; Unary $"-" (Ident $"y")] false) (V $"2.5").
Definition call_sample : list call_line :=
  [Prose $"Title (draft); {{ .Even }} an action.";
   Called $"Hello " Plain $"f" $"x" fx None $", how are you?";
   Shown $"sum = (" Dash $" " $"f(x, -y) * 2.5" product None [];
   Prose [];
   Called $"{{ .A }} " UnderDash $"upper" $" f(x), 7 " (Call (Ident $"upper") [fx; V $"7"] false) (Some $" ") $";{tight";
   Shown [] DashDash [] $"a.b" (Sel (Ident $"a") $"b") None $".txt is a name";
   Called [] Under $"now" [] (Call (Ident $"now") [] false) None $" = now";
   Shown $"a=" Plain [] $"x" (Ident $"x") (Some []) $"[1]"].
Ltac call_expr_tac := unfold fx, product; cbn [expr_ok]; repeat split; try (apply name_sound; reflexivity); try (apply literal_sound; reflexivity); try discriminate; try (cbn; tauto).
Ltac call_tac :=
  cbn [call_ok]; first [split; apply no_char_sound; reflexivity |
    (split; [apply before_sound; reflexivity|]); (split; [cbn; tauto|]); (split; [apply blanks_sound; reflexivity|]); (split; [apply text_sound; vm_compute; reflexivity|]); (split; [apply balanced_sound; reflexivity|]);
    (split; [apply last_sound; reflexivity|]); (split; [vm_compute; reflexivity|]); (split; [call_expr_tac | apply behind_sound; reflexivity]) |
    (split; [apply before_sound; reflexivity|]); (split; [apply function_sound; reflexivity|]); (split; [apply text_sound; vm_compute; reflexivity|]); (split; [apply no_holds; vm_compute; reflexivity|]);
    (split; [vm_compute; reflexivity|]); (split; [call_expr_tac | apply behind_sound; reflexivity])].
Lemma call_sample_ok : Forall (call_ok (sample_parse call_base)) call_sample.
Proof. unfold call_sample. repeat apply Forall_cons; [ .. | apply Forall_nil]. all: call_tac. Qed.
Lemma call_sample_quiet : quiet (call_lines call_source call_sample).
Proof. intros w I. apply TemplateProofs.holds_not. cbn in I. repeat (destruct I as [<-|I]; [vm_compute; reflexivity|]). destruct I. Qed.
Example C99_sample : forall mode, goes (sample_parse call_base) mode (call_lines call_source call_sample) = Some (call_lines call_output call_sample).
Proof.
  intros mode. exact (C99_calls no_letters _ _ _ _ mode all_printed (code (sample_parse call_base) mode) call_sample (Permutation_refl _) (Permutation_refl _) (Permutation_refl _) (code_follows _ mode) call_sample_ok call_sample_quiet).
Qed.
Print Assumptions C99_sample.
Example C99_sample_source : call_lines call_source call_sample = $"Title (draft); {{ .Even }} an action.
Hello @f(x), how are you?
sum = (@-( f(x, -y) * 2.5)

{{ .A }} @_-upper( f(x), 7 ) ;;{tight
@--(a.b).txt is a name
@_now() = now
a=@(x);[1]".
Proof. vm_compute. reflexivity. Qed.
Example C99_sample_output : call_lines call_output call_sample = $"Title (draft); {{ .Even }} an action.
Hello {{ f $.x }}, how are you?
sum = ({{- mul (f $.x (sub 0 $.y)) 2.5 }}

{{ .A }} {{ upper (f $.x) 7 -}};{tight
{{- $.a.b -}}.txt is a name
{{ now }} = now
a={{ $.x }}[1]".
Proof. vm_compute. reflexivity. Qed.
(** The same by computation *)
Example C99_sample_run : goes (sample_parse call_base) StrictValidation (call_lines call_source call_sample) = Some (call_lines call_output call_sample).
Proof. vm_compute. reflexivity. Qed.

(** ** C100: what the conditions of C99 leave out *)
Definition call_different (l : list call_line) (s : str) : Prop :=
  quiet (call_lines call_source l) /\ goes (sample_parse call_base) NoValidation (call_lines call_source l) = Some s /\ s <> call_lines call_output l.
Ltac call_different_tac :=
  split; [intros w I; apply TemplateProofs.holds_not; cbn in I; repeat (destruct I as [<-|I]; [vm_compute; reflexivity|]); destruct I|]; split;
  [vm_compute; reflexivity | let H := fresh in intros H; vm_compute in H; discriminate H].
(** The text after an expression is free of @ and of newlines: a pair of parentheses in it can become a part of the expression. *)
Theorem C100_text_taken_refuted : exists p f A e z, text_before p /\ function_ok f /\ text_ok (call_text f A) /\ sample_parse call_base (call_text f A) = Some e /\ expr_ok e /\
  ~ In "@" z /\ ~ In "010" z /\ call_different [Called p Plain f A e None z] $"cost {{ sub (f $.x) $.see }} below".
Proof.
  exists $"cost ", $"f", $"x", fx, $" - (see) below". split; [apply before_sound; reflexivity|]. split; [apply function_sound; reflexivity|]. split; [apply text_sound; vm_compute; reflexivity|]. split; [vm_compute; reflexivity|].
  split; [call_expr_tac|]. split; [apply no_char_sound; reflexivity|]. split; [apply no_char_sound; reflexivity | call_different_tac].
Qed.
Print Assumptions C100_text_taken_refuted.
(** ... or it prevents the translation: what remains is not an action of the template. *)
Theorem C100_text_breaks_refuted : exists p b E e z, text_before p /\ Forall blank_char b /\ text_ok E /\ balanced E /\ sample_parse call_base E = Some e /\ expr_ok e /\
  ~ In "@" z /\ ~ In "010" z /\ call_different [Shown p Plain b E e None z] $"a {{ f(x)) and (more }} b".
Proof.
  exists $"a ", [], $"f(x)", fx, $" and (more) b". split; [apply before_sound; reflexivity|]. split; [apply Forall_nil|]. split; [apply text_sound; vm_compute; reflexivity|]. split; [apply balanced_sound; reflexivity|]. split; [vm_compute; reflexivity|].
  split; [call_expr_tac|]. split; [apply no_char_sound; reflexivity|]. split; [apply no_char_sound; reflexivity | call_different_tac].
Qed.
Print Assumptions C100_text_breaks_refuted.
(** The underscore of a mark in front of a parenthesis is taken as the name of a function or of a variable. *)
Theorem C100_underscore_refuted : exists p E e z, text_before p /\ text_ok E /\ balanced E /\ sample_parse call_base E = Some e /\ expr_ok e /\ text_behind None ["["] z /\
  call_different [Shown p Under [] E e None z] $"a {{ _ $.x }} b" /\ call_different [Shown p UnderDash [] E e None z] $"a {{ $._ }}-(x) b".
Proof.
  exists $"a ", $"x", (Ident $"x"), $" b". split; [apply before_sound; reflexivity|]. split; [apply text_sound; vm_compute; reflexivity|]. split; [apply balanced_sound; reflexivity|]. split; [vm_compute; reflexivity|].
  split; [call_expr_tac|]. split; [apply behind_sound; reflexivity|]. split; call_different_tac.
Qed.
Print Assumptions C100_underscore_refuted.
(** A function whose name starts with the name of a command is taken as that command. *)
Theorem C100_keyword_refuted : exists p f A e z, text_before p /\ name_ok f /\ text_ok (call_text f A) /\ sample_parse call_base (call_text f A) = Some e /\ expr_ok e /\ text_behind None ["["; "."] z /\
  call_different [Called p Plain f A e None z] $"a {{ end }}less(x) b".
Proof.
  exists $"a ", $"endless", $"x", (Call (Ident $"endless") [Ident $"x"] false), $" b". split; [apply before_sound; reflexivity|]. split; [apply name_sound; reflexivity|]. split; [apply text_sound; vm_compute; reflexivity|]. split; [vm_compute; reflexivity|].
  split; [call_expr_tac|]. split; [apply behind_sound; reflexivity | call_different_tac].
Qed.
Print Assumptions C100_keyword_refuted.
(** The functions that indent their results take the text in front of them as their first argument. *)
Theorem C100_indent_refuted : exists p f A e z, text_before p /\ name_ok f /\ text_ok (call_text f A) /\ sample_parse call_base (call_text f A) = Some e /\ expr_ok e /\ text_behind None ["["; "."] z /\
  call_different [Called p Plain f A e None z] $"{{- $.NEWLINE }}{{- spaceIndent (`a `) $.x }} b".
Proof.
  exists $"a ", $"autoIndent", $"x", (Call (Ident $"autoIndent") [Ident $"x"] false), $" b". split; [apply before_sound; reflexivity|]. split; [apply name_sound; reflexivity|]. split; [apply text_sound; vm_compute; reflexivity|]. split; [vm_compute; reflexivity|].
  split; [call_expr_tac|]. split; [apply behind_sound; reflexivity | call_different_tac].
Qed.
Print Assumptions C100_indent_refuted.
(** Quotation marks around raw disappear. *)
Theorem C100_quotes_refuted : exists p f A e z, ~ In "@" p /\ ~ In "010" p /\ function_ok f /\ text_ok (call_text f A) /\ text_behind None ["["; "."] z /\ expr_ok e /\
  quiet (call_source (Called p Plain f A e None z)) /\
  goes (fun s => if str_eqb s (call_text f A) then Some e else None) NoValidation (call_source (Called p Plain f A e None z)) = Some $"a {{ raw $.x }} b" /\
  call_output (Called p Plain f A e None z) = $"a ""{{ raw $.x }}"" b".
Proof.
  exists $"a """, $"raw", $"x", (Call (Ident $"raw") [Ident $"x"] false), $""" b". split; [apply no_char_sound; reflexivity|]. split; [apply no_char_sound; reflexivity|]. split; [apply function_sound; reflexivity|].
  split; [apply text_sound; vm_compute; reflexivity|]. split; [apply behind_sound; reflexivity|]. split; [call_expr_tac|]. split; [|split; vm_compute; reflexivity].
  intros w I; apply TemplateProofs.holds_not; cbn in I; repeat (destruct I as [<-|I]; [vm_compute; reflexivity|]); destruct I.
Qed.
Print Assumptions C100_quotes_refuted.
