(** C72, C73: razor documents with assignments. *)
From Coq Require Import String Ascii List NArith Bool Permutation.
From Verif Require Import GoStr QuoteModel TemplateModel TemplateSpec TextModel RazorExprModel RazorWordsModel ReModel ReSyntaxModel RazorTableModel RazorAssignModel RazorRefSpec RazorAsgSpec RazorAsgMain RazorAsgSample.
Import ListNotations.
Local Open Scope char_scope.

(** ** C72: lines of text and lines of assignments *)
(** [beyond] is the class of letters beyond ASCII; [words], [signs] and [opers] are the entries of the maps of the
    code in any order; [parse] is the parser of Go expressions, [other] the functions of the table.  Every line
    @target op expression of a document becomes the action that sets the target to the value of the expression
    (after a check that it exists, unless it is declared), every other line remains, whatever the other 163
    replacements of the table do. *)
Theorem C72_assignments : forall beyond words signs opers parse mode (P : PrintEnv) other l,
  Permutation words RazorWordsModel.reserved -> Permutation signs symbols -> Permutation opers operator_words ->
  reads_updates parse -> follows_code beyond words signs opers parse mode default_delims other ->
  Forall (line_ok parse) l -> quiet (lines line_source l) ->
  apply_razor beyond other default_delims (lines line_source l) = Some (lines (line_output mode) l).
Proof. intros beyond words signs opers parse mode P other l HW HS HO HU HF. exact (assign_document beyond words signs opers parse mode HW HS HO HU other HF l). Qed.
Print Assumptions C72_assignments.

(** *** The functions of the code, with a parser that reads updates *)
Definition all_printed : PrintEnv := {| is_print_other := fun _ => true |}.
Definition no_letters (n : N) : bool := false.
Definition code (parse : str -> option expr) (mode : validation) (r : replacement) (p : parser) (m : str) : str :=
  match @razor_parser no_letters RazorWordsModel.reserved symbols operator_words parse mode all_printed default_delims r p m with Ok t => t | _ => $"PANIC" end.
Definition goes (parse : str -> option expr) (mode : validation) (s : str) : option str := apply_razor no_letters (code parse mode) default_delims s.
Lemma code_follows : forall parse mode, @follows_code no_letters RazorWordsModel.reserved symbols operator_words parse mode all_printed default_delims (code parse mode).
Proof. intros parse mode r p m t _ _ H. unfold code. rewrite H. reflexivity. Qed.
Definition goes_ok : forall parse mode l, reads_updates parse -> Forall (line_ok parse) l -> quiet (lines line_source l) ->
  goes parse mode (lines line_source l) = Some (lines (line_output mode) l).
Proof.
  intros parse mode l U H Q. exact (C72_assignments no_letters _ _ _ parse mode all_printed (code parse mode) l (Permutation_refl _) (Permutation_refl _) (Permutation_refl _) U (code_follows parse mode) H Q).
Qed.

Example C72_sample : forall mode, goes (sample_parse base) mode (lines line_source sample) = Some (lines (line_output mode) sample).
Proof. intros mode. exact (goes_ok (sample_parse base) mode sample (sample_reads base) sample_ok sample_quiet). Qed.
Print Assumptions C72_sample.
Example C72_sample_source : lines line_source sample = $"A line of text, {{ .Even }} with an action.
@total := 1 + 2
  @a.b=f(x, -y) * 2.5
@a.b += f(x, -y) * 2.5
@$.flags&^=(x << 2)

	@.ok = a.b && !done
@$n := 7
@$o.n *= 7
@{n}-= 1 + 2
The end.".
Proof. vm_compute. reflexivity. Qed.
Example C72_sample_output : lines (line_output WarnValidation) sample = $"A line of text, {{ .Even }} with an action.
{{- set $ ""total"" (add 1 2) }}
  {{- assertWarning (not (isNil $.a.b)) ""$.a.b does not exist, use := to declare new variable"" }}{{- set $.a ""b"" (mul (f $.x (sub 0 $.y)) 2.5) }}
{{- assertWarning (not (isNil $.a.b)) ""$.a.b does not exist, use := to declare new variable"" }}{{- set $.a ""b"" (add $.a.b (mul (f $.x (sub 0 $.y)) 2.5)) }}
{{- assertWarning (not (isNil $.flags)) ""$.flags does not exist, use := to declare new variable"" }}{{- set $ ""flags"" (bclear $.flags (lshift $.x 2)) }}

	{{- assertWarning (not (isNil .ok)) "".ok does not exist, use := to declare new variable"" }}{{- set . ""ok"" (and $.a.b (not $.done)) }}
{{- $n := 7 }}
{{- set $o ""n"" (mul $o.n 7) }}
{{- $n = sub $n (add 1 2) }}
The end.".
Proof. vm_compute. reflexivity. Qed.

(** *** The tests of the repository (template/razor_test.go:277-429), by computation *)
Definition ten : expr := V $"10".
Definition test_parse (s : str) : option expr :=
  if str_eqb s $"10" then Some ten
  else if str_eqb s $"2" then Some (V $"2")
  else if str_eqb s $"4" then Some (V $"4")
  else if str_eqb s $"4*2" then Some (Binary $"*" (V $"4") (V $"2"))
  else if str_eqb s $"2 * 3" then Some (Binary $"*" (V $"2") (V $"3"))
  else if str_eqb s $"2 / 3" then Some (Binary $"/" (V $"2") (V $"3"))
  else match s with """" :: _ => Some (V s) | _ => None end.
Definition in_test (s : str) : option str := goes (sample_parse test_parse) WarnValidation s.
Example C72_test_local : map in_test [$"@{a} := 2"; $"@{a := 2}"; $"@$a := 2"; $"@$a = 2"; $"@{a = 2}"; $"@{a.b.c} = 2"; $"@{a} += 10"; $"@$a *= 4"; $"@{a} /= 2 * 3"] =
  map Some [$"{{- $a := 2 }}"; $"{{- $a := 2 }}"; $"{{- $a := 2 }}"; $"{{- $a = 2 }}"; $"{{- $a = 2 }}"; $"{{- set $a.b ""c"" 2 }}"; $"{{- $a = add $a 10 }}"; $"{{- $a = mul $a 4 }}"; $"{{- $a = div $a (mul 2 3) }}"].
Proof. vm_compute. reflexivity. Qed.
Example C72_test_global : map in_test [$"@a := ""test"""; $"@.a := ""test"""; $"@$.a := ""test"""; $"@12t%!e#st- := ""test"""; $"@a.b.c.d.e := ""test"""; $"@a := ""How do you @handle this"""] =
  map Some [$"{{- set $ ""a"" ""test"" }}"; $"{{- set . ""a"" ""test"" }}"; $"{{- set $ ""a"" ""test"" }}"; $"{{- set $ ""12t%!e#st-"" ""test"" }}"; $"{{- set $.a.b.c.d ""e"" ""test"" }}"; $"{{- set $ ""a"" ""How do you @handle this"" }}"].
Proof. vm_compute. reflexivity. Qed.
Example C72_test_checked : map in_test [$"@a = ""test"""; $"@a.b.c <<= 10"; $"@.a.b *= 4*2"; $"@a %= 2 / 3"] =
  map Some [$"{{- assertWarning (not (isNil $.a)) ""$.a does not exist, use := to declare new variable"" }}{{- set $ ""a"" ""test"" }}";
            $"{{- assertWarning (not (isNil $.a.b.c)) ""$.a.b.c does not exist, use := to declare new variable"" }}{{- set $.a.b ""c"" (lshift $.a.b.c 10) }}";
            $"{{- assertWarning (not (isNil .a.b)) "".a.b does not exist, use := to declare new variable"" }}{{- set .a ""b"" (mul .a.b (mul 4 2)) }}";
            $"{{- assertWarning (not (isNil $.a)) ""$.a does not exist, use := to declare new variable"" }}{{- set $ ""a"" (mod $.a (div 2 3)) }}"].
Proof. vm_compute. reflexivity. Qed.

(** ** C73: the conditions of C72 are needed *)
(** The document of one assignment *)
Definition alone (t : target) (b : str) (o : assign_op) (E : str) (e : expr) : list line := [Asg [] t b o b E e].
Definition wrong (mode : validation) (l : list line) (s : str) : Prop :=
  exists (parse : str -> option expr), reads_updates parse /\ quiet (lines line_source l) /\
    (forall x i t b1 o b2 E e, In x l -> x = Asg i t b1 o b2 E e -> parse E = Some e) /\
    goes parse mode (lines line_source l) = Some s /\ s <> lines (line_output mode) l.
Ltac wrong_tac :=
  exists (sample_parse base); split; [apply sample_reads|]; split;
  [intros w I; apply TemplateProofs.holds_not; cbn in I; repeat (destruct I as [<-|I]; [vm_compute; reflexivity|]); destruct I|]; split;
  [intros x i t b1 o b2 E e [<-|[]] X; injection X; intros; subst; vm_compute; reflexivity|];
  split; [vm_compute; reflexivity | let H := fresh in intros H; vm_compute in H; discriminate H].
Definition seven : expr := V $"7".

(** Without blanks the operator is read as a part of the name: @x+=7 sets a value of the name x+. *)
Theorem C73_spacing_refuted : exists t op, target_ok t /\ In op update_ops /\ update_ok t (Update op) /\ text_ok $"7" /\ expr_ok seven /\
  line_source (Asg [] t [] (Update op) [] $"7" seven) = $"@x+=7" /\
  wrong NoValidation (alone t [] (Update op) $"7" seven) $"{{- set $ ""x+"" 7 }}".
Proof.
  exists (target_of Global [] $"x"), $"+". assert (U : In $"+" update_ops) by (cbn; tauto).
  split; [split; [apply names_sound; reflexivity | intros _ n E; injection E as <-; split; intros (r & X); discriminate X]|].
  split; [exact U|]. split.
  - intros op E. injection E as <-. split; [exact U|]. split; [|intros (_ & _ & X); discriminate X].
    apply Forall_cons; [|apply Forall_nil]. intros w I. apply TemplateProofs.holds_not. cbn in I. repeat (destruct I as [<-|I]; [reflexivity|]). destruct I.
  - split; [apply text_sound; reflexivity|]. split; [apply literal_sound; reflexivity|]. split; [reflexivity|]. wrong_tac.
Qed.
Print Assumptions C73_spacing_refuted.

(** A name with a hyphen can be declared, but its update reads the difference of two values. *)
Theorem C73_hyphen_refuted : exists t, names t = [$"my-key"] /\
  goes (sample_parse base) NoValidation (lines line_source (alone t $" " Declare $"7" seven)) = Some (lines (line_output NoValidation) (alone t $" " Declare $"7" seven)) /\
  wrong NoValidation (alone t $" " (Update $"+") $"7" seven) $"{{- set $ ""my-key"" (add (sub $.my $.key) 7) }}".
Proof. exists (target_of Global [] $"my-key"). split; [reflexivity|]. split; [vm_compute; reflexivity | wrong_tac]. Qed.
Print Assumptions C73_hyphen_refuted.

(** The name slice: the update of the value calls the function slice. *)
Theorem C73_slice_refuted : exists t op, target_ok t /\ In op update_ops /\ Forall free_of_words (names t) /\ names t = [$"slice"] /\
  wrong NoValidation (alone t $" " (Update op) $"7" seven) $"{{- set $ ""slice"" (add slice $.7) }}".
Proof.
  exists (target_of Global [] $"slice"), $"+".
  split; [split; [apply names_sound; reflexivity | intros _ n E; injection E as <-; split; intros (r & X); discriminate X]|].
  split; [cbn; tauto|]. split; [|split; [reflexivity | wrong_tac]].
  apply Forall_cons; [|apply Forall_nil]. intros w I. apply TemplateProofs.holds_not. cbn in I. repeat (destruct I as [<-|I]; [reflexivity|]). destruct I.
Qed.
Print Assumptions C73_slice_refuted.

(** The names that start with else or end are not targets. *)
Theorem C73_keyword_target_refuted : exists t, Forall name_ok (names t) /\ names t = [$"end_date"] /\
  wrong NoValidation (alone t $" " Declare $"7" seven) $"{{ end }}_date := 7".
Proof. exists (target_of Global [] $"end_date"). split; [apply names_sound; reflexivity|]. split; [reflexivity | wrong_tac]. Qed.
Print Assumptions C73_keyword_target_refuted.

(** An expression that cannot be translated is written as it is: the failure of the inner expression is lost
    (template/razor_repl_expr.go:128-144). *)
Theorem C73_untranslated_refuted : exists t E e, target_ok t /\ sample_parse base E = Some e /\ e = Unary $"<-" (Ident $"c") /\
  goes (sample_parse base) NoValidation (line_source (Asg [] t $" " Declare $" " E e)) = Some $"{{- set $ ""x"" <-c }}".
Proof.
  exists (target_of Global [] $"x"), $"<-c", (Unary $"<-" (Ident $"c")).
  split; [split; [apply names_sound; reflexivity | intros _ n X; injection X as <-; split; intros (r & Y); discriminate Y]|].
  split; [vm_compute; reflexivity|]. split; [reflexivity | vm_compute; reflexivity].
Qed.
Print Assumptions C73_untranslated_refuted.
