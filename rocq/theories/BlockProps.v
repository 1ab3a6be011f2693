(** C77, C78: razor documents with blocks. *)
From Coq Require Import String Ascii List NArith Bool Permutation.
From Verif Require Import GoStr QuoteModel TemplateModel TemplateSpec TextModel RazorExprModel RazorWordsModel ReModel ReSyntaxModel RazorTableModel RazorAssignModel RazorRefSpec RazorRefAuto RazorRefProofs RazorAsgSpec RazorAsgMain RazorAsgSample RazorAssignProps
  BlockSpec BlockMain3.
Import ListNotations.
Local Open Scope char_scope.

(** ** C77: lines of text, of assignments and of commands for blocks *)
(** The parameters are those of C72.  A line that opens a block becomes the action of its command (a loop becomes
    range) with the translated expression, @else and @end become the actions of the same names, assignments are
    translated as in C72, and the rest of every line remains, whatever the other replacements of the table do. *)
Theorem C77_blocks : forall beyond words signs opers parse mode (P : PrintEnv) other l,
  Permutation words RazorWordsModel.reserved -> Permutation signs symbols -> Permutation opers operator_words ->
  reads_updates parse -> follows_code beyond words signs opers parse mode default_delims other ->
  Forall (block_ok parse) l -> quiet (block_lines block_source l) ->
  apply_razor beyond other default_delims (block_lines block_source l) = Some (block_lines (block_output mode) l).
Proof. intros beyond words signs opers parse mode P other l HW HS HO HU HF. exact (block_document beyond words signs opers parse mode HW HS HO HU other HF l). Qed.
Print Assumptions C77_blocks.

(** *** A document with all commands *)
Definition block_base (s : str) : option expr :=
  if str_eqb s $"x" then Some (Ident $"x") else if str_eqb s $"a > 2" then Some (Binary $">" (Ident $"a") (V $"2")) else base s.
Definition ands : expr := Binary $"&&" (Sel (Ident $"a") $"b") (Unary $"!" (Ident $"done")).
Definition calls : expr := Binary $"*" (Call (Ident $"f") [Ident $"x"; Unary $"-" (Ident $"y")] false) (V $"2.5").
Definition block_sample : list block_line :=
  [Simple (Words $"Title (draft); {{ .Even }} an action.");
   Simple (Asg [] (target_of Global [] $"total") $" " Declare $" " $"1 + 2" (Binary $"+" (V $"1") (V $"2")));
   Open [] Plain OIf $" " $" " $"a > 2" (Binary $">" (Ident $"a") (V $"2")) $" " $"many, x.y = 3";
   Open $"  " Dash (OForEach $" ") [] [] $"f(x, -y) * 2.5" calls [] [];
   Simple (Words $"    item");
   Close $"  " UnderDash $" " (CForEach $" ") true $"; done";
   Open [] DashDash (OElseIf $" ") $" " [] $"a.b && !done" ands [] [];
   Simple (Asg $"  " (target_of Local [] $"n") $" " Declare $" " $"7" (V $"7"));
   Alt [] Under $" few";
   Open $"  " Plain OWith [] [] $"x" (Ident $"x") $" " $"v";
   Close $"  " Plain [] CWith false [];
   Open [] Plain ORange [] [] $"x" (Ident $"x") [] [];
   Close [] Dash $" " CRange false $".";
   Open [] Plain OFor [] $" " $"x" (Ident $"x") [] [];
   Close [] Plain [] CNothing false [];
   Close [] DashDash [] CIf true $" and if so"].
Ltac line_tac :=
  cbn [line_ok]; first [split; cbn; intuition discriminate |
    (split; [apply blanks_sound; reflexivity|]); (split; [split; [apply names_sound; reflexivity | intros _ m X; injection X as <-; split; intros (r & Y); discriminate Y]|]);
    (split; [split; [apply blanks_sound; reflexivity | intros X NB op Y; discriminate Y]|]); (split; [intros op Y; discriminate Y|]);
    (split; [apply blanks_sound; reflexivity|]); (split; [apply text_sound; vm_compute; reflexivity|]); (split; [vm_compute; reflexivity|]); expr_tac]
with expr_tac := cbn [expr_ok]; repeat split; try (apply name_sound; reflexivity); try (apply literal_sound; reflexivity); try discriminate; try (cbn; tauto).
Definition after_okb (z : str) : bool :=
  match z with c :: _ => negb (is_blank c) | [] => true end && forallb (fun c => (N_of_ascii c <? 128)%N && negb (existsb (Ascii.eqb c) [")"; "@"; ";"; "{"; "010"])) z.
Lemma after_sound : forall z, after_okb z = true -> text_after z.
Proof.
  intros z H. apply andb_true_iff in H. destruct H as [H1 H2]. split.
  - intros c r -> X. apply is_blank_iff in X. rewrite X in H1. discriminate H1.
  - apply Forall_forall. intros c I. rewrite forallb_forall in H2. apply H2, andb_true_iff in I. destruct I as [I1 I2]. split; [unfold ascii_char; apply N.ltb_lt; exact I1|].
    intros J. apply negb_true_iff in I2. assert (X : existsb (Ascii.eqb c) [")"; "@"; ";"; "{"; "010"] = true) by (apply existsb_exists; exists c; split; [exact J | apply Ascii.eqb_refl]). congruence.
Qed.
Ltac block_tac :=
  cbn [block_ok]; first [line_tac |
    (split; [apply blanks_sound; reflexivity|]); (split; [first [exact I | apply blanks_sound; reflexivity]|]); (split; [apply blanks_sound; reflexivity|]); (split; [apply blanks_sound; reflexivity|]);
    (split; [apply text_sound; vm_compute; reflexivity|]); (split; [vm_compute; reflexivity|]); (split; [unfold ands, calls; expr_tac|]); (split; [apply blanks_sound; reflexivity | apply after_sound; reflexivity]) |
    split; [apply blanks_sound; reflexivity | repeat apply Forall_cons; try apply Forall_nil; cbn; intuition discriminate] |
    (split; [apply blanks_sound; reflexivity|]); (split; [apply blanks_sound; reflexivity|]); (split; [first [exact I | apply blanks_sound; reflexivity]|]);
    (split; [cbn; intuition discriminate|]); (split; [cbn; intuition discriminate|]);
    intros X c r Y; first [discriminate X | discriminate Y | injection Y as <- _; split; [reflexivity|]; split; [intros Z; apply is_blank_iff in Z; discriminate Z|]; split; [intros Z; apply is_alpha_iff in Z; discriminate Z | discriminate]]].
Lemma block_sample_ok : Forall (block_ok (sample_parse block_base)) block_sample.
Proof. unfold block_sample. repeat apply Forall_cons; [ .. | apply Forall_nil]. all: block_tac. Qed.
Lemma block_sample_quiet : quiet (block_lines block_source block_sample).
Proof. intros w I. apply TemplateProofs.holds_not. cbn in I. repeat (destruct I as [<-|I]; [vm_compute; reflexivity|]). destruct I. Qed.
Example C77_sample : forall mode, goes (sample_parse block_base) mode (block_lines block_source block_sample) = Some (block_lines (block_output mode) block_sample).
Proof.
  intros mode. exact (C77_blocks no_letters _ _ _ _ mode all_printed (code (sample_parse block_base) mode) block_sample (Permutation_refl _) (Permutation_refl _) (Permutation_refl _) (sample_reads block_base) (code_follows _ mode) block_sample_ok block_sample_quiet).
Qed.
Print Assumptions C77_sample.
Example C77_sample_source : block_lines block_source block_sample = $"Title (draft); {{ .Even }} an action.
@total := 1 + 2
@if ( a > 2) many, x.y = 3
  @-for each(f(x, -y) * 2.5)
    item
  @_-end for each;; done
@--else if (a.b && !done)
  @$n := 7
@_else few
  @with(x) v
  @endwith
@range(x)
@-end range.
@for( x)
@end
@--endif; and if so".
Proof. vm_compute. reflexivity. Qed.
Example C77_sample_output : block_lines (block_output StrictValidation) block_sample = $"Title (draft); {{ .Even }} an action.
{{- set $ ""total"" (add 1 2) }}
{{ if gt $.a 2 }}many, x.y = 3
  {{- range mul (f $.x (sub 0 $.y)) 2.5 }}
    item
  {{ end -}}; done
{{- else if and $.a.b (not $.done) -}}
  {{- $n := 7 }}
{{ else }} few
  {{ with $.x }}v
  {{ end }}
{{ range $.x }}
{{- end }}.
{{ range $.x }}
{{ end }}
{{- end -}} and if so".
Proof. vm_compute. reflexivity. Qed.
(** The same by computation *)
Example C77_sample_run : goes (sample_parse block_base) StrictValidation (block_lines block_source block_sample) = Some (block_lines (block_output StrictValidation) block_sample).
Proof. vm_compute. reflexivity. Qed.

(** ** C78: what the conditions of C77 leave out *)
(** The commands of text/template that open a block or continue one *)
Definition template_commands : list str := [$"if"; $"else if"; $"with"; $"range"].
(** The action of @elseif, which the expression of the table accepts (template/razor.go:101), is not an action of text/template *)
Theorem C78_elseif_refuted : exists w E e, opener_ok w /\ block_ok (sample_parse block_base) (Open [] Plain w [] [] E e [] []) /\
  (forall c, In c template_commands -> opener_command w <> c) /\
  goes (sample_parse block_base) NoValidation (block_source (Open [] Plain w [] [] E e [] [])) = Some $"{{ elseif $.x }}".
Proof.
  exists (OElseIf []), $"x", (Ident $"x"). split; [apply Forall_nil|]. split; [block_tac|]. split; [|vm_compute; reflexivity].
  intros c I. cbn in I. repeat (destruct I as [<-|I]; [discriminate|]). destruct I.
Qed.
Print Assumptions C78_elseif_refuted.
Definition different (l : list block_line) (s : str) : Prop :=
  quiet (block_lines block_source l) /\ goes (sample_parse block_base) NoValidation (block_lines block_source l) = Some s /\ s <> block_lines (block_output NoValidation) l.
Ltac different_tac :=
  split; [intros w I; apply TemplateProofs.holds_not; cbn in I; repeat (destruct I as [<-|I]; [vm_compute; reflexivity|]); destruct I|]; split;
  [vm_compute; reflexivity | let H := fresh in intros H; vm_compute in H; discriminate H].
(** A semicolon in the text after a condition ends the block: the end of the block is one too many. *)
Theorem C78_semicolon_refuted : exists z, ~ In "@" z /\ ~ In "010" z /\ ~ In ")" z /\ ~ In "{" z /\
  different [Open [] Plain OIf $" " [] $"x" (Ident $"x") $" " z; Close [] Plain [] CNothing false []] $"{{ if $.x }}one{{ end }} two
{{ end }}".
Proof. exists $"one; two". do 4 (split; [cbn; intuition discriminate|]). different_tac. Qed.
Print Assumptions C78_semicolon_refuted.
(** The word after @end belongs to the command, when it is the name of a command. *)
Theorem C78_end_word_refuted : exists z, ~ In "@" z /\ ~ In "010" z /\ different [Close [] Plain [] CNothing false z] $"{{ end }} the day".
Proof. exists $" for the day". split; [cbn; intuition discriminate|]. split; [cbn; intuition discriminate | different_tac]. Qed.
Print Assumptions C78_end_word_refuted.
(** The blanks after a condition are lost: the words around the condition are joined. *)
Theorem C78_blanks_refuted : exists z c r, z = c :: r /\ blank_char c /\
  different [Open $"" Plain OIf $" " [] $"x" (Ident $"x") [] z] $"{{ if $.x }}text".
Proof. exists $" text", " ", $"text". split; [reflexivity|]. split; [left; reflexivity | different_tac]. Qed.
Print Assumptions C78_blanks_refuted.
(** A loop over a variable without its sign: neither the assignment nor the value is translated. *)
Theorem C78_loop_variable_refuted : exists n, name_ok n /\
  goes (sample_parse block_base) NoValidation ($"@for ($" ++ n ++ $" := x)") = Some ($"{{ range $" ++ n ++ $" := $.x }}") /\
  goes (sample_parse block_base) NoValidation ($"@for (" ++ n ++ $" := x)") = Some ($"{{ range " ++ n ++ $" := x }}").
Proof. exists $"i". split; [apply name_sound; reflexivity|]. split; vm_compute; reflexivity. Qed.
Print Assumptions C78_loop_variable_refuted.
