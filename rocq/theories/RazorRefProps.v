(** C70, C71: razor documents made of text, references to global variables and escaped delimiters. *)
From Coq Require Import String Ascii List NArith Bool.
From Verif Require Import GoStr TemplateModel TemplateSpec ReModel ReSyntaxModel RazorTableModel RazorRefSpec RazorRefMain.
Import ListNotations.
Local Open Scope char_scope.

(** [beyond] is the class of letters beyond ASCII, [other] the replacements that are not modelled here; the theorems
    hold for all of them. *)

(** A document of text, references and escaped delimiters becomes the same text with an action for each reference
    and the delimiter for each escaped one; all the 165 replacements of the table are applied, in their order. *)
Theorem C70_reference_documents : forall beyond other l, plain l -> quiet (source l) ->
  apply_razor beyond other default_delims (source l) = Some (output l).
Proof. exact @plain_document. Qed.
Print Assumptions C70_reference_documents.

(** *** A document of this kind *)
Definition letter_doc : list item :=
  [Text $"Dear "; Ref Plain $"name" None; Text $"! See <b>"; Ref Plain $"x1" None; Text $"</b> at "; Ref Dash $"user_" (Some []); At;
   Ref UnderDash $"host" None; Text $":80/"; Ref DashDash $"path" (Some $"  "); Text $"/index.html, 3 > 2"].
Lemma alpha_ok : forall c, (let n := N_of_ascii c in (N.leb 65 n && N.leb n 90) || (N.leb 97 n && N.leb n 122)) = true -> alpha c.
Proof.
  intros c H. cbv zeta in H. unfold alpha, code_in. apply orb_true_iff in H. destruct H as [H|H]; apply andb_true_iff in H; destruct H as [H1 H2];
    apply N.leb_le in H1; apply N.leb_le in H2; [left | right]; split; assumption.
Qed.
Ltac name_tac :=
  repeat split;
  [ do 2 eexists; split; [reflexivity|]; split; [apply alpha_ok; reflexivity|];
    repeat (apply Forall_cons; [first [left; apply alpha_ok; reflexivity | right; left; split; intro; discriminate | right; right; reflexivity]|]); apply Forall_nil
  | intros [r H]; discriminate H | intros [r H]; discriminate H
  | let H := fresh in intros H; repeat (destruct H as [H|H]; [discriminate H|]); destruct H ].
Ltac no_tac := let H := fresh in intros H; repeat (destruct H as [H|H]; [discriminate H|]); destruct H.
Example C70_letter_plain : plain letter_doc.
Proof.
  cbn [plain letter_doc]. repeat match goal with |- _ /\ _ => split end; try name_tac; try no_tac; try exact I.
  - (* ! See *)
    exists $"!", $" ", $"See <b>@x1</b> at @-user_;@@@_-host:80/@--path  ;/index.html, 3 > 2".
    split; [reflexivity|]. split; [right; do 2 eexists; split; [reflexivity|]; split; [cbn; tauto | apply Forall_nil]|].
    split; [apply Forall_cons; [left; reflexivity | apply Forall_nil]|].
    apply ct_char; [reflexivity | intros [H|H]; discriminate H | no_tac | no_tac | discriminate | intros _; no_tac].
  - (* </b> *)
    exists [], [], $"</b> at @-user_;@@@_-host:80/@--path  ;/index.html, 3 > 2". split; [reflexivity|]. split; [left; reflexivity|]. split; [apply Forall_nil|].
    apply ct_op; [left; cbn; tauto|]. intros d r H. injection H as <- _. no_tac.
  - apply Forall_nil.
  - (* :80 *)
    exists [], [], $":80/@--path  ;/index.html, 3 > 2". split; [reflexivity|]. split; [left; reflexivity|]. split; [apply Forall_nil|].
    apply ct_op; [left; cbn; tauto|]. intros d r H. injection H as <- _. no_tac.
  - repeat (apply Forall_cons; [left; reflexivity|]). apply Forall_nil.
Qed.
Example C70_letter_quiet : quiet (source letter_doc).
Proof.
  intros w H. cbn in H. repeat (destruct H as [<-|H]; [apply TemplateProofs.holds_not; vm_compute; reflexivity|]). destruct H.
Qed.
Example C70_letter : forall beyond other, apply_razor beyond other default_delims
    $"Dear @name! See <b>@x1</b> at @-user_;@@@_-host:80/@--path  ;/index.html, 3 > 2" =
  Some $"Dear {{ $.name }}! See <b>{{ $.x1 }}</b> at {{- $.user_ }}@{{ $.host -}}:80/{{- $.path -}}/index.html, 3 > 2".
Proof. intros. exact (C70_reference_documents beyond other letter_doc C70_letter_plain C70_letter_quiet). Qed.
(** The same by computation *)
Example C70_computed : forall beyond other, apply_razor beyond other default_delims $"@a/@_b;.txt @@c @-d -- @e:80" =
  Some $"{{ $.a }}/{{ $.b }}.txt @c {{- $.d }} -- {{ $.e }}:80".
Proof. intros. vm_compute. reflexivity. Qed.
Print Assumptions C70_letter.

(** *** The conditions are needed *)
Definition goes (s : str) (t : str) : Prop := forall beyond other, apply_razor beyond other default_delims s = Some t.

(** Names that start with a word of the template language: only the word is read. *)
Theorem C70_keyword_prefix_refuted : exists n, alpha (nth 0 n " ") /\ Forall word_char n /\ ~ In n ($"else" :: $"end" :: reserved) /\
  goes (source [Ref Plain n None]) $"{{ end }}point" /\ output [Ref Plain n None] = $"{{ $.endpoint }}".
Proof.
  exists $"endpoint". split; [apply alpha_ok; reflexivity|]. split; [|split; [no_tac | split; [intros beyond other; vm_compute; reflexivity | reflexivity]]].
  repeat (apply Forall_cons; [left; apply alpha_ok; reflexivity|]). apply Forall_nil.
Qed.
Print Assumptions C70_keyword_prefix_refuted.
Example C70_keyword_else : goes $"@elsewhere" $"{{ else }}where".
Proof. intros beyond other. vm_compute. reflexivity. Qed.
Example C70_keyword_if : goes $"@iffy" $"{{ $.iffy }}".
Proof. intros beyond other. vm_compute. reflexivity. Qed.

Example C70_closed_then_escape : goes $"@user;@@example.com" $"{{ $.user }}@example.com".
Proof. intros beyond other. vm_compute. reflexivity. Qed.

(** The full stop of a sentence is read as a part of the name. *)
Theorem C70_full_stop_refuted : exists n t, plain_name n /\ ~ In "@" t /\ quiet (source [Ref Plain n None; Text t]) /\
  goes (source [Ref Plain n None; Text t]) $"{{ $.name. }}" /\ output [Ref Plain n None; Text t] = $"{{ $.name }}.".
Proof.
  exists $"name", $".". split; [name_tac|]. split; [no_tac|]. split; [|split; [intros beyond other; vm_compute; reflexivity | reflexivity]].
  intros w H. cbn in H. repeat (destruct H as [<-|H]; [apply TemplateProofs.holds_not; vm_compute; reflexivity|]). destruct H.
Qed.
Print Assumptions C70_full_stop_refuted.

(** A name that starts with _ : the character is read as a mark. *)
Theorem C70_underscore_refuted : exists c r, c = "_" /\ Forall alpha r /\ goes ($"@" ++ c :: r) $"{{ $.foo }}" /\ goes ($"@" ++ r) $"{{ $.foo }}".
Proof.
  exists "_", $"foo". split; [reflexivity|]. split; [|split; intros beyond other; vm_compute; reflexivity].
  repeat (apply Forall_cons; [apply alpha_ok; reflexivity|]). apply Forall_nil.
Qed.
Print Assumptions C70_underscore_refuted.

(** Text that no reference touches is changed when a delimiter is somewhere else in the document. *)
Theorem C70_text_kept_refuted : exists l, Forall (fun x => ~ In "@" (fst x) /\ fst x <> snd x /\ goes ($"@x; " ++ fst x) ($"{{ $.x }} " ++ snd x)) l /\
  map fst l = [$"a _=!AT!=_ b"; $"__FuncCall__"; $"""<<{{ a }} b"""; $"{{ /* c */ }}"] /\
  map snd l = [$"a @ b"; []; $"{{ a }} b"; $"{{/* c */}}"].
Proof.
  exists [($"a _=!AT!=_ b", $"a @ b"); ($"__FuncCall__", []); ($"""<<{{ a }} b""", $"{{ a }} b"); ($"{{ /* c */ }}", $"{{/* c */}}")].
  split; [|split; reflexivity].
  repeat (apply Forall_cons; [split; [no_tac | split; [discriminate | intros beyond other; vm_compute; reflexivity]]|]). apply Forall_nil.
Qed.
Print Assumptions C70_text_kept_refuted.

(** ** C71: other delimiters *)
(** The delimiters of the template must not be such that the replacement texts can no longer be read: with a right
    delimiter that does not start with a brace, the group reduce2 is not found and its name remains in the text. *)
Definition square : delims := {| left_delim := $"[["; right_delim := $"]]"; razor_delim := $"@" |}.
Theorem C71_template_delimiters_refuted : exists d n, left_delim d <> [] /\ right_delim d <> [] /\ razor_delim d = $"@" /\ plain_name n /\
  forall beyond other, apply_razor beyond other d (source [Text $"Hello "; Ref Plain n None]) = Some $"Hello [[ $.x ${reduce2]]}" /\
  output [Text $"Hello "; Ref Plain n None] = $"Hello {{ $.x }}".
Proof.
  exists square, $"x". split; [discriminate|]. split; [discriminate|]. split; [reflexivity|]. split; [name_tac|].
  intros beyond other. split; [vm_compute; reflexivity | reflexivity].
Qed.
Print Assumptions C71_template_delimiters_refuted.

(** With another razor delimiter references still work. *)
Definition percent : delims := {| left_delim := $"{{"; right_delim := $"}}"; razor_delim := $"%" |}.
Example C71_razor_delimiter : forall beyond other, apply_razor beyond other percent $"Hello %name; and %_-other! 100%%" = Some $"Hello {{ $.name }} and {{ $.other -}}! 100%".
Proof. intros. vm_compute. reflexivity. Qed.
