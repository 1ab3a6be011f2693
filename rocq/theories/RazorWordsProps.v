(** C51: reserved words survive expression parsing. *)
From Coq Require Import String Ascii List ZArith NArith Bool Permutation.
From Verif Require Import GoStr GoStrFacts QuoteModel RazorExprModel RazorExprSpec RazorWordsModel RazorWordsSpec RazorWordsProofs.
Import ListNotations.

(** In whatever order the table of reserved words is visited, the words of a text are back after the
    translation, the dollar signs doubled; the dots come back before the others. *)
Theorem C51_words : forall order s, Permutation order reserved ->
  ~ occurs $"REPL_" s -> ~ occurs $"__DoTPrefix__" s -> ~ occurs $"__GlobalVar__" s ->
  restore_words (replace_all $"__REPL_1__" $"..." (protect_words order s)) = doubled s.
Proof. exact @restored. Qed.
Print Assumptions C51_words.
(** The doubled dollar signs become single ones when the text is used as a replacement of the regular
    expression, whatever its groups hold. *)
Theorem C51_dollars : forall groups s, expand groups (doubled s) = s.
Proof. exact @expanded. Qed.
Print Assumptions C51_dollars.

Example C51_sample :
  protect_words reserved $"$default + range(maps..., functype)" = $"__REPL_0____REPL_3__ + __REPL_2__(__REPL_7__s__REPL_1__, __REPL_4____REPL_5__)" /\
  protect_words (rev reserved) $"$default + range(maps..., functype)" = $"__REPL_0____REPL_3__ + __REPL_2__(__REPL_7__s__REPL_1__, __REPL_4____REPL_5__)" /\
  restore_words (replace_all $"__REPL_1__" $"..." (protect_words reserved $"$default + range(maps..., functype)")) = $"$$default + range(maps..., functype)" /\
  expand (fun _ => $"?") $"$$default + range(maps..., functype)" = $"$default + range(maps..., functype)".
Proof. vm_compute. repeat split; reflexivity. Qed.
(** The order of the loop does matter for the text in between. *)
Example C51_order : protect_words reserved $"$...." = $"__REPL_0____REPL_1__." /\ expand (fun n => $"<" ++ n ++ $">") $"$a.${b}$$c$" = $"<a>.<b>$c$".
Proof. vm_compute. split; reflexivity. Qed.

(** A text that looks like the end of a placeholder after a reserved word is not restored, though it holds
    no placeholder. *)
Theorem C51_placeholder_refuted : exists s, (forall k v, In (k, v) reserved -> ~ occurs v s) /\
  restore_words (replace_all $"__REPL_1__" $"..." (protect_words reserved s)) = $"__REPL_7type" /\ doubled s = s.
Proof.
  exists $"mapREPL_5__". split; [| vm_compute; split; reflexivity]. intros k v I O. apply contains_iff in O.
  assert (A : forallb (fun kv => negb (contains (snd kv) $"mapREPL_5__")) reserved = true) by (vm_compute; reflexivity).
  rewrite forallb_forall in A. specialize (A _ I). cbv beta in A. cbn [snd] in A. rewrite O in A. discriminate A.
Qed.
Print Assumptions C51_placeholder_refuted.

Definition env1 : PrintEnv := {| is_print_other := fun _ => true |}.
(** The dollar signs of literal texts are not doubled: a name after one is taken for a group of the regular
    expression and is lost. *)
Theorem C51_literal_refuted : exists e s (P : PrintEnv), fine e /\ node_value e = Ok s /\
  read_command s = Some [Atom $"f__FuncCall__"; Atom $"""US$cost"""] /\ finish $"f(""US$cost"")" s = $"f ""US""".
Proof.
  exists (Call (Ident $"f") [Lit $"""US$cost"""] false). eexists. exists env1. split; [| split; [reflexivity | split; vm_compute; reflexivity]].
  vm_compute. intuition discriminate.
Qed.
Print Assumptions C51_literal_refuted.
(** ... and two of them become one. *)
Theorem C51_single_refuted : exists e s (P : PrintEnv), fine e /\ node_value e = Ok s /\
  read_command s = Some [Atom $"f__FuncCall__"; Atom $"""$$"""] /\ finish $"f(""$$"")" s = $"f ""$""".
Proof.
  exists (Call (Ident $"f") [Lit $"""$$"""] false). eexists. exists env1. split; [| split; [reflexivity | split; vm_compute; reflexivity]].
  vm_compute. intuition discriminate.
Qed.
Print Assumptions C51_single_refuted.
(** A global variable called slice changes places with what follows it. *)
Theorem C51_slice_refuted : exists e s (P : PrintEnv), fine e /\ node_value e = Ok s /\
  read_command s = Some [Atom $"add"; Atom $"__GlobalVar__slice"; Atom $"1"] /\ finish $"slice + 1" s = $"add slice $.1".
Proof.
  exists (Binary $"+" (Ident $"slice") (Lit $"1")). eexists. exists env1. split; [| split; [reflexivity | split; vm_compute; reflexivity]].
  vm_compute. intuition discriminate.
Qed.
Print Assumptions C51_slice_refuted.
(** The symbols of operators are a map too: an expression can have two readings. *)
Theorem C51_symbols_refuted : exists order s, Permutation order symbols /\ replace_each symbols s <> replace_each order s.
Proof. exists (rev symbols), $"a «> b". split; [symmetry; apply Permutation_rev | vm_compute; discriminate]. Qed.
Print Assumptions C51_symbols_refuted.

(** A whole expression: $x.y + a["k"], translated and put in the template. *)
Example C51_whole : let P := env1 in
  node_value (Binary $"+" (Sel (Ident $"__REPL_0__x") $"y") (Index (Ident $"a") (Lit $"""k"""))) = Ok $"add __REPL_0__x.y (slice __GlobalVar__a ""k"")" /\
  finish $"$x.y + a[""k""]" $"add __REPL_0__x.y (slice __GlobalVar__a ""k"")" = $"add $x.y (slice $.a ""k"")".
Proof. vm_compute. split; reflexivity. Qed.
