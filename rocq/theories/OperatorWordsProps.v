(** C68: operators written as words. *)
From Coq Require Import String Ascii List ZArith NArith Bool Permutation.
From Verif Require Import GoStr RazorExprModel RazorWordsModel RazorWordsSpec OperatorWordsProofs.
Import ListNotations.

(** When no two words of operators follow each other, all words between blanks are replaced by their
    operators, in whatever order the table is visited. *)
Theorem C68_words : forall order s, Permutation order operator_words -> ~ adjacent s -> replace_each order s = spelled 0 s.
Proof. exact @any_order. Qed.
Print Assumptions C68_words.
Example C68_sample : replace_each operator_words $"a and b or (c not in) lt d  add 1 sub" = $"a&&b||(c!in)<d +1 sub" /\
  replace_each (rev operator_words) $"a and b or (c not in) lt d  add 1 sub" = $"a&&b||(c!in)<d +1 sub" /\
  spelled 0 $"a and b or (c not in) lt d  add 1 sub" = $"a&&b||(c!in)<d +1 sub".
Proof. vm_compute. repeat split; reflexivity. Qed.
(** Two words that follow each other share the blank: the expression depends on the order. *)
Theorem C68_adjacent_refuted : exists order s, Permutation order operator_words /\
  replace_each operator_words s = $"a&&not (b)" /\ replace_each order s = $"a and!(b)".
Proof. exists (rev operator_words), $"a and not (b)". split; [symmetry; apply Permutation_rev | vm_compute; split; reflexivity]. Qed.
Print Assumptions C68_adjacent_refuted.
(** Other white space than blanks does not count. *)
Example C68_tab : replace_each operator_words ($"a and" ++ [ascii_of_nat 9] ++ $"b") = $"a and" ++ [ascii_of_nat 9] ++ $"b".
Proof. vm_compute. reflexivity. Qed.
