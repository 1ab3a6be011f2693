(** C108: indexes and slices in razor expressions. *)
From Coq Require Import String Ascii List ZArith NArith Bool.
From Verif Require Import GoStr RazorAssignModel IdxSpec IdxProofs.
Import ListNotations.
Local Open Scope char_scope.

(** C108.  Whatever the number of brackets and whatever is between them, each one is completed on its own: nothing
    means all the elements, a missing start is 0, a missing end is the last element, or 0 after a negative number. *)
Theorem C108_completed : forall beyond l l' last, Forall (fun p => flat (fst p) /\ inside_ok (snd p)) l -> flat last ->
  Forall2 (fun p q => fst p = fst q /\ completed (snd p) (snd q)) l l' ->
  index_expression beyond (bracketed l last) = bracketed l' last.
Proof. exact @indexes. Qed.
Print Assumptions C108_completed.
Theorem C108_always : forall x, inside_ok x -> exists y, completed x y.
Proof. exact @completion_exists. Qed.
Print Assumptions C108_always.
(** Text without brackets and without colons is left alone. *)
Theorem C108_plain : forall beyond s, flat s -> index_expression beyond s = s.
Proof. intros beyond s F. exact (C108_completed beyond [] [] s (Forall_nil _) F (Forall2_nil _)). Qed.
Print Assumptions C108_plain.

Example C108_example : index_expression (fun _ => false) $"a[] + b[:2].c[-3:] + d[1:][-x:][4][5:-6] + e[:]" =
  $"a[0:-1] + b[0:2].c[-3:0] + d[1:-1][-x:-1][4][5:-6] + e[0:-1]".
Proof. vm_compute. reflexivity. Qed.
Example C108_example_parts : $"b[:2].c[-3:]" = bracketed [($"b", Slice [] $"2"); ($".c", Slice $"-3" [])] []
  /\ completed (Slice $"-3" []) (Slice $"-3" $"0").
Proof.
  split; [reflexivity|]. apply Tail. exists $"3". split; [discriminate|]. split; [|reflexivity]. intros c [<-|[]]. vm_compute. split; discriminate.
Qed.
(** Zero after a minus sign is a negative number too. *)
Example C108_example_zero : index_expression (fun _ => false) $"x[-0:]" = $"x[-0:0]".
Proof. vm_compute. reflexivity. Qed.
(** Outside of brackets a colon followed by a closing bracket cannot be told from a slice: brackets in brackets are
    completed from the inside (this text is not one of those of the theorem). *)
Example C108_example_nested : index_expression (fun _ => false) $"x[y[]:]" = $"x[y[0:-1]:-1]".
Proof. vm_compute. reflexivity. Qed.
