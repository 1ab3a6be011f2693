(** Razor documents with calls: the rows of the table that leave them as they are. *)
From Coq Require Import String Ascii List ZArith NArith Bool Lia.
From Verif Require Import GoStr ReModel ReSyntaxModel RazorTableModel ReSound RazorRefSpec RazorRefAuto RazorRefMain RazorAsgAuto RazorAsgMain CallSpec CallAuto CallMatch.
Import ListNotations.
Local Open Scope char_scope.
Lemma call_rows_0 : forall beyond, forallb (esilent true true true words_0) (res_of (table beyond) 0 19) = true.
Proof. intro beyond. vm_compute. reflexivity. Qed.
Lemma call_rows_1 : forall beyond, forallb (esilent true true true []) (res_of (table beyond) 19 26) = true.
Proof. intro beyond. vm_compute. reflexivity. Qed.
Lemma call_rows_2 : forall beyond, forallb (esilent true false true []) (res_of (table beyond) 45 35) = true.
Proof. intro beyond. vm_compute. reflexivity. Qed.
Lemma call_row_80 : forall beyond, eforeign false false true (c_re (r_re (row80 beyond))) = true.
Proof. intro beyond. vm_compute. reflexivity. Qed.
Lemma call_rows_3 : forall beyond, forallb (esilent false false true []) (res_of (table beyond) 81 61) = true.
Proof. intro beyond. vm_compute. reflexivity. Qed.
Lemma call_row_142 : forall beyond, eforeign false false false (c_re (r_re (row142 beyond))) = true.
Proof. intro beyond. vm_compute. reflexivity. Qed.
Lemma call_rows_4 : forall beyond, forallb (esilent false false false []) (res_of (table beyond) 143 7) = true.
Proof. intro beyond. vm_compute. reflexivity. Qed.
Lemma call_rows_5 : forall beyond, forallb (needy words_c) (res_of (table beyond) 151 10) = true.
Proof. intro beyond. vm_compute. reflexivity. Qed.
