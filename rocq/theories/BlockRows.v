(** Razor documents with blocks: the rows of the table that leave them as they are. *)
From Coq Require Import String Ascii List ZArith NArith Bool Lia.
From Verif Require Import GoStr ReModel ReSyntaxModel RazorTableModel ReSound RazorRefSpec RazorRefAuto RazorRefMain RazorAsgAuto RazorAsgMain BlockSpec BlockAuto BlockFits BlockMatch.
Import ListNotations.
Local Open Scope char_scope.
Definition end_keys : list str := [$"end"].
Lemma block_rows_0 : forall beyond, forallb (bsilent all_keys words_0) (res_of (table beyond) 0 18) = true.
Proof. intro beyond. vm_compute. reflexivity. Qed.
Lemma block_rows_1 : forall beyond, forallb (bsilent some_keys []) (res_of (table beyond) 19 16) = true.
Proof. intro beyond. vm_compute. reflexivity. Qed.
Lemma block_rows_2 : forall beyond, forallb (bsilent late_keys []) (res_of (table beyond) 36 7) = true.
Proof. intro beyond. vm_compute. reflexivity. Qed.
Lemma block_row_18 : forall beyond, foreign some_keys (c_re (r_re (row18 beyond))) = true.
Proof. intro beyond. vm_compute. reflexivity. Qed.
Lemma block_row_35 : forall beyond, foreign late_keys (c_re (r_re (row35 beyond))) = true.
Proof. intro beyond. vm_compute. reflexivity. Qed.
Lemma block_row_43 : forall beyond, foreign end_keys (c_re (r_re (row43 beyond))) = true.
Proof. intro beyond. vm_compute. reflexivity. Qed.
Lemma block_row_44 : forall beyond, foreign [] (c_re (r_re (row44 beyond))) = true.
Proof. intro beyond. vm_compute. reflexivity. Qed.
(** The words of the commands *)
Definition keys_ok (keys : list str) : Prop :=
  existsb (existsb odd_char) (key_words keys) = false /\ forallb (fun w => forallb (fun q => mem q (states_after keys $"@" w)) (after_key keys w)) (key_words keys) = true.
Lemma all_keys_ok : keys_ok all_keys. Proof. split; vm_compute; reflexivity. Qed.
Lemma some_keys_ok : keys_ok some_keys. Proof. split; vm_compute; reflexivity. Qed.
Lemma late_keys_ok : keys_ok late_keys. Proof. split; vm_compute; reflexivity. Qed.
Lemma end_keys_ok : keys_ok end_keys. Proof. split; vm_compute; reflexivity. Qed.
Lemma no_keys_ok : keys_ok []. Proof. split; vm_compute; reflexivity. Qed.
