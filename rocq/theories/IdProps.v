(** C79, C80: the function id. *)
From Coq Require Import String Ascii List ZArith NArith Bool.
From Verif Require Import GoStr Utf8 TemplateSpec ReModel ReSyntaxModel IdModel IdSpec IdProofs.
Import ListNotations.
Local Open Scope char_scope.

(** ** C79: the characters that are not of identifiers are replaced, and replacements that follow each other are joined *)
(** [beyond] is the class of letters beyond ASCII. *)
Theorem C79_id : forall beyond s r u, plain_replacement r -> collapsed r (substituted beyond r s) u -> id_text beyond s r = Some u.
Proof. exact id_replaced. Qed.
Print Assumptions C79_id.
Theorem C79_always : forall beyond s r, plain_replacement r -> exists u, collapsed r (substituted beyond r s) u /\ id_text beyond s r = Some u.
Proof.
  intros beyond s r P. destruct (collapsed_exists r (substituted beyond r s) (proj1 P)) as (u & C). exists u. split; [exact C | exact (id_replaced beyond s r u P C)].
Qed.
Print Assumptions C79_always.
(** Without a replacement: underscores, never two in a row; the function applied again changes nothing. *)
Theorem C79_default : forall beyond s, beyond rune_error = false -> exists u, id_text beyond s [] = Some u /\
  Forall (fun c => kept beyond (fst c) = true) (chunks u) /\ (forall a b, u <> a ++ $"__" ++ b) /\ id_text beyond u [] = Some u.
Proof.
  intros beyond s HE. destruct (collapsed_exists $"_" (substituted beyond $"_" s) ltac:(discriminate)) as (u & C). exists u. rewrite !id_default.
  destruct (apart_collapsed beyond HE _ _ C) as (A & _). pose proof (whole_collapsed beyond HE _ _ C (whole_subst beyond HE s)) as W.
  split; [exact (id_replaced beyond s $"_" u under_plain C)|]. split; [exact W|]. split; [exact A|].
  apply (id_replaced beyond u $"_" u under_plain). rewrite (subst_whole beyond u W). exact (collapsed_apart beyond HE u A).
Qed.
Print Assumptions C79_default.
(** A text of such characters without two underscores in a row remains. *)
Theorem C79_remains : forall beyond s, beyond rune_error = false -> Forall (fun c => kept beyond (fst c) = true) (chunks s) -> (forall a b, s <> a ++ $"__" ++ b) -> id_text beyond s [] = Some s.
Proof.
  intros beyond s HE W A. rewrite id_default. apply (id_replaced beyond s $"_" s under_plain). rewrite (subst_whole beyond s W). exact (collapsed_apart beyond HE s A).
Qed.
Print Assumptions C79_remains.

(** é and à are letters *)
Definition latin (n : N) : bool := N.eqb n 233 || N.eqb n 224.
Example C79_examples : map (fun x => id_text latin (fst x) (snd x))
  [($"This is -- a test!", []); ($"déjà vu: 3 × 4", []); ($"a__b", []); ($"a b. c", $"-"); ($"a ..b", $"+"); ($"a b  c", $"\."); ($"x  y", $"()"); ($"a--b- c", $"--"); ($"a" ++ ["255"; "254"] ++ $"b", [])] =
  map Some [$"This_is_a_test_"; $"déjà_vu_3_4"; $"a_b"; $"a-b-c"; $"a+b"; $"a\.b\.c"; $"x()y"; $"a--b--c"; $"a_b"].
Proof. vm_compute. reflexivity. Qed.

(** ** C80: what the function promises and does not do *)
(** "Returns a valid go identifier" (template/extra_utils.go:103) *)
Theorem C80_identifier_refuted : exists s u, s <> [] /\ forall beyond, id_text beyond s [] = Some u /\ ~ go_identifier beyond u.
Proof.
  exists $"1 place", $"1_place". split; [discriminate|]. intros beyond. split; [vm_compute; reflexivity|]. intros (_ & c & l & E & N). vm_compute in E. injection E as <- _. apply N. split; discriminate.
Qed.
Print Assumptions C80_identifier_refuted.
Theorem C80_empty_refuted : exists u, forall beyond, id_text beyond [] [] = Some u /\ ~ go_identifier beyond u.
Proof. exists []. intros beyond. split; [vm_compute; reflexivity|]. intros (_ & c & l & E & _). discriminate E. Qed.
Print Assumptions C80_empty_refuted.
(** The signs that the code does not escape: * is a panic, the others put the replacement where nothing is replaced. *)
Theorem C80_star_refuted : exists r, length r = 1 /\ forall beyond s, id_text beyond s r = None.
Proof.
  exists $"*". split; [reflexivity|]. intros beyond s. unfold id_text. change (str_eqb $"*" []) with false. cbv beta iota zeta. change (str_eqb $"*" $"_") with false. cbv beta iota.
  destruct (valid_chars beyond) as [v|]; [|reflexivity]. destruct (duplicate_underscore beyond) as [u|]; [|reflexivity]. destruct (special_ok beyond) as (c & -> & H).
  unfold RazorAssignModel.replace_all_string at 1. rewrite (char_replaced _ _ _ $"*" H). vm_compute. reflexivity.
Qed.
Print Assumptions C80_star_refuted.
Theorem C80_signs_refuted : exists l, map fst l = [$"|"; $"^"; $"$"] /\ Forall (fun x => forall beyond, id_text beyond $"name" (fst x) = Some (snd x) /\ snd x <> $"name") l /\
  map snd l = [$"|n|a|m|e|"; $"^name"; $"name$"].
Proof.
  exists [($"|", $"|n|a|m|e|"); ($"^", $"^name"); ($"$", $"name$")]. split; [reflexivity|]. split; [|reflexivity].
  repeat (apply Forall_cons; [intros beyond; split; [vm_compute; reflexivity | discriminate]|]). apply Forall_nil.
Qed.
Print Assumptions C80_signs_refuted.
(** A text with a dollar sign is a template: the name after it is lost. *)
Theorem C80_dollar_refuted : exists r, r = $"$x" /\ forall beyond, id_text beyond $"a b" r = Some $"ab".
Proof. exists $"$x". split; [reflexivity|]. intros beyond. vm_compute. reflexivity. Qed.
Print Assumptions C80_dollar_refuted.
