(** What the error handler does with each message: the theorems. *)
From Coq Require Import String Ascii List ZArith NArith Bool Lia ZifyBool ZifyN.
From Verif Require Import GoStr GoStrFacts NumFacts Utf8 TemplateModel TemplateSpec TemplateProofs ProcessModel TextModel TextSpec TextProofs2 TextProofs3 ReModel ReSyntaxModel RazorTableModel RazorAssignModel ReSound RazorRefMain RazorAsgGo RazorAsgMatch ErrorModel ErrorSpec ErrorMatch ErrorMatch2 ErrorMatch3 ErrorMatch4 ErrorProofs.
Import ListNotations.
Local Open Scope char_scope.

Section Proofs.
Variable beyond : N -> bool.
Variables red white black yellow : str -> str.
Variable read_file : str -> res str.
Notation errors := (map (compiled_of beyond) template_errors).
Notation handle := (handle beyond red white black yellow read_file).
Notation repair := (repair beyond red yellow).
Lemma small_line : forall (pre : list str) n, (Z.of_nat (S (length pre)) < 9223372036854775808)%Z -> n = S (length pre) -> to_int (itoa (Z.of_nat n)) = Ok (Z.of_nat (S (length pre))).
Proof. intros pre n H ->. apply to_int_itoa. exact H. Qed.
Lemma exec_error_text : forall o file line column name code text, outer_ok o -> exec_ok file line column name code text ->
  error_text beyond (outer_text o ++ exec_message file line column name code text) = exec_message file line column name code text.
Proof. intros o file line column name code text OO OK. unfold exec_message. apply error_text_last; [exact (proj1 OK) | exact OO]. Qed.
Lemma parse_error_text : forall o file line text, outer_ok o -> parse_ok file line text -> error_text beyond (outer_text o ++ parse_message file line text) = parse_message file line text.
Proof. intros o file line text OO OK. unfold parse_message. apply error_text_last; [exact (proj1 OK) | exact OO]. Qed.

Lemma not_empty : forall (s : str) (x y : str), s <> [] -> match s with [] => x | _ :: _ => y end = y.
Proof. intros s x y H. destruct s; [contradiction | reflexivity]. Qed.
Lemma section_text : forall d action, left_delim d <> [] -> left_delim d ++ action ++ right_delim d <> [].
Proof. intros d action H E. apply app_eq_nil in E. exact (H (proj1 E)). Qed.
Lemma column_small : forall (line : str) n, n < length line -> small (length line) -> small n.
Proof. unfold small. intros line n H L. lia. Qed.

(** The failing action is a section between delimiters *)
Lemma running : forall d file source (pre post : list str) (a action b : str) original o column name code text,
  let line := a ++ (left_delim d ++ action ++ right_delim d) ++ b in
  let e := exec_message file (itoa (Z.of_nat (S (length pre)))) (itoa (Z.of_nat column)) name code text in
  left_delim d <> [] -> right_delim d <> [] -> good_lines (pre ++ line :: post) -> small (S (length pre)) -> small (length line) -> nth_error source (length pre) = Some original ->
  outer_ok o -> exec_ok file (itoa (Z.of_nat (S (length pre)))) (itoa (Z.of_nat column)) name code text -> ~ keyed text -> ~ raised text ->
  length a + length (left_delim d) < column <= length a + length (left_delim d) + length action ->
  (forall k, occurs_at (right_delim d) line k -> column <= S k -> length a + length (left_delim d) + length action <= k) ->
  (forall k, occurs_at (left_delim d) (a ++ left_delim d ++ action) k -> k <= length a) ->
  (forall k, occurs_at (left_delim d ++ action ++ right_delim d) line k -> k = length a) ->
  ~ holds line run_error -> ~ holds code undef_error ->
  handle d file source (join [NL] (pre ++ line :: post)) (outer_text o ++ e) =
    Ok (Again (join [NL] (pre ++ (a ++ run_error ++ b) :: post))
              (Some (white (location file (itoa (Z.of_nat (S (length pre)))) (Some (itoa (Z.of_nat column)))) ++ red (text ++ $" (" ++ code ++ $")") ++ $" in: " ++ black original))).
Proof.
  intros d file source pre post a action b original o column name code text line e NL0 NR GL SP SL SO OO OK NK NRA CO HR HL ON HE HU.
  destruct (exec_other beyond _ _ _ _ _ _ OK NK NRA) as (m & MU & RD).
  assert (LL : length line = length a + length (left_delim d) + length action + length (right_delim d) + length b) by (unfold line; rewrite !app_length; lia).
  assert (RP : length (right_delim d) <> 0) by (destruct (right_delim d); [contradiction | discriminate]).
  destruct (adjusted_in line (column - 1) ltac:(lia)) as (p & AD & PP).
  erewrite (handle_at beyond red white black yellow read_file d file source pre line post original _ 2 m); [| | exact RD | reflexivity | exact GL | exact SO | apply small_line; [exact SP | reflexivity] | reflexivity | apply column_itoa; unfold small in SL; lia |].
  2: { unfold e. rewrite exec_error_text by assumption. exact MU. }
  2: { replace (Z.of_nat column - 1)%Z with (Z.of_nat (column - 1)) by lia. exact AD. }
  destruct RD as (R1 & R2 & R3 & R4 & R5 & R6 & R7 & R8 & R9 & R10). cbn [s_location s_file s_line s_column s_code s_key s_message s_error s_value s_actual] in *.
  assert (CX : context_at line (Z.of_nat p) (left_delim d) (right_delim d) = Some (left_delim d ++ action ++ right_delim d, length a)).
  { apply context_simple; [exact NL0 | exact NR | lia | intros k K1 K2; apply (HR k K1); lia | exact HL]. }
  assert (NC : code <> []) by (destruct OK as (_ & _ & _ & _ & NC & _); exact NC).
  erewrite outcome_new.
  2: { unfold ErrorModel.repair. rewrite R6, R7, R5. destruct code as [|c0 code]; [contradiction|]. unfold select_context. rewrite CX. rewrite (not_empty _ _ _ (section_text d action NL0)). rewrite R8. reflexivity. }
  - rewrite R5, R1. rewrite (no_holds _ _ HE), (no_holds _ _ HU). cbn [orb]. unfold line. rewrite replace_only; [reflexivity | exact (section_text d action NL0) | exact ON].
  - unfold line. rewrite replace_only; [| exact (section_text d action NL0) | exact ON]. intro E. apply HE. unfold line. rewrite <- E. exists a, b. reflexivity.
Qed.

(** Errors of the template itself: raise and assert *)
Lemma raising : forall d file source (pre post : list str) (line : str) original o column name code word message,
  let n := itoa (Z.of_nat (S (length pre))) in
  let text := $"error calling " ++ word ++ $": " ++ message in
  let e := exec_message file n (itoa (Z.of_nat column)) name code text in
  word = $"raise" \/ word = $"assert" -> message <> [] ->
  good_lines (pre ++ line :: post) -> small (S (length pre)) -> small (length line) -> nth_error source (length pre) = Some original ->
  outer_ok o -> exec_ok file n (itoa (Z.of_nat column)) name code text -> 1 <= column <= length line ->
  line <> $"ERROR " -> ~ holds line run_error -> ~ holds code undef_error ->
  handle d file source (join [NL] (pre ++ line :: post)) (outer_text o ++ e) =
    Ok (Again (join [NL] (pre ++ $"ERROR " :: post)) (Some (white (location file n (Some (itoa (Z.of_nat column)))) ++ red message ++ $" in: " ++ black original))).
Proof.
  intros d file source pre post line original o column name code word message n text e WD NM GL SP SL SO OO OK CO HN HE HU.
  destruct (exec_raised beyond word _ _ _ _ _ _ WD OK) as (m & MU & RD).
  destruct (adjusted_in line (column - 1) ltac:(lia)) as (p & AD & PP).
  erewrite (handle_at beyond red white black yellow read_file d file source pre line post original _ 1 m); [| | exact RD | reflexivity | exact GL | exact SO | apply small_line; [exact SP | reflexivity] | reflexivity | apply column_itoa; unfold small in SL; lia |].
  2: { unfold e. rewrite exec_error_text by assumption. exact MU. }
  2: { replace (Z.of_nat column - 1)%Z with (Z.of_nat (column - 1)) by lia. exact AD. }
  destruct RD as (R1 & R2 & R3 & R4 & R5 & R6 & R7 & R8 & R9 & R10). cbn [s_location s_file s_line s_column s_code s_key s_message s_error s_value s_actual] in *.
  erewrite outcome_new.
  2: { unfold ErrorModel.repair. rewrite R6, R7. destruct message as [|c0 message]; [contradiction|]. rewrite R8. reflexivity. }
  - rewrite R5, R1. rewrite (no_holds _ _ HE), (no_holds _ _ HU). reflexivity.
  - intros E. apply HN. symmetry. exact E.
Qed.
(** Failed readings *)
Lemma parsing : forall d file source (pre post : list str) (line : str) original o text,
  let n := itoa (Z.of_nat (S (length pre))) in let e := parse_message file n text in
  good_lines (pre ++ line :: post) -> small (S (length pre)) -> nth_error source (length pre) = Some original ->
  outer_ok o -> parse_ok file n text -> ~ holds e $"undefined variable """ -> ~ holds e $"unclosed action started at " ->
  line <> $"ERROR " ++ text -> ~ holds line run_error ->
  handle d file source (join [NL] (pre ++ line :: post)) (outer_text o ++ e) =
    Ok (Again (join [NL] (pre ++ ($"ERROR " ++ text) :: post)) (Some (white (location file n None) ++ red text ++ $" in: " ++ black original))).
Proof.
  intros d file source pre post line original o text n e GL SP SO OO OK HV HC HN HE.
  destruct (parse_other beyond _ _ _ OK HV HC) as (m & MU & RD).
  erewrite (handle_at beyond red white black yellow read_file d file source pre line post original _ 5 m _ _ 0%Z 0%Z); [| | exact RD | reflexivity | exact GL | exact SO | apply small_line; [exact SP | reflexivity] | reflexivity | reflexivity | reflexivity].
  2: { unfold e. rewrite parse_error_text by assumption. exact MU. }
  destruct RD as (R1 & R2 & R3 & R4 & R5 & R6 & R7 & R8 & R9 & R10). cbn [s_location s_file s_line s_column s_code s_key s_message s_error s_value s_actual] in *.
  erewrite outcome_new.
  2: { unfold ErrorModel.repair. rewrite R6, R7, R5, R9. rewrite R8. reflexivity. }
  - rewrite R5, R1. rewrite (no_holds _ _ HE). reflexivity.
  - intros E. apply HN. symmetry. exact E.
Qed.
Lemma unclosed : forall d file source (pre post : list str) (line : str) original o reported place,
  let n := itoa (Z.of_nat (S reported)) in let text := $"unclosed action started at " ++ place ++ $":" ++ itoa (Z.of_nat (S (length pre))) in let e := parse_message file n text in
  good_lines (pre ++ line :: post) -> small (S (length pre)) -> small (S reported) -> nth_error source (length pre) = Some original ->
  outer_ok o -> parse_ok file n text -> ~ holds e $"undefined variable """ -> line <> $"ERROR " ++ text -> ~ holds line run_error ->
  handle d file source (join [NL] (pre ++ line :: post)) (outer_text o ++ e) =
    Ok (Again (join [NL] (pre ++ ($"ERROR " ++ text) :: post)) (Some (white (location file n None) ++ red text ++ $" in: " ++ black original))).
Proof.
  intros d file source pre post line original o reported place n text e GL SP SR SO OO OK HV HN HE.
  destruct (parse_unclosed beyond _ _ _ _ OK (itoa_number _) HV) as (m & MU & RD).
  erewrite (handle_at beyond red white black yellow read_file d file source pre line post original _ 4 m _ _ 0%Z 0%Z); [| | exact RD | reflexivity | exact GL | exact SO | apply to_int_itoa; exact SR | | reflexivity | reflexivity].
  2: { unfold e. rewrite parse_error_text by assumption. exact MU. }
  2: { cbn [s_actual]. pose proof (itoa_text (S (length pre))) as NE. destruct (itoa (Z.of_nat (S (length pre)))) as [|c s] eqn:E; [contradiction|]. rewrite <- E. apply to_int_itoa. exact SP. }
  destruct RD as (R1 & R2 & R3 & R4 & R5 & R6 & R7 & R8 & R9 & R10). cbn [s_location s_file s_line s_column s_code s_key s_message s_error s_value s_actual] in *.
  erewrite outcome_new.
  2: { unfold ErrorModel.repair. rewrite R6, R7, R5, R9. rewrite R8. reflexivity. }
  - rewrite R5, R1. rewrite (no_holds _ _ HE). reflexivity.
  - intros E. apply HN. symmetry. exact E.
Qed.
Lemma undefined : forall d file source (pre post : list str) (a b : str) original o value,
  let line := a ++ value ++ b in let n := itoa (Z.of_nat (S (length pre))) in let text := $"undefined variable """ ++ value ++ $"""" in let e := parse_message file n text in
  value <> [] -> good_lines (pre ++ line :: post) -> small (S (length pre)) -> nth_error source (length pre) = Some original ->
  outer_ok o -> parse_ok file n text -> (forall k, occurs_at value line k -> k = length a) -> ~ holds line run_error ->
  handle d file source (join [NL] (pre ++ line :: post)) (outer_text o ++ e) =
    Ok (Again (join [NL] (pre ++ (a ++ $"""<UNDEF " ++ value ++ $">""" ++ b) :: post)) (Some (white (location file n None) ++ red text ++ $" in: " ++ black original))).
Proof.
  intros d file source pre post a b original o value line n text e NV GL SP SO OO OK ON HE.
  destruct (parse_undefined beyond _ _ _ OK) as (m & MU & RD).
  erewrite (handle_at beyond red white black yellow read_file d file source pre line post original _ 3 m _ _ 0%Z 0%Z); [| | exact RD | reflexivity | exact GL | exact SO | apply small_line; [exact SP | reflexivity] | reflexivity | reflexivity | reflexivity].
  2: { unfold e. rewrite parse_error_text by assumption. exact MU. }
  destruct RD as (R1 & R2 & R3 & R4 & R5 & R6 & R7 & R8 & R9 & R10). cbn [s_location s_file s_line s_column s_code s_key s_message s_error s_value s_actual] in *.
  assert (RL : replace_all value ($"""<UNDEF " ++ value ++ $">""") line = a ++ $"""<UNDEF " ++ value ++ $">""" ++ b).
  { unfold line. rewrite replace_only; [rewrite <- !app_assoc; reflexivity | exact NV | exact ON]. }
  erewrite outcome_new.
  2: { unfold ErrorModel.repair. rewrite R6, R7, R5, R9. destruct value as [|v0 vs] eqn:EV; [contradiction|]. rewrite <- EV in *. rewrite R8. reflexivity. }
  - rewrite R5, R1. rewrite (no_holds _ _ HE). rewrite RL. reflexivity.
  - rewrite RL. intros E. apply (f_equal (@length ascii)) in E. unfold line in E. rewrite !app_length in E. cbn [length] in E. change (length $"""<UNDEF ") with 8 in E. lia.
Qed.
(** Other files *)
Lemma elsewhere : forall d file source code e k m x, multi 0 errors (error_text beyond e) = Some (k, m) -> reads m x -> s_file x <> file ->
  (exists n0, to_int (s_line x) = Ok n0) -> s_actual x = [] -> (exists c0, column_of (s_column x) = Ok c0) ->
  forall l, match read_file (s_file x) with Ok content => do n <- to_int (s_line x); get_line (split [NL] content) (n - 1) | Err t | Panic t => Ok ($"Unable to read file: " ++ t) end = Ok l ->
  handle d file source code e = Ok (Stop (white file ++ $" " ++ e ++ $" in: " ++ black l)).
Proof.
  intros d file source code e k m x MU (R1 & R2 & R3 & R4 & R5 & R6 & R7 & R8 & R9 & R10) NF (n0 & N0) AC (c0 & C0) l L.
  unfold ErrorModel.handle. rewrite MU. rewrite R3, R4, R10, R2. rewrite N0. cbn [bind]. rewrite AC. cbn [bind].
  match goal with |- bind ?a _ = _ => assert (A2 : a = Ok c0) by (revert C0; unfold column_of; destruct (s_column x); exact (fun h => h)); rewrite A2 end. cbn [bind].
  replace (str_eqb (s_file x) file) with false by (symmetry; apply str_eqb_neq; exact NF). cbn [negb]. rewrite N0 in L. cbn [bind] in L.
  match goal with |- bind ?a _ = _ => assert (A3 : a = Ok l) by exact L; rewrite A3 end. reflexivity.
Qed.
End Proofs.
