(** Errors in other files; errors in whole renderings. *)
From Coq Require Import String Ascii List ZArith NArith Bool Lia.
From Verif Require Import GoStr GoStrFacts NumFacts TemplateModel TemplateSpec TemplateProofs ProcessModel ProcessSpec ProcessProofs TextModel TextSpec TextProofs2 ErrorModel ErrorSpec ErrorMatch4 ErrorProofs ErrorProofs2 ErrorProofs3 ErrorProofs4.
Import ListNotations.
Local Open Scope char_scope.

Lemma other_file : forall beyond red white black yellow read_file d file source code other n column name at_ text o content (before_ : list str) l after_,
  other <> file -> n = length before_ -> small (S n) -> small column -> outer_ok o ->
  exec_ok other (itoa (Z.of_nat (S n))) (itoa (Z.of_nat column)) name at_ text -> ~ keyed text -> ~ raised text ->
  read_file other = Ok content -> content = join [NL] (before_ ++ l :: after_) -> good_lines (before_ ++ l :: after_) ->
  let e := outer_text o ++ exec_message other (itoa (Z.of_nat (S n))) (itoa (Z.of_nat column)) name at_ text in
  handle beyond red white black yellow read_file d file source code e = Ok (Stop (white file ++ $" " ++ e ++ $" in: " ++ black l)).
Proof.
  intros beyond red white black yellow read_file d file source code other n column name at_ text o content before_ l after_ NF EN SN SC OO OK NK NR RF EC GL e.
  destruct (exec_other beyond _ _ _ _ _ _ OK NK NR) as (m & MU & RD).
  eapply elsewhere; [unfold e; rewrite exec_error_text by assumption; exact MU | exact RD | exact NF | exists (Z.of_nat (S n)); apply to_int_itoa; exact SN | reflexivity | exists (Z.of_nat column - 1)%Z; apply column_itoa; exact SC|].
  cbn [s_file s_line]. rewrite RF. rewrite to_int_itoa by exact SN. cbn [bind]. rewrite EC, EN. rewrite split1_join; [|destruct before_; discriminate | exact GL]. apply get_line_app.
Qed.
Lemma reported_run : forall {G : Engine} beyond red white black yellow read_file stack opt d st st1 file source (pre post : list str) (a action b : str) original o column name code text prepared script o' st' result changed err,
  (forall f l c e, diagnose f l c e = diagnosis beyond red white black yellow read_file d f l c e) ->
  let line := a ++ (left_delim d ++ action ++ right_delim d) ++ b in
  let n := itoa (Z.of_nat (S (List.length pre))) in let col := itoa (Z.of_nat column) in
  prepare opt d source = (prepared, script) -> oget opt o_rendering_disabled = false -> is_code d prepared = true -> strict opt file source ->
  (if oget opt o_accept_no_value then prepared else protect_values prepared) = join [NL] (pre ++ line :: post) ->
  run_engine st 0 file (join [NL] (pre ++ line :: post)) = (st1, Err (outer_text o ++ exec_message file n col name code text)) ->
  left_delim d <> [] -> right_delim d <> [] ->
  good_lines (pre ++ line :: post) -> small (S (List.length pre)) -> small (List.length line) -> nth_error (split [NL] source) (List.length pre) = Some original -> outer_ok o ->
  exec_ok file n col name code text -> ~ keyed text -> ~ raised text ->
  List.length a + List.length (left_delim d) < column <= List.length a + List.length (left_delim d) + List.length action ->
  (forall k, occurs_at (right_delim d) line k -> column <= S k -> List.length a + List.length (left_delim d) + List.length action <= k) ->
  (forall k, occurs_at (left_delim d) (a ++ left_delim d ++ action) k -> k <= List.length a) ->
  (forall k, occurs_at (left_delim d ++ action ++ right_delim d) line k -> k = List.length a) ->
  ~ holds line $"""<RUN_ERROR>""" -> ~ holds code $"""<no value>""" ->
  process_content stack opt d st file source = (o', st', Ok (result, changed, err)) ->
  exists x, err = Some x /\ holds x (white (location file n (Some col)) ++ red (text ++ $" (" ++ code ++ $")") ++ $" in: " ++ black original).
Proof.
  intros G beyond red white black yellow read_file stack opt d st st1 file source pre post a action b original o column name code text prepared script o' st' result changed err
    DI line n col PR RD IC ST FI RU NL0 NR GL SP SL SO OO OK NK NRA CO HR HL ON HE HU PC.
  destruct (process_failed stack opt d st file source prepared script o' st' result changed err PR RD IC PC) as (out & errs & EW & H1 & _). unfold rendered in EW. rewrite FI in EW.
  pose proof (running beyond red white black yellow read_file d file (split [NL] source) pre post a action b original o column name code text NL0 NR GL SP SL SO OO OK NK NRA CO HR HL ON HE HU) as RN.
  assert (DG : diagnose file (split [NL] source) (join [NL] (pre ++ line :: post)) (outer_text o ++ exec_message file n col name code text) =
    Again (join [NL] (pre ++ (a ++ run_error ++ b) :: post)) (Some (white (location file n (Some col)) ++ red (text ++ $" (" ++ code ++ $")") ++ $" in: " ++ black original))).
  { rewrite DI. unfold diagnosis. match goal with |- match ?x with _ => _ end = _ => assert (X : x = Ok (Again (join [NL] (pre ++ (a ++ run_error ++ b) :: post)) (Some (white (location file n (Some col)) ++ red (text ++ $" (" ++ code ++ $")") ++ $" in: " ++ black original)))) by exact RN; rewrite X end. reflexivity. }
  assert (IN : In (white (location file n (Some col)) ++ red (text ++ $" (" ++ code ++ $")") ++ $" in: " ++ black original) errs).
  { inversion EW as [? ? ? ? ? R1|? ? ? ? ? ? R1 D1|? ? ? ? ? ? ? ? ? ? R1 D1 E1]; subst; rewrite RU in R1; try discriminate.
    - injection R1 as _ <-. rewrite DG in D1. discriminate.
    - injection R1 as _ <-. rewrite DG in D1. injection D1 as _ <-. left. reflexivity. }
  assert (NE : errs <> []) by (intros ->; exact IN). destruct (H1 NE ST) as (x & EX & FX). exists x. split; [exact EX|]. rewrite Forall_forall in FX. exact (FX _ IN).
Qed.
