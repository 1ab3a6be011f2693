(** What the error handler does with each message. *)
From Coq Require Import String Ascii List ZArith NArith Bool Lia ZifyBool ZifyN.
From Verif Require Import GoStr GoStrFacts NumFacts Utf8 TemplateModel TemplateSpec TemplateProofs ProcessModel TextModel TextSpec TextProofs2 TextProofs3 ReModel ReSyntaxModel RazorTableModel RazorAssignModel ReSound RazorRefMain RazorAsgGo RazorAsgMatch ErrorModel ErrorSpec ErrorMatch ErrorMatch2 ErrorMatch3 ErrorMatch4.
Import ListNotations.
Local Open Scope char_scope.

Lemma to_int_itoa : forall n, (Z.of_nat n < 9223372036854775808)%Z -> to_int (itoa (Z.of_nat n)) = Ok (Z.of_nat n).
Proof.
  intros n H. unfold to_int. rewrite digits_value_itoa. destruct (N.ltb_spec (N.of_nat n) 9223372036854775808) as [A|A]; [|lia]. f_equal. lia.
Qed.
Lemma set_line_app : forall pre line post x, set_line (pre ++ line :: post) (length pre) x = pre ++ x :: post.
Proof. induction pre as [|y pre IH]; intros line post x; [reflexivity|]. cbn [app length set_line]. rewrite IH. reflexivity. Qed.
Lemma get_line_app : forall pre line post, get_line (pre ++ line :: post) (Z.of_nat (S (length pre)) - 1) = Ok line.
Proof.
  intros pre line post. unfold get_line. destruct (Z.ltb_spec (Z.of_nat (S (length pre)) - 1) 0) as [A|A]; [lia|]. replace (Z.to_nat (Z.of_nat (S (length pre)) - 1)) with (length pre) by lia.
  rewrite nth_error_app2 by lia. rewrite Nat.sub_diag. reflexivity.
Qed.
Lemma get_line_nth : forall l n x, nth_error l n = Some x -> get_line l (Z.of_nat (S n) - 1) = Ok x.
Proof. intros l n x H. unfold get_line. destruct (Z.ltb_spec (Z.of_nat (S n) - 1) 0) as [A|A]; [lia|]. replace (Z.to_nat (Z.of_nat (S n) - 1)) with n by lia. rewrite H. reflexivity. Qed.

Section Proofs.
Variable beyond : N -> bool.
Variables red white black yellow : str -> str.
Variable read_file : str -> res str.
Notation errors := (map (compiled_of beyond) template_errors).
Notation handle := (handle beyond red white black yellow read_file).
Notation repair := (repair beyond red yellow).
Definition column_of (s : str) : res Z := match s with [] => Ok 0%Z | c => do c <- to_int c; Ok (c - 1)%Z end.
Definition adjusted (line : str) (column : Z) : res Z :=
  if Z.eqb column 0 then Ok column
  else if Z.ltb column 0 then Panic $"slice bounds out of range"
  else match nth_error line (Z.to_nat column) with
       | None => Panic $"slice bounds out of range"
       | Some c => Ok (if contains_byte c $" (" then (column + 1)%Z else column)
       end.
Definition outcome (d : delims) (m : str -> str) (pre : list str) (line : str) (post : list str) (original : str) (col : Z) : res diag :=
  let '(new, text) := repair d m line col in
  let text := if contains run_error line || contains undef_error (m $"code") then None else text in
  let err := match text with Some t => Some (white (m $"location") ++ t ++ $" in: " ++ black original) | None => None end in
  let again := Ok (Again (join [NL] (pre ++ new :: post)) err) in
  if negb (str_eqb new line) then again
  else match err with
       | None => Panic $"nil pointer dereference"
       | Some x => if contains no_value_error x then again else Ok (Stop x)
       end.
Lemma handle_at : forall d file source pre line post original e k m x n0 c0 col,
  multi 0 errors (error_text beyond e) = Some (k, m) -> reads m x -> s_file x = file ->
  Forall (fun l => ~ In NL l) (pre ++ line :: post) -> nth_error source (length pre) = Some original ->
  to_int (s_line x) = Ok n0 -> match s_actual x with [] => Ok n0 | a => to_int a end = Ok (Z.of_nat (S (length pre))) ->
  column_of (s_column x) = Ok c0 -> adjusted line c0 = Ok col ->
  handle d file source (join [NL] (pre ++ line :: post)) e = outcome d m pre line post original col.
Proof.
  intros d file source pre line post original e k m x n0 c0 col MU (R1 & R2 & R3 & R4 & R5 & R6 & R7 & R8 & R9 & R10) FI NN SO LI AC CO AD.
  unfold ErrorModel.handle. rewrite MU. rewrite split1_join; [|destruct pre; discriminate | exact NN]. rewrite R3, R4, R10, R2. rewrite LI. cbn [bind].
  match goal with |- bind ?a _ = _ => assert (A1 : a = Ok (Z.of_nat (S (length pre)))) by exact AC; rewrite A1 end. cbn [bind].
  match goal with |- bind ?a _ = _ => assert (A2 : a = Ok c0) by (revert CO; unfold column_of; destruct (s_column x); exact (fun h => h)); rewrite A2 end. cbn [bind].
  rewrite FI, str_eqb_refl. cbn [negb]. rewrite get_line_app. cbn [bind].
  match goal with |- bind ?a _ = _ => assert (A3 : a = Ok col) by exact AD; rewrite A3 end. cbn [bind].
  rewrite (get_line_nth _ _ _ SO). cbn [bind]. unfold outcome. destruct (repair d m line col) as [new text].
  replace (Z.to_nat (Z.of_nat (S (length pre)) - 1)) with (length pre) by lia. rewrite set_line_app. reflexivity.
Qed.
(** A new line that is not the old one *)
Lemma outcome_new : forall d m pre line post original col new text, repair d m line col = (new, text) -> new <> line ->
  outcome d m pre line post original col = Ok (Again (join [NL] (pre ++ new :: post))
    (if contains run_error line || contains undef_error (m $"code") then None
     else match text with Some t => Some (white (m $"location") ++ t ++ $" in: " ++ black original) | None => None end)).
Proof.
  intros d m pre line post original col new text R N. unfold outcome. rewrite R. cbv zeta. replace (str_eqb new line) with false by (symmetry; apply str_eqb_neq; exact N). cbn [negb].
  destruct (contains run_error line || contains undef_error (m $"code")); reflexivity.
Qed.
End Proofs.
Lemma no_holds : forall s w, ~ holds s w -> contains w s = false.
Proof. intros s w H. apply not_true_is_false. intro C. apply H. apply contains_iff in C. exact C. Qed.

(** ** The only occurrence of a text *)
Lemma replace_only : forall w x a b, w <> [] -> (forall k, occurs_at w (a ++ w ++ b) k -> k = length a) -> replace_all w x (a ++ w ++ b) = a ++ x ++ b.
Proof.
  intros w x a b NE H. rewrite replace_all_at; [|intros k K | exact NE].
  - rewrite replace_all_no; [reflexivity|]. apply no_holds. intros (u & v & E). specialize (H (length a + length w + length u)).
    assert (O : occurs_at w (a ++ w ++ b) (length a + length w + length u)) by (exists (a ++ w ++ u), v; split; [rewrite E; rewrite <- !app_assoc; reflexivity | rewrite !app_length; lia]).
    specialize (H O). destruct w; [contradiction | cbn in H; lia].
  - apply not_true_is_false. intro P. apply has_prefix_iff in P. destruct P as (t & E). specialize (H k). assert (O : occurs_at w (a ++ w ++ b) k); [|specialize (H O); lia].
    exists (firstn k (a ++ w ++ b)), t. split; [rewrite <- E; symmetry; apply firstn_skipn|]. rewrite firstn_length, app_length. lia.
Qed.
Lemma itoa_number : forall n, number_text (itoa (Z.of_nat n)).
Proof.
  intros n. destruct (itoa_nonneg (Z.of_nat n) ltac:(lia)) as (_ & _ & F & NE). split; [exact NE|]. eapply Forall_impl; [|exact F]. intros c H. apply is_digit_range. exact H.
Qed.
Lemma itoa_text : forall n, itoa (Z.of_nat n) <> [].
Proof. intros n. exact (proj1 (itoa_number n)). Qed.
Lemma column_itoa : forall n, (Z.of_nat n < 9223372036854775808)%Z -> column_of (itoa (Z.of_nat n)) = Ok (Z.of_nat n - 1)%Z.
Proof. intros n H. unfold column_of. pose proof (itoa_text n) as NE. destruct (itoa (Z.of_nat n)) as [|c s] eqn:E; [contradiction|]. rewrite <- E. rewrite to_int_itoa by exact H. reflexivity. Qed.
Lemma adjusted_in : forall line n, n < length line -> exists p, adjusted line (Z.of_nat n) = Ok (Z.of_nat p) /\ n <= p <= S n.
Proof.
  intros line n H. unfold adjusted. destruct (Z.eqb_spec (Z.of_nat n) 0) as [E|E]; [exists n; split; [reflexivity | lia]|]. destruct (Z.ltb_spec (Z.of_nat n) 0) as [A|A]; [lia|]. rewrite Nat2Z.id.
  destruct (nth_error line n) as [c|] eqn:N; [|apply nth_error_None in N; lia]. destruct (contains_byte c $" ("); [exists (S n); split; [f_equal; lia | lia] | exists n; split; [reflexivity | lia]].
Qed.
