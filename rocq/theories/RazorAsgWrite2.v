(** The translation of assigned expressions: the text of assignments. *)
From Coq Require Import String Ascii List ZArith NArith Bool Lia ZifyBool ZifyN Permutation.
From Verif Require Import GoStr GoStrFacts Utf8 QuoteModel TemplateModel TemplateSpec TemplateProofs TextModel TextProofs3 RazorExprModel RazorExprProofs RazorWordsModel RazorWordsSpec RazorWordsProofs
  ReModel ReSyntaxModel RazorTableModel RazorAssignModel ReSound RazorRefSpec RazorRefAuto RazorRefProofs RazorRefMain RazorAsgSpec RazorAsgText RazorAsgExpr RazorAsgExpr2 RazorAsgGo RazorAsgGo2 RazorAsgVal RazorAsgVal2 RazorAsgVal3 RazorAsgWrite.
Import ListNotations.
Local Open Scope char_scope.

(** ** The parts of a target *)
Lemma split_names : forall l n, Forall (fun m => ~ In "." m) (n :: l) -> split $"." (dotted (n :: l)) = n :: l.
Proof.
  induction l as [|m l IH]; intros n F; inversion F; subst.
  - cbn [dotted]. apply split_no. apply contains_missing with (c := "."); [left; reflexivity | assumption].
  - change (dotted (n :: m :: l)) with (n ++ $"." ++ dotted (m :: l)). rewrite split_first; [rewrite IH by assumption; reflexivity | discriminate|].
    intros k L. change $"." with ["."]. assert (Q : exists c r, skipn k (n ++ ["."] ++ dotted (m :: l)) = c :: r /\ In c n).
    { rewrite skipn_app_le by lia. destruct (skipn k n) as [|c r] eqn:E; [exfalso; pose proof (skipn_length k n) as SL; rewrite E in SL; cbn [length] in SL; lia|].
      exists c, (r ++ ["."] ++ dotted (m :: l)). split; [reflexivity|]. rewrite <- (firstn_skipn k n), E. apply in_or_app. right. left. reflexivity. }
    destruct Q as (c & r & E & I). rewrite E. cbn [has_prefix]. destruct (Ascii.eqb_spec "." c) as [<-|_]; [contradiction | reflexivity].
Qed.
Lemma name_dot : forall n, name_ok n -> ~ In "." n.
Proof. intros n H I. pose proof (name_words n H) as W. rewrite Forall_forall in W. apply W in I. discriminate I. Qed.
Lemma names_dots : forall l, Forall name_ok l -> Forall (fun m => ~ In "." m) l.
Proof. intros l F. eapply Forall_impl; [|exact F]. exact name_dot. Qed.
Lemma target_split : forall t, Forall name_ok (names t) -> split $"." (dotted (names t)) = names t.
Proof. intros t F. destruct (names_split t) as (n & l & E). rewrite E in *. apply split_names. apply names_dots. exact F. Qed.
Lemma join_dotted : forall l, join $"." l = dotted l.
Proof. induction l as [|n [|m l] IH]; [reflexivity | reflexivity|]. change (join $"." (n :: m :: l)) with (n ++ $"." ++ join $"." (m :: l)). rewrite IH. reflexivity. Qed.
Lemma target_object : forall t, Forall name_ok (names t) -> object_of (dotted (names t)) = dotted (t_path t).
Proof. intros t F. unfold object_of. rewrite (target_split t F), join_dotted. unfold names. rewrite removelast_last. reflexivity. Qed.
Lemma target_field : forall t, Forall name_ok (names t) -> field_of (dotted (names t)) = t_name t.
Proof. intros t F. unfold field_of. rewrite (target_split t F). unfold names. apply last_last. Qed.
Lemma dotted_snoc : forall l n, l <> [] -> dotted (l ++ [n]) = dotted l ++ $"." ++ n.
Proof.
  induction l as [|m [|k l] IH]; intros n NE; [contradiction | reflexivity|]. change (dotted ((m :: k :: l) ++ [n])) with (m ++ $"." ++ dotted ((k :: l) ++ [n])). rewrite IH by discriminate.
  change (dotted (m :: k :: l)) with (m ++ $"." ++ dotted (k :: l)). rewrite <- !app_assoc. reflexivity.
Qed.
Lemma fields_snoc : forall l n, fields (l ++ [n]) = fields l ++ $"." ++ n.
Proof. intros l n. unfold fields. rewrite flat_map_app. cbn [flat_map]. rewrite app_nil_r. reflexivity. Qed.
Lemma fields_of_dotted : forall n l, fields (n :: l) = $"." ++ dotted (n :: l).
Proof. intros n l. rewrite dotted_fields. reflexivity. Qed.
Lemma path_dot : forall t, Forall name_ok (names t) -> contains $"." (dotted (names t)) = match t_path t with [] => false | _ => true end.
Proof.
  intros t F. unfold names in *. destruct (t_path t) as [|n l].
  - cbn [app dotted]. apply contains_missing with (c := "."); [left; reflexivity|]. inversion F; subst. apply name_dot. assumption.
  - rewrite dotted_snoc by discriminate. apply contains_iff. exists (dotted (n :: l)), (t_name t). reflexivity.
Qed.
Lemma suffix_dot : forall a n, name_ok n -> has_suffix $"." (a ++ n) = false.
Proof.
  intros a n N. destruct (has_suffix $"." (a ++ n)) eqn:E; [|reflexivity]. exfalso. apply has_suffix_iff in E. destruct E as [x E].
  destruct (exists_last (name_not_nil n N)) as (r & c & En). rewrite En, app_assoc in E. apply app_inj_tail in E. destruct E as [_ E].
  apply (name_dot n N). rewrite En, E. apply in_or_app. right. left. reflexivity.
Qed.
Lemma last_name : forall l, l <> [] -> Forall name_ok l -> exists a n, fields l = a ++ n /\ dotted l = tl a ++ n /\ name_ok n.
Proof.
  intros l NE F. destruct (exists_last NE) as (r & n & E). subst l. apply Forall_app in F. destruct F as [FR FN]. inversion FN; subst.
  exists (fields r ++ $"."), n. split; [rewrite fields_snoc, app_assoc; reflexivity|]. split; [|assumption].
  destruct r as [|m r]; [reflexivity|]. rewrite dotted_snoc by discriminate. rewrite fields_of_dotted. change (($"." ++ dotted (m :: r)) ++ $".") with ("." :: (dotted (m :: r) ++ $".")). cbn [tl]. rewrite <- app_assoc. reflexivity.
Qed.

(** ** The text of an assignment with a given value *)
Definition set_with (t : target) (v : str) : str := $"{{- set " ++ holder t ++ $" """ ++ t_name t ++ $""" " ++ as_argument v ++ $" }}".
Definition written_with (mode : validation) (t : target) (o : assign_op) (v : str) : str :=
  if variable t then $"{{- $" ++ t_name t ++ (match o with Declare => $" := " | _ => $" = " end) ++ v ++ $" }}"
  else (if in_context t then match o with Declare => [] | _ => check_text mode t end else []) ++ set_with t v.
Lemma written_value : forall mode t o e, written mode t o e = written_with mode t o (value t o e).
Proof. reflexivity. Qed.

Definition type_text (t : target) : str := match t_kind t with Global => $"@" | Root => $"@$." | Context => $"@." | Local => $"@$" | Braced => $"@{" end.
Section Write.
Variable beyond : N -> bool.
Variables words signs opers : list (str * str).
Variable parse : str -> option expr.
Variable mode : validation.
Context {P : PrintEnv}.
Hypothesis HW : Permutation words RazorWordsModel.reserved.
Hypothesis HS : Permutation signs symbols.
Hypothesis HO : Permutation opers operator_words.
Hypothesis HP : reads_updates parse.
Notation tr := (translate beyond words signs opers parse).
Lemma op_simple : forall t o, update_ok t o -> match o with
  | Declare => is_simple (op_text o) = true
  | Assign => is_simple (op_text o) = true
  | Update op => is_simple (op_text o) = false /\ operator_of (op_text o) = op end.
Proof.
  intros t o U. destruct o as [| |op]; [reflexivity | reflexivity|]. destruct (U op eq_refl) as (IO & _). split.
  - vm_compute in IO. repeat (destruct IO as [<-|IO]; [reflexivity|]). destruct IO.
  - unfold operator_of, op_text. apply removelast_last.
Qed.
Lemma combined_text : forall t op E, Forall name_ok (names t) -> combined (match t_kind t with Root => $"@" | _ => type_text t end) (dotted (names t)) op E = update_text (cell t) op E.
Proof.
  intros t op E F. unfold combined, update_text, cell, type_text, target_value. destruct (names_split t) as (n & l & EN). rewrite EN. rewrite fields_of_dotted.
  destruct (t_kind t); cbn -[app dotted fields]; rewrite ?app_assoc; reflexivity.
Qed.
Lemma assigned : forall m t o E e accept, Forall name_ok (names t) -> update_ok t o -> text_ok E -> parse E = Some e -> expr_ok e ->
  write_assign beyond words signs opers parse mode default_delims m (type_text t) (dotted (names t)) (op_text o) E accept = Ok (written_with mode t o (value2 t o e)).
Proof.
  intros m t o E e accept F U T PE OK. unfold write_assign.
  set (inner := if str_eqb (type_text t) $"@{" || str_eqb (type_text t) $"@$" then contains $"." (dotted (names t)) else true).
  assert (IV : inner = negb (variable t)).
  { unfold inner, variable, type_text. rewrite (path_dot t F). destruct (t_kind t); destruct (t_path t); reflexivity. }
  assert (TP : (if str_eqb (type_text t) $"@$." then $"@" else type_text t) = match t_kind t with Root => $"@" | _ => type_text t end) by (unfold type_text; destruct (t_kind t); reflexivity).
  rewrite TP.
  assert (V : tr inner (if is_simple (op_text o) then E else combined (match t_kind t with Root => $"@" | _ => type_text t end) (dotted (names t)) (operator_of (op_text o)) E) = Ok (inner_value inner (value2 t o e), false)).
  { pose proof (op_simple t o U) as S. destruct o as [| |op].
    - rewrite S. apply simple_value; assumption.
    - rewrite S. apply simple_value; assumption.
    - destruct S as [S1 S2]. rewrite S1, S2, (combined_text t op E F). apply update_value; assumption. }
  rewrite V. cbn [bind andb]. clear V.
  assert (AS : (if is_simple (op_text o) then op_text o else $"=") = match o with Declare => $":=" | _ => $"=" end).
  { pose proof (op_simple t o U) as S. destruct o as [| |op]; [reflexivity | reflexivity|]. destruct S as [S _]. rewrite S. reflexivity. }
  rewrite AS. clear AS.
  assert (GL : (str_eqb (type_text t) $"@$." || str_eqb (type_text t) $"@" || str_eqb (type_text t) $"@.") = in_context t) by (unfold type_text, in_context; destruct (t_kind t); reflexivity).
  rewrite GL, IV, negb_involutive. rewrite (target_object t F), (target_field t F). change (left_delim default_delims) with $"{{". change (right_delim default_delims) with $"}}".
  unfold written_with. destruct (variable t) eqn:VT.
  - assert (NC : in_context t = false) by (unfold variable in VT; unfold in_context; destruct (t_kind t); (reflexivity || discriminate VT)). rewrite NC. cbn [negb andb inner_value].
    assert (ID : dotted (names t) = t_name t) by (unfold variable in VT; unfold names; destruct (t_kind t); try discriminate VT; destruct (t_path t); (reflexivity || discriminate VT)). rewrite ID.
    destruct o; rewrite <- ?app_assoc; reflexivity.
  - cbn [negb inner_value]. rewrite andb_false_r. destruct (in_context t) eqn:IC; cbn [negb].
    + set (object := if has_suffix $"." (match t_kind t with Root => $"@" | _ => type_text t end) then $"." ++ dotted (t_path t) else match dotted (t_path t) with [] => $"$" | o0 => $"$." ++ o0 end).
      assert (PN : t_path t <> [] -> exists n l, t_path t = n :: l /\ dotted (t_path t) <> []).
      { intro N0. destruct (t_path t) as [|n l] eqn:EP; [contradiction|]. exists n, l. split; [reflexivity|]. rewrite dotted_fields. unfold names in F. rewrite EP in F. inversion F; subst.
        intro Z. apply app_eq_nil in Z. destruct Z as [Z _]. apply (name_not_nil n); assumption. }
      assert (OB : object = holder t).
      { unfold object, holder, type_text. unfold in_context in IC. destruct (t_kind t); try discriminate IC; cbn -[app dotted fields].
        - destruct (t_path t) as [|n l] eqn:EP; [reflexivity|]. destruct (PN ltac:(discriminate)) as (n' & l' & _ & Z). rewrite fields_of_dotted. destruct (dotted (n :: l)); [contradiction | reflexivity].
        - destruct (t_path t) as [|n l] eqn:EP; [reflexivity|]. destruct (PN ltac:(discriminate)) as (n' & l' & _ & Z). rewrite fields_of_dotted. destruct (dotted (n :: l)); [contradiction | reflexivity].
        - destruct (t_path t) as [|n l] eqn:EP; [reflexivity|]. rewrite fields_of_dotted. reflexivity. }
      rewrite OB.
      assert (FP : Forall name_ok (t_path t)) by (unfold names in F; apply Forall_app in F; apply F).
      assert (CE : (if has_suffix $"." (holder t) then holder t else holder t ++ $".") ++ t_name t = cell t).
      { unfold holder, cell, names. unfold in_context in IC. rewrite fields_snoc. destruct (t_path t) as [|n l] eqn:EP.
        - destruct (t_kind t); try discriminate IC; reflexivity.
        - destruct (last_name (n :: l) ltac:(discriminate) FP) as (a & k & E1 & _ & NK).
          destruct (t_kind t); try discriminate IC; rewrite ?E1.
          + rewrite app_assoc, suffix_dot by exact NK. rewrite <- !app_assoc. reflexivity.
          + rewrite app_assoc, suffix_dot by exact NK. rewrite <- !app_assoc. reflexivity.
          + rewrite suffix_dot by exact NK. rewrite <- !app_assoc. reflexivity. }
      rewrite CE. unfold set_with, check_text. destruct o; destruct mode; cbn [str_eqb orb]; rewrite <- ?app_assoc; reflexivity.
    + assert (HD : $"$" ++ dotted (t_path t) = holder t) by (unfold holder; unfold in_context in IC; destruct (t_kind t); (discriminate IC || reflexivity)).
      rewrite HD. unfold set_with. rewrite <- ?app_assoc. reflexivity.
Qed.
End Write.

(** ** The marks of functions in the text *)
Lemma erase_mid : forall a c b, is_word c = false -> contains US2 a = false -> erase (a ++ c :: b) = a ++ c :: erase b.
Proof. intros a c b W N. rewrite erase_cut by exact W. rewrite erase_name by exact N. reflexivity. Qed.
Lemma fields_unders : forall l, Forall name_ok l -> contains US2 (fields l) = false.
Proof.
  intros l F. change (fields l) with ([] ++ fields l). apply fields_word; [vm_compute; intuition discriminate | discriminate | reflexivity|].
  eapply Forall_impl; [|exact F]. exact name_unders.
Qed.
Lemma dotted_unders : forall l, Forall name_ok l -> contains US2 (dotted l) = false.
Proof.
  intros [|n l] F; [reflexivity|]. inversion F; subst. rewrite dotted_fields. apply fields_word; [vm_compute; intuition discriminate | discriminate | apply name_unders; assumption|].
  eapply Forall_impl; [|eassumption]. exact name_unders.
Qed.
Lemma dollar_unders : forall s, contains US2 s = false -> contains US2 ($"$" ++ s) = false.
Proof. intros s H. change ($"$" ++ s) with ("$" :: s). rewrite contains_cons, H. reflexivity. Qed.
Lemma cell_unders : forall t, Forall name_ok (names t) -> contains US2 (cell t) = false.
Proof. intros t F. unfold cell. destruct (t_kind t); try apply dollar_unders; try (apply fields_unders; exact F); apply dotted_unders; exact F. Qed.
Lemma holder_unders : forall t, Forall name_ok (names t) -> contains US2 (holder t) = false.
Proof.
  intros t F. assert (FP : Forall name_ok (t_path t)) by (unfold names in F; apply Forall_app in F; apply F).
  unfold holder. destruct (t_kind t); try apply dollar_unders; try (apply fields_unders; exact FP); try (apply dotted_unders; exact FP).
  destruct (t_path t) as [|n l]; [reflexivity | apply fields_unders; exact FP].
Qed.
Lemma name_of_target : forall t, Forall name_ok (names t) -> name_ok (t_name t).
Proof. intros t F. unfold names in F. apply Forall_app in F. destruct F as [_ F]. inversion F; assumption. Qed.
Lemma erase_value : forall t o e, Forall name_ok (names t) -> update_ok t o -> expr_ok e -> erase (value2 t o e) = value t o e /\ spaced (value2 t o e) = spaced (value t o e).
Proof.
  intros t o e F U OK. assert (SG : spaced (G2 e) = spaced (command e)) by (destruct (g2_facts e OK) as (_ & A & _); rewrite A, (gen_command e OK); reflexivity).
  destruct o as [| |op]; cbn [value2 value]; try (split; [exact (erased e OK) | exact SG]).
  destruct (U op eq_refl) as (IO & _). split.
  - unfold updated. rewrite erase_space. rewrite (erase_space (cell t)). rewrite (erase_name (cell t) (cell_unders t F)). rewrite (erase_arg (G2 e) (command e) SG (erased e OK)).
    f_equal. vm_compute in IO. repeat (destruct IO as [<-|IO]; [reflexivity|]). destruct IO.
  - rewrite spaced_updated. symmetry. exact (spaced_updated _ _ _).
Qed.
Lemma erase_set : forall t v v' b, Forall name_ok (names t) -> erase v = v' -> spaced v = spaced v' -> erase (set_with t v ++ b) = set_with t v' ++ erase b.
Proof.
  intros t v v' b F E S. unfold set_with. pose proof (name_of_target t F) as N.
  replace (($"{{- set " ++ holder t ++ $" """ ++ t_name t ++ $""" " ++ as_argument v ++ $" }}") ++ b)
    with ($"{{- set" ++ " " :: holder t ++ " " :: [] ++ """" :: t_name t ++ """" :: [] ++ " " :: as_argument v ++ " " :: $"}" ++ "}" :: b) by (rewrite <- !app_assoc; reflexivity).
  rewrite !(erase_mid $"{{- set") by reflexivity. rewrite (erase_mid (holder t)) by (try reflexivity; exact (holder_unders t F)). rewrite (erase_mid []) by reflexivity.
  rewrite (erase_mid (t_name t)) by (try reflexivity; exact (name_unders _ N)). rewrite (erase_mid []) by reflexivity. rewrite erase_cut by reflexivity. rewrite (erase_mid $"}") by reflexivity.
  rewrite (erase_arg v v' S E). rewrite <- !app_assoc. reflexivity.
Qed.
Lemma erase_check : forall mode t b, Forall name_ok (names t) -> erase (check_text mode t ++ b) = check_text mode t ++ erase b.
Proof.
  intros mode t b F. assert (G : forall w, contains US2 w = false ->
    erase (($"{{- " ++ w ++ $" (not (isNil " ++ cell t ++ $")) """ ++ cell t ++ $" does not exist, use := to declare new variable"" }}") ++ b) =
    ($"{{- " ++ w ++ $" (not (isNil " ++ cell t ++ $")) """ ++ cell t ++ $" does not exist, use := to declare new variable"" }}") ++ erase b).
  { intros w W. assert (CU := cell_unders t F).
    replace (($"{{- " ++ w ++ $" (not (isNil " ++ cell t ++ $")) """ ++ cell t ++ $" does not exist, use := to declare new variable"" }}") ++ b)
    with ($"{{-" ++ " " :: w ++ " " :: $"(not (isNil" ++ " " :: cell t ++ ")" :: $") " ++ """" :: cell t ++ " " :: $"does not exist, use := to declare new variable"" }" ++ "}" :: b) by (rewrite <- !app_assoc; reflexivity).
    rewrite (erase_mid $"{{-") by reflexivity. rewrite (erase_mid w) by (try reflexivity; exact W). rewrite (erase_mid $"(not (isNil") by reflexivity. rewrite (erase_mid (cell t)) by (try reflexivity; exact CU).
    rewrite (erase_mid $") ") by reflexivity. rewrite (erase_mid (cell t)) by (try reflexivity; exact CU). rewrite (erase_mid $"does not exist, use := to declare new variable"" }") by reflexivity.
    rewrite <- !app_assoc. reflexivity. }
  unfold check_text. destruct mode; [reflexivity | apply G; reflexivity | apply G; reflexivity].
Qed.
Lemma erase_written : forall mode t o e b, Forall name_ok (names t) -> update_ok t o -> expr_ok e -> erase (written_with mode t o (value2 t o e) ++ b) = written mode t o e ++ erase b.
Proof.
  intros mode t o e b F U OK. rewrite written_value. destruct (erase_value t o e F U OK) as [E S]. unfold written_with. destruct (variable t).
  - pose proof (name_of_target t F) as N.
    assert (G : forall w, contains US2 w = false -> erase (($"{{- $" ++ t_name t ++ ($" " ++ w ++ $" ") ++ value2 t o e ++ $" }}") ++ b) = ($"{{- $" ++ t_name t ++ ($" " ++ w ++ $" ") ++ value t o e ++ $" }}") ++ erase b).
    { intros w W. replace (($"{{- $" ++ t_name t ++ ($" " ++ w ++ $" ") ++ value2 t o e ++ $" }}") ++ b) with ($"{{- " ++ "$" :: t_name t ++ " " :: w ++ " " :: value2 t o e ++ " " :: $"}" ++ "}" :: b) by (rewrite <- !app_assoc; reflexivity).
      rewrite (erase_mid $"{{- ") by reflexivity. rewrite (erase_mid (t_name t)) by (try reflexivity; exact (name_unders _ N)). rewrite (erase_mid w) by (try reflexivity; exact W).
      rewrite erase_cut by reflexivity. rewrite (erase_mid $"}") by reflexivity. rewrite E. rewrite <- !app_assoc. reflexivity. }
    destruct o; [exact (G $":=" eq_refl) | exact (G $"=" eq_refl) | exact (G $"=" eq_refl)].
  - rewrite <- !app_assoc. destruct (in_context t); [|apply erase_set; assumption].
    destruct o; [apply erase_set; assumption | |]; rewrite erase_check by exact F; rewrite (erase_set t _ _ b F E S); reflexivity.
Qed.
