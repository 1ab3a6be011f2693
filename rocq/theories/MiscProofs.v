(** Base names, e-mail addresses, checked assignments and undefined values. *)
From Coq Require Import String Ascii List ZArith NArith Bool PeanoNat Lia.
From Verif Require Import GoStr GoStrFacts QuoteModel TemplateModel RazorExprModel RazorTableModel RazorAssignModel ContextModel MiscSpec PathModel.
From Verif Require IncludeModel.
Import ListNotations.
Local Open Scope char_scope.

(** ** Base names *)
Lemma rev_slashes : forall n, rev (repeat "/" n) = repeat "/" n.
Proof. induction n as [|n IH]; [reflexivity|]. cbn [repeat rev]. rewrite IH. clear. induction n; [reflexivity|]. cbn [repeat app]. rewrite IHn. reflexivity. Qed.
Lemma drop_repeat : forall n s, drop_slashes (repeat "/" n ++ s) = drop_slashes s.
Proof. induction n as [|n IH]; intros s; [reflexivity | exact (IH s)]. Qed.
Lemma drop_stop : forall c s, c <> "/" -> drop_slashes (c :: s) = c :: s.
Proof. intros c s N. cbn [drop_slashes]. destruct (Ascii.eqb_spec c SLASH) as [E|_]; [contradiction | reflexivity]. Qed.
Lemma until_app : forall b s, ~ In "/" b -> (s = [] \/ exists s', s = "/" :: s') -> until_slash (b ++ s) = b.
Proof.
  induction b as [|c b IH]; intros s N H.
  - destruct H as [->|[s' ->]]; reflexivity.
  - cbn [app until_slash]. destruct (Ascii.eqb_spec c SLASH) as [E|_]; [exfalso; apply N; left; exact E|]. rewrite IH; [reflexivity | intros I; apply N; right; exact I | exact H].
Qed.
Theorem base_spec : forall p b, base_of p b -> path_base p = b.
Proof.
  intros p b H. destruct H as [|n|a b n N NS A].
  - reflexivity.
  - unfold path_base. cbn [repeat]. change ("/" :: repeat "/" n) with (repeat "/" (S n)). rewrite rev_slashes. rewrite <- (app_nil_r (repeat "/" (S n))), drop_repeat. reflexivity.
  - assert (R : rev (until_slash (drop_slashes (rev (a ++ b ++ repeat "/" n)))) = b).
    { rewrite !rev_app_distr, rev_slashes, <- app_assoc, drop_repeat. destruct (rev b) as [|c r] eqn:E.
      { apply (f_equal (@rev _)) in E. rewrite rev_involutive in E. contradiction. }
      assert (NR : ~ In "/" (c :: r)) by (rewrite <- E, <- in_rev; exact NS).
      change ((c :: r) ++ rev a) with (c :: r ++ rev a). rewrite drop_stop by (intros X; apply NR; left; exact X). change (c :: r ++ rev a) with ((c :: r) ++ rev a).
      rewrite until_app; [rewrite <- E; apply rev_involutive | exact NR|]. destruct A as [->|[a' ->]]; [left; reflexivity|]. right. exists (rev a'). rewrite rev_app_distr. reflexivity. }
    unfold path_base. rewrite R. destruct (a ++ b ++ repeat "/" n) as [|c s] eqn:E.
    + exfalso. apply app_eq_nil in E. destruct E as [_ E]. apply app_eq_nil in E. destruct E as [E _]. contradiction.
    + destruct b; [congruence | reflexivity].
Qed.
Lemma split_last : forall s, ~ In "/" s \/ exists a b, s = a ++ "/" :: b /\ ~ In "/" b.
Proof.
  induction s as [|c s IH]; [left; intros []|]. destruct IH as [N|(a & b & -> & N)]; [|right; exists (c :: a), b; split; [reflexivity | exact N]].
  destruct (Ascii.eqb_spec c "/") as [->|NE]; [right; exists [], s; split; [reflexivity | exact N] | left; intros [X|X]; [contradiction | exact (N X)]].
Qed.
Lemma repeat_snoc : forall n, repeat "/" n ++ ["/"] = repeat "/" (S n).
Proof. induction n as [|n IH]; [reflexivity|]. cbn [repeat app] in *. rewrite IH. reflexivity. Qed.
Theorem base_exists : forall p, exists b, base_of p b.
Proof.
  assert (T : forall s : str, exists u n, s = u ++ repeat "/" n /\ (u = [] \/ exists v c, u = v ++ [c] /\ c <> "/")).
  { induction s as [|c s IH] using rev_ind; [exists [], 0; split; [reflexivity | left; reflexivity]|]. destruct (Ascii.eqb_spec c "/") as [->|N].
    - destruct IH as (u & n & -> & U). exists u, (S n). split; [|exact U]. rewrite <- app_assoc, repeat_snoc. reflexivity.
    - exists (s ++ [c]), 0. split; [symmetry; apply app_nil_r | right; exists s, c; split; [reflexivity | exact N]]. }
  intros p. destruct (T p) as (u & n & -> & [->|(v & c & -> & NC)]).
  - destruct n as [|n]; [exists $"."; apply BaseEmpty | exists $"/"; exact (BaseRoot n)].
  - destruct (split_last v) as [N|(a & b & -> & N)].
    + exists (v ++ [c]). apply (BaseName [] (v ++ [c]) n); [destruct v; discriminate| |left; reflexivity]. intros I. apply in_app_or in I. destruct I as [I|[I|[]]]; [exact (N I) | exact (NC I)].
    + exists (b ++ [c]). replace ((a ++ "/" :: b) ++ [c]) with ((a ++ ["/"]) ++ (b ++ [c])) by (rewrite <- !app_assoc; reflexivity). rewrite <- app_assoc.
      apply (BaseName (a ++ ["/"]) (b ++ [c]) n); [destruct b; discriminate| |right; exists a; reflexivity]. intros I. apply in_app_or in I. destruct I as [I|[I|[]]]; [exact (N I) | exact (NC I)].
Qed.

(** ** E-mail addresses *)
Lemma first_at : forall a b, ~ In "@" a -> replace_first $"@" $"@@" (a ++ "@" :: b) = a ++ "@" :: "@" :: b.
Proof.
  intros a b N. unfold replace_first. assert (I : index $"@" (a ++ "@" :: b) = Some (length a)).
  { induction a as [|c a IH]; [reflexivity|]. cbn [app index]. change $"@" with ["@"] in *. cbn [has_prefix length]. destruct (Ascii.eqb_spec "@" c) as [E|_]; [exfalso; apply N; left; symmetry; exact E|].
    cbn [andb]. rewrite IH; [reflexivity | intros X; apply N; right; exact X]. }
  rewrite I. rewrite firstn_app, Nat.sub_diag, firstn_all. cbn [firstn]. rewrite app_nil_r. f_equal. change ($"@@" ++ skipn (length a + length $"@") (a ++ "@" :: b)) with ("@" :: "@" :: skipn (length a + 1) (a ++ "@" :: b)).
  f_equal. f_equal. rewrite skipn_app. rewrite skipn_all2 by lia. replace (length a + 1 - length a) with 1 by lia. reflexivity.
Qed.
Theorem mail_spec : forall a b, ~ In "@" a -> a <> [] -> (forall r, a <> "#" :: r) -> protect_email (a ++ "@" :: b) = a ++ "@" :: "@" :: b.
Proof.
  intros a b N NE H. rewrite <- (first_at a b N). destruct a as [|c a]; [congruence|]. cbn [app]. unfold protect_email.
  destruct (Ascii.eqb_spec c "@") as [->|_]; [exfalso; apply N; left; reflexivity|]. destruct (Ascii.eqb_spec c "#") as [->|_]; [exfalso; exact (H a eq_refl) | reflexivity].
Qed.

(** ** Assignments of global variables *)
Theorem assign_guarded : forall beyond words signs opers parse mode (P : PrintEnv) d m name expr accept e,
  ~ In "." name -> name <> [] -> translate beyond words signs opers parse true expr = Ok (e, false) ->
  let set := left_delim d ++ $"- set $ """ ++ name ++ $""" " ++ e ++ $" " ++ right_delim d in
  write_assign beyond words signs opers parse mode d m $"@" name $":=" expr accept = Ok set /\
  write_assign beyond words signs opers parse mode d m $"@" name $"=" expr accept = Ok (guard mode (left_delim d) (right_delim d) name ++ set).
Proof.
  intros beyond words signs opers parse mode P d m name expr accept e ND NE T set.
  assert (SP : split $"." name = [name]). { apply split_index_none. apply contains_false_index. destruct (contains $"." name) eqn:C; [|reflexivity]. exfalso. apply ND. apply contains_1_In. exact C. }
  assert (O : object_of name = []) by (unfold object_of; rewrite SP; reflexivity).
  assert (F : field_of name = name) by (unfold field_of; rewrite SP; reflexivity).
  assert (IO : forall a, is_simple a = true -> write_assign beyond words signs opers parse mode d m $"@" name a expr accept =
    if str_eqb a $":=" || match mode with NoValidation => true | _ => false end then Ok set
    else Ok (guard mode (left_delim d) (right_delim d) name ++ set)).
  { intros a S1. unfold write_assign. rewrite S1. change (str_eqb $"@" $"@{" || str_eqb $"@" $"@$") with false. cbv iota. rewrite T. cbn [bind andb]. rewrite O, F.
    change (str_eqb $"@" $"@$.") with false. cbv iota. change (str_eqb $"@" $"@") with true. cbn [orb negb andb]. change (has_suffix $"." $"@") with false. cbv iota.
    destruct (str_eqb a $":=" || match mode with NoValidation => true | _ => false end) eqn:C.
    - subst set. rewrite <- ?app_assoc. reflexivity.
    - change (has_suffix $"." $"$") with false. cbv iota. destruct mode; [rewrite orb_true_r in C; discriminate C | |]; cbn [guard]; subst set; rewrite <- !app_assoc; reflexivity. }
  split; [rewrite (IO $":=" eq_refl); reflexivity|]. rewrite (IO $"=" eq_refl). change (str_eqb $"=" $":=") with false. cbn [orb]. destruct mode; reflexivity.
Qed.

(** ** Undefined values *)
Lemma contains_replaced : forall old new s, old <> [] -> contains old s = true -> contains new (replace_all old new s) = true.
Proof.
  intros old new s N C. unfold replace_all. destruct (index old s) as [n|] eqn:I.
  - rewrite (split_index_some old s n N I). apply contains_iff. pose proof (split_nonnil old (skipn (n + length old) s)) as NN.
    destruct (split old (skipn (n + length old) s)) as [|b l]; [congruence|]. exists (firstn n s), (join new (b :: l)). reflexivity.
  - apply contains_false_index in I. congruence.
Qed.
Theorem undefined_spec : forall source filename out err,
  (contains $"<nil>" out = true \/ contains $"<no value>" out = true ->
   exists r, IncludeModel.finish false source filename out err = IncludeModel.Ret r filename (Some ($"contains undefined value(s) in " ++ r))) /\
  (contains $"<nil>" out = false -> contains $"<no value>" out = false -> exists f, IncludeModel.finish false source filename out err = IncludeModel.Ret out f err) /\
  (exists f, IncludeModel.finish true source filename out err = IncludeModel.Ret out f err).
Proof.
  intros source filename out err. split; [|split].
  - intros H. unfold IncludeModel.finish. exists (replace_all $"<nil>" IncludeModel.no_value out). cbn [negb andb].
    assert (C : contains IncludeModel.no_value (replace_all $"<nil>" IncludeModel.no_value out) = true).
    { destruct (contains $"<nil>" out) eqn:D; [apply contains_replaced; [discriminate | exact D]|]. destruct H as [H|H]; [discriminate H|]. rewrite replace_all_no by exact D. exact H. }
    rewrite C. reflexivity.
  - intros A B. unfold IncludeModel.finish. cbn [negb andb]. rewrite (replace_all_no _ _ _ A). change IncludeModel.no_value with $"<no value>". rewrite B. eexists. reflexivity.
  - eexists. reflexivity.
Qed.

(** ** Expressions that Go cannot parse *)
Theorem unparsed : forall beyond words signs opers parse mode (P : PrintEnv) d r m expression e,
  multi_match (r_re r) m $"expr" = expression -> multi_match (r_re r) m $"index" = [] -> multi_match (r_re r) m $"selection" = [] ->
  expression <> [] -> go_text beyond words signs opers expression = Ok e -> e <> [] -> parse e = None ->
  razor_parser beyond words signs opers parse mode d r PExprSkip m = Ok m /\
  razor_parser beyond words signs opers parse mode d r PExpr m =
    Ok (replace_all_string (r_re r) (replace_all $"${expr}" (replace_all $"$" $"$$" expression) (r_replace r)) m).
Proof.
  intros beyond words signs opers parse mode P d r m expression e X I S1 N T NE F.
  unfold razor_parser, parse_expression. rewrite I, S1, X. destruct expression as [|c x]; [congruence|]. rewrite T. cbn [bind]. unfold put_parsed. destruct e as [|c' e]; [congruence|]. rewrite F. split; reflexivity.
Qed.
