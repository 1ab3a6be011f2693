(** The translation of assigned expressions: the marks. *)
From Coq Require Import String Ascii List ZArith NArith Bool Lia ZifyBool ZifyN.
From Verif Require Import GoStr GoStrFacts Utf8 QuoteModel TemplateModel TemplateSpec TemplateProofs TextModel RazorExprModel RazorExprProofs RazorWordsModel RazorWordsSpec RazorWordsProofs
  ReModel ReSyntaxModel RazorTableModel RazorAssignModel ReSound RazorRefSpec RazorRefAuto RazorRefProofs RazorRefMain RazorAsgSpec RazorAsgText RazorAsgExpr.
Import ListNotations.
Local Open Scope char_scope.

(** ** The marks of variables *)
Definition G2 : expr -> str := gen $"$." func_call.
Lemma restore_nil : restore_words [] = [].
Proof. reflexivity. Qed.
Lemma restore_front : forall c b, is_word c = false -> restore_words (c :: b) = c :: restore_words b.
Proof. intros c b N. exact (restore_cut [] c b N). Qed.
Lemma doubled_cut : forall a c b, c <> "$" -> doubled (a ++ c :: b) = doubled a ++ c :: doubled b.
Proof.
  intros a c b N. rewrite doubled_app. f_equal. cbn [doubled]. destruct (Ascii.eqb_spec c "$") as [E|_]; [contradiction | reflexivity].
Qed.
Lemma doubled_no : forall s, ~ In "$" s -> doubled s = s.
Proof.
  induction s as [|c s IH]; intros N; [reflexivity|]. eapply eq_trans; [apply (doubled_cut [] c s)|].
  2:{ cbn [app doubled]. rewrite IH; [reflexivity|]. intro I. apply N. right. exact I. }
  intro E. subst. apply N. left. reflexivity.
Qed.
Definition agrees (s t : str) : Prop := restore_words s = doubled t.
Lemma agrees_cut : forall a b c s t, is_word c = false -> c <> "$" -> agrees a s -> agrees b t -> agrees (a ++ c :: b) (s ++ c :: t).
Proof. intros a b c s t W N A B. unfold agrees in *. rewrite restore_cut, doubled_cut, A, B by assumption. reflexivity. Qed.
Lemma agrees_name : forall n, contains US2 n = false -> ~ In "$" n -> agrees n n.
Proof. intros n U D. unfold agrees. rewrite restore_name, doubled_no by assumption. reflexivity. Qed.
Lemma agrees_arg : forall s t, spaced s = spaced t -> agrees s t -> agrees (as_argument s) (as_argument t).
Proof.
  intros s t E H. unfold as_argument. rewrite E. destruct (spaced t); [|exact H].
  exact (agrees_cut [] _ "(" [] _ eq_refl ltac:(discriminate) eq_refl (agrees_cut s [] ")" t [] eq_refl ltac:(discriminate) H eq_refl)).
Qed.
Lemma name_dollar : forall n, name_ok n -> ~ In "$" n.
Proof. intros n H I. pose proof (name_words n H) as W. rewrite Forall_forall in W. apply W in I. discriminate I. Qed.
Lemma g2_facts : forall e, expr_ok e -> G2 e <> [] /\ spaced (G2 e) = spaced (gen $"$." [] e) /\ starts_with_digit (G2 e) = starts_with_digit (gen $"$." [] e).
Proof. exact (gen_facts $"$." func_call eq_refl ltac:(discriminate) eq_refl eq_refl). Qed.
Lemma g2_plain : forall e, expr_ok e -> forallb plain_char (G2 e) = true.
Proof. exact (gen_plain $"$." func_call eq_refl eq_refl). Qed.
Lemma g12_spaced : forall e, expr_ok e -> spaced (G1 e) = spaced (G2 e).
Proof. intros e H. destruct (g1_facts e H) as (_ & A & _). destruct (g2_facts e H) as (_ & B & _). congruence. Qed.
Lemma function_agrees : forall op s t, In op (map fst op_names) -> agrees s t -> agrees (function_of op_names op ++ $" " ++ s) (function_of op_names op ++ $" " ++ t).
Proof.
  intros op s t I H. change ($" " ++ s) with (" " :: s). change ($" " ++ t) with (" " :: t). apply agrees_cut; try assumption; try discriminate; try reflexivity.
  vm_compute in I. repeat (destruct I as [<-|I]; [vm_compute; reflexivity|]). destruct I.
Qed.
Lemma restored : forall e, expr_ok e -> agrees (G1 e) (G2 e).
Proof.
  assert (AA : forall x, expr_ok x -> agrees (G1 x) (G2 x) -> agrees (as_argument (G1 x)) (as_argument (G2 x))).
  { intros x X H. apply agrees_arg; [apply g12_spaced; exact X | exact H]. }
  apply ok_ind; unfold G1, G2 in *; cbn beta iota zeta delta [gen].
  - intros s (_ & W & U). apply agrees_name; [apply holds_not; exact U|]. intro I. rewrite Forall_forall in W. destruct (W _ I) as [C|C]; [apply is_word_iff in C; discriminate C | discriminate C].
  - intros n N _. unfold agrees. rewrite (restore_marked global_rep $"$$.") by (try exact (name_unders n N); vm_compute; tauto).
    rewrite doubled_app, (doubled_no n (name_dollar n N)). reflexivity.
  - intros x n X H N. change ($"." ++ n) with ("." :: n). apply agrees_cut; [reflexivity | discriminate | exact (AA x X H) | exact (agrees_name n (name_unders n N) (name_dollar n N))].
  - intros x _ H. exact H.
  - intros op x I X H. specialize (AA x X H).
    assert (D : starts_with_digit (as_argument (gen global_rep func_call x)) = starts_with_digit (as_argument (gen $"$." func_call x))).
    { rewrite (gen_arg_digit global_rep func_call), (gen_arg_digit $"$." func_call) by (try exact X; try reflexivity; discriminate). reflexivity. }
    destruct (list_eq_dec ascii_dec op $"-") as [->|N].
    + rewrite D. dig.
      * exact (agrees_cut [] _ "-" [] _ eq_refl ltac:(discriminate) eq_refl AA).
      * exact (agrees_cut $"sub" _ " " $"sub" _ eq_refl ltac:(discriminate) eq_refl (agrees_cut $"0" _ " " $"0" _ eq_refl ltac:(discriminate) eq_refl AA)).
    + apply function_agrees; [destruct I as [<-|[<-|[]]]; vm_compute; tauto | exact AA].
  - intros op x y I X Y H K. apply function_agrees; [exact I|]. change ($" " ++ as_argument (gen global_rep func_call y)) with (" " :: as_argument (gen global_rep func_call y)).
    change ($" " ++ as_argument (gen $"$." func_call y)) with (" " :: as_argument (gen $"$." func_call y)).
    apply agrees_cut; [reflexivity | discriminate | exact (AA x X H) | exact (AA y Y K)].
  - intros f args N OK FA.
    assert (HF : agrees (f ++ func_call) (f ++ func_call)).
    { unfold agrees. rewrite (restore_call f (name_unders f N)). rewrite doubled_no; [reflexivity|]. intro I. apply in_app_or in I. destruct I as [I|I]; [exact (name_dollar f N I) | vm_compute in I; intuition discriminate]. }
    revert HF. generalize (f ++ func_call) at 1 3. generalize (f ++ func_call). intros t s HF. revert s t HF. induction FA as [|a l A _ IH]; intros s t HF.
    + cbn [flat_map]. rewrite !app_nil_r. exact HF.
    + inversion OK; subst. cbn [flat_map]. rewrite (app_assoc s), (app_assoc t). apply IH; [assumption|].
      change ($" " ++ as_argument (gen global_rep func_call a)) with (" " :: as_argument (gen global_rep func_call a)).
      change ($" " ++ as_argument (gen $"$." func_call a)) with (" " :: as_argument (gen $"$." func_call a)).
      exact (agrees_cut s _ " " t _ eq_refl ltac:(discriminate) HF (AA a ltac:(assumption) A)).
Qed.

(** ** No variable is named slice *)
Definition slice_var : str := $"$.slice".
Definition unsliced (s : str) : Prop := (forall a b, s = a ++ slice_var ++ b -> exists c r, b = c :: r /\ c <> " ") /\ (forall a, s <> a ++ ["$"]).
Lemma unsliced_replace : forall s, unsliced s -> replace_all $"$.slice " $"slice $." s = s.
Proof.
  intros s (H & _). apply replace_all_no. destruct (contains $"$.slice " s) eqn:E; [|reflexivity]. exfalso. apply contains_iff in E. destruct E as (a & b & E).
  destruct (H a (" " :: b)) as (c & r & E' & W); [rewrite E; reflexivity|]. injection E' as E1 E2. subst. exact (W eq_refl).
Qed.
Lemma unsliced_nil : unsliced [].
Proof. split; [intros [|x a] b E; discriminate E | intros [|x a] E; discriminate E]. Qed.
Lemma unsliced_no : forall s, ~ In "$" s -> unsliced s.
Proof.
  intros s N. split.
  - intros a b E. exfalso. apply N. rewrite E. apply in_or_app. right. left. reflexivity.
  - intros a E. apply N. rewrite E. apply in_or_app. right. left. reflexivity.
Qed.
Lemma unsliced_cut : forall a b c, c <> "$" -> is_word c = false -> unsliced a -> (c = "." -> ~ In "$" b) -> (c <> "." -> unsliced b) -> unsliced (a ++ c :: b).
Proof.
  intros a b c N W (A & A') D B0. assert (B : unsliced b) by (destruct (ascii_dec c ".") as [E|E]; [exact (unsliced_no b (D E)) | exact (B0 E)]).
  clear B0. destruct B as (B & B'). split.
  - intros x y E. apply app_split in E. destruct E as [(k & E1 & E2)|(k & E1 & E2)].
    + apply app_split in E2. destruct E2 as [(k' & E3 & E4)|(k' & E3 & E4)].
      * (* the word reaches beyond a *)
        destruct k' as [|d k']; [cbn [app] in E4|].
        -- destruct y as [|z y]; [discriminate E4|]. rewrite app_nil_r in E3. subst k.
           destruct (A x []) as (p & q & E5 & _); [rewrite app_nil_r; exact E1 | discriminate E5].
        -- cbn [app] in E4. injection E4 as E5 E6. subst d. assert (J : In c slice_var) by (rewrite E3; apply in_or_app; right; left; reflexivity).
           destruct (ascii_dec c ".") as [->|NE].
           ++ destruct k as [|p [|q k]]; [discriminate E3 | injection E3 as E7 E8; subst p; exact (False_ind _ (A' x E1)) |].
              injection E3 as E7 E8 E9. subst p q. exfalso. assert (J' : In "." (k ++ "." :: k')) by (apply in_or_app; right; left; reflexivity). rewrite <- E9 in J'.
              vm_compute in J'. intuition discriminate.
           ++ exfalso. vm_compute in J. destruct J as [J|[J|J]]; [exact (N (eq_sym J)) | exact (NE (eq_sym J))|].
              repeat (destruct J as [<-|J]; [discriminate W|]). destruct J.
      * subst k. destruct (A x k' E1) as (p & q & E5 & WP). subst k'. exists p, (q ++ c :: b). split; [exact E4 | exact WP].
    + destruct k as [|d k]; [cbn [app] in E2; injection E2 as E3 E4; exfalso; exact (N E3)|].
      cbn [app] in E2. injection E2 as E3 E4. subst d. exact (B k y E4).
  - intros x E. apply (f_equal (@rev ascii)) in E. rewrite !rev_app_distr in E. cbn [rev app] in E. destruct (rev b) as [|p q] eqn:RB.
    + cbn [app] in E. injection E as E1 E2. exact (N E1).
    + cbn [app] in E. injection E as E1 E2. subst p. apply (B' (rev q)). rewrite <- (rev_involutive b), RB. reflexivity.
Qed.
Lemma unsliced_arg : forall s, unsliced s -> unsliced (as_argument s).
Proof.
  intros s H. unfold as_argument. destruct (spaced s); [|exact H].
  apply (unsliced_cut [] (s ++ $")") "("); [discriminate | reflexivity | exact unsliced_nil | discriminate | intros _].
  apply (unsliced_cut s [] ")"); [discriminate | reflexivity | exact H | discriminate | intros _; exact unsliced_nil].
Qed.
Lemma unsliced_space : forall a b, unsliced a -> unsliced b -> unsliced (a ++ $" " ++ b).
Proof. intros a b A B. apply (unsliced_cut a b " "); [discriminate | reflexivity | exact A | discriminate | intros _; exact B]. Qed.
Lemma function_dollar : forall op, In op (map fst op_names) -> ~ In "$" (function_of op_names op).
Proof. intros op I. vm_compute in I. repeat (destruct I as [<-|I]; [vm_compute; intuition discriminate|]). destruct I. Qed.
Lemma unsliced_var : forall n, name_ok n -> n <> $"slice" -> unsliced ($"$." ++ n).
Proof.
  intros n N NS. split.
  - intros [|x a] b E.
    + cbn [app] in E. unfold slice_var in E. injection E as E. change (n = $"slice" ++ b) in E. destruct b as [|c r]; [rewrite app_nil_r in E; contradiction|].
      exists c, r. split; [reflexivity|]. intro C. subst c. pose proof (name_words n N) as W. rewrite Forall_forall in W. assert (J : In " " n) by (rewrite E; apply in_or_app; right; left; reflexivity). apply W in J. discriminate J.
    + exfalso. injection E as _ E. assert (J : In "$" ("." :: n)) by (rewrite E; apply in_or_app; right; left; reflexivity). destruct J as [J|J]; [discriminate J | exact (name_dollar n N J)].
  - intros a E. assert (NN := name_not_nil n N). destruct (exists_last NN) as (r & c & En). rewrite En in E. rewrite app_assoc in E. apply app_inj_tail in E. destruct E as [_ E].
    apply (name_dollar n N). rewrite En, E. apply in_or_app. right. left. reflexivity.
Qed.
Lemma g2_unsliced : forall e, expr_ok e -> unsliced (G2 e).
Proof.
  unfold G2. apply ok_ind; cbn beta iota zeta delta [gen].
  - intros s (_ & W & U). apply unsliced_no. intro I. rewrite Forall_forall in W. destruct (W _ I) as [C|C]; [apply is_word_iff in C; discriminate C | discriminate C].
  - exact unsliced_var.
  - intros x n _ H N. apply (unsliced_cut _ n "."); [discriminate | reflexivity | apply unsliced_arg; exact H | intros _; exact (name_dollar n N) | intro C; contradiction C; reflexivity].
  - intros x _ H. exact H.
  - intros op x I _ H. apply unsliced_arg in H. destruct (list_eq_dec ascii_dec op $"-"); [dig|].
    + apply (unsliced_cut [] _ "-"); [discriminate | reflexivity | exact unsliced_nil | discriminate | intros _; exact H].
    + apply (unsliced_space $"sub 0" _); [apply unsliced_no; vm_compute; intuition discriminate | exact H].
    + apply unsliced_space; [apply unsliced_no, function_dollar; destruct I as [<-|[<-|[]]]; vm_compute; tauto | exact H].
  - intros op x y I _ _ H K. apply unsliced_space; [apply unsliced_no, function_dollar, I|]. apply unsliced_space; apply unsliced_arg; assumption.
  - intros f args N _ FA.
    assert (HF : unsliced (f ++ func_call)).
    { apply unsliced_no. intro I. apply in_app_or in I. destruct I as [I|I]; [exact (name_dollar f N I) | vm_compute in I; intuition discriminate]. }
    revert HF. generalize (f ++ func_call). induction FA as [|a l A _ IH]; intros s HF.
    + cbn [flat_map]. rewrite app_nil_r. exact HF.
    + cbn [flat_map]. rewrite (app_assoc s). apply IH. apply unsliced_space; [exact HF | apply unsliced_arg; exact A].
Qed.

(** ** The marks of functions *)
Definition erase : str -> str := replace_all func_call [].
Lemma erase_cut : forall a c b, is_word c = false -> erase (a ++ c :: b) = erase a ++ c :: erase b.
Proof.
  intros a c b W. apply replace_at; [|discriminate]. intro I. vm_compute in I. repeat (destruct I as [<-|I]; [discriminate W|]). destruct I.
Qed.
Lemma erase_name : forall n, contains US2 n = false -> erase n = n.
Proof. intros n N. apply replace_all_no. apply name_no_mark; [reflexivity | exact N]. Qed.
Lemma erase_call : forall f, contains US2 f = false -> erase (f ++ func_call) = f.
Proof.
  unfold erase. induction f as [|c r IH]; intros N; [reflexivity|]. cbn [app]. rewrite replace_all_cons.
  - rewrite IH; [reflexivity|]. rewrite contains_cons in N. apply orb_false_iff in N. apply N.
  - destruct (has_prefix func_call (c :: r ++ func_call)) eqn:E; [|reflexivity]. exfalso. apply has_prefix_iff in E. destruct E as [t E].
    destruct r as [|d r]; [discriminate E|]. unfold func_call in E. injection E as E1 E2 _. subst. discriminate N.
Qed.
Lemma erase_arg : forall s t, spaced s = spaced t -> erase s = t -> erase (as_argument s) = as_argument t.
Proof.
  intros s t E H. unfold as_argument. rewrite E. destruct (spaced t); [|exact H].
  change ($"(" ++ s ++ $")") with ([] ++ "(" :: (s ++ ")" :: [])). rewrite !erase_cut by reflexivity. rewrite H. reflexivity.
Qed.
Lemma erase_space : forall a b, erase (a ++ $" " ++ b) = erase a ++ $" " ++ erase b.
Proof. intros a b. exact (erase_cut a " " b eq_refl). Qed.
Lemma erased : forall e, expr_ok e -> erase (G2 e) = command e.
Proof.
  intros e H0. rewrite <- gen_command by exact H0. revert e H0.
  assert (AA : forall x, expr_ok x -> erase (G2 x) = gen $"$." [] x -> erase (as_argument (G2 x)) = as_argument (gen $"$." [] x)).
  { intros x X H. apply erase_arg; [destruct (g2_facts x X) as (_ & A & _); exact A | exact H]. }
  unfold G2 in *. apply ok_ind; cbn beta iota zeta delta [gen].
  - intros s (_ & W & U). apply erase_name, holds_not, U.
  - intros n N _. change ($"$." ++ n) with (["$"] ++ "." :: n). rewrite erase_cut by reflexivity. rewrite (erase_name n (name_unders n N)). reflexivity.
  - intros x n X H N. change ($"." ++ n) with ("." :: n). rewrite erase_cut by reflexivity. rewrite (AA x X H), (erase_name n (name_unders n N)). reflexivity.
  - intros x _ H. exact H.
  - intros op x I X H. specialize (AA x X H).
    rewrite (gen_arg_digit $"$." func_call) by (try exact X; try reflexivity; discriminate).
    destruct (list_eq_dec ascii_dec op $"-") as [->|N].
    + dig.
      * change ($"-" ++ as_argument (gen $"$." func_call x)) with ([] ++ "-" :: as_argument (gen $"$." func_call x)). rewrite erase_cut by reflexivity. rewrite AA. reflexivity.
      * change ($"sub 0 " ++ as_argument (gen $"$." func_call x)) with ($"sub 0" ++ $" " ++ as_argument (gen $"$." func_call x)). rewrite erase_space, AA. reflexivity.
    + rewrite erase_space, AA. destruct I as [<-|[<-|[]]]; reflexivity.
  - intros op x y I X Y H K. rewrite !erase_space, (AA x X H), (AA y Y K). f_equal.
    vm_compute in I. repeat (destruct I as [<-|I]; [reflexivity|]). destruct I.
  - intros f args N OK FA. rewrite app_nil_r.
    pose proof (erase_call f (name_unders f N)) as HF. revert HF. generalize (f ++ func_call). generalize f. clear N f. intros t s. revert s t.
    induction FA as [|a l A _ IH]; intros s t HF.
    + cbn [flat_map]. rewrite !app_nil_r. exact HF.
    + inversion OK; subst. cbn [flat_map]. rewrite (app_assoc s). rewrite IH with (t := erase s ++ $" " ++ as_argument (gen $"$." [] a)); [rewrite <- !app_assoc; reflexivity | assumption|].
      rewrite erase_space, (AA a) by assumption. reflexivity.
Qed.
