(** The translation of assigned expressions: the trees. *)
From Coq Require Import String Ascii List ZArith NArith Bool Lia ZifyBool ZifyN.
From Verif Require Import GoStr GoStrFacts Utf8 QuoteModel TemplateModel TemplateSpec TemplateProofs TextModel RazorExprModel RazorExprProofs RazorWordsModel RazorWordsSpec RazorWordsProofs
  ReModel ReSyntaxModel RazorTableModel RazorAssignModel ReSound RazorRefSpec RazorRefAuto RazorRefProofs RazorRefMain RazorAsgSpec RazorAsgText.
Import ListNotations.
Local Open Scope char_scope.

(** The trees of the specification *)
Section Ok.
Variable Q : expr -> Prop.
Hypothesis HL : forall v, literal_ok v -> Q (RazorExprModel.Lit v).
Hypothesis HI : forall n, name_ok n -> n <> $"slice" -> Q (Ident n).
Hypothesis HS : forall x n, expr_ok x -> Q x -> name_ok n -> Q (Sel x n).
Hypothesis HP : forall x, expr_ok x -> Q x -> Q (Paren x).
Hypothesis HU : forall op x, In op [$"-"; $"!"] -> expr_ok x -> Q x -> Q (Unary op x).
Hypothesis HB : forall op x y, In op (map fst op_names) -> expr_ok x -> expr_ok y -> Q x -> Q y -> Q (Binary op x y).
Hypothesis HC : forall f args, name_ok f -> Forall expr_ok args -> Forall Q args -> Q (Call (Ident f) args false).
Fixpoint ok_ind (e : expr) : expr_ok e -> Q e :=
  match e return expr_ok e -> Q e with
  | RazorExprModel.Lit v => fun H => HL v H
  | Ident n => fun H => HI n (proj1 H) (proj2 H)
  | Sel x n => fun H => HS x n (proj1 H) (ok_ind x (proj1 H)) (proj2 H)
  | Paren x => fun H => HP x H (ok_ind x H)
  | Unary op x => fun H => HU op x (proj1 H) (proj2 H) (ok_ind x (proj2 H))
  | Binary op x y => fun H => HB op x y (proj1 H) (proj1 (proj2 H)) (proj2 (proj2 H)) (ok_ind x (proj1 (proj2 H))) (ok_ind y (proj2 (proj2 H)))
  | Call (Ident f) args dots => fun H =>
      match proj1 (proj2 H) in _ = d return Q (Call (Ident f) args dots) -> Q (Call (Ident f) args dots) with eq_refl => fun q => q end
      (eq_rect_r (fun d => Q (Call (Ident f) args d))
        (HC f args (proj1 H)
          ((fix all (l : list expr) : (fix all (l : list expr) : Prop := match l with [] => True | a :: l => expr_ok a /\ all l end) l -> Forall expr_ok l :=
              match l with [] => fun _ => Forall_nil _ | a :: l => fun H => Forall_cons a (proj1 H) (all l (proj2 H)) end) args (proj2 (proj2 H)))
          ((fix all (l : list expr) : (fix all (l : list expr) : Prop := match l with [] => True | a :: l => expr_ok a /\ all l end) l -> Forall Q l :=
              match l with [] => fun _ => Forall_nil _ | a :: l => fun H => Forall_cons a (ok_ind a (proj1 H)) (all l (proj2 H)) end) args (proj2 (proj2 H))))
        (proj1 (proj2 H)))
  | _ => fun H => match H with end
  end.
End Ok.

(** ** The text of a tree, with a mark before variables and one behind functions *)
Section Gen.
Variables v mk : str.
Fixpoint gen (e : expr) : str :=
  match e with
  | RazorExprModel.Lit s => s
  | Ident n => v ++ n
  | Sel x n => as_argument (gen x) ++ $"." ++ n
  | Paren x => gen x
  | Unary op x =>
      let x := as_argument (gen x) in
      if list_eq_dec ascii_dec op $"-" then (if starts_with_digit x then $"-" ++ x else $"sub 0 " ++ x)
      else function_of op_names op ++ $" " ++ x
  | Binary op x y => function_of op_names op ++ $" " ++ as_argument (gen x) ++ $" " ++ as_argument (gen y)
  | Call (Ident f) args _ => (f ++ mk) ++ flat_map (fun a => $" " ++ as_argument (gen a)) args
  | _ => []
  end.
End Gen.
Lemma gen_command : forall e, expr_ok e -> gen $"$." [] e = command e.
Proof.
  apply ok_ind; cbn [gen command]; try reflexivity.
  - intros x n _ H _. rewrite H. reflexivity.
  - intros x _ H. exact H.
  - intros op x _ _ H. rewrite H. reflexivity.
  - intros op x y _ _ _ H K. rewrite H, K. reflexivity.
  - intros f args _ _ H. rewrite app_nil_r. f_equal. induction H as [|a l A _ IH]; [reflexivity|]. cbn [flat_map]. rewrite A, IH. reflexivity.
Qed.

(** *** Blanks, digits and bytes do not depend on the marks *)
Lemma spaced_app : forall a b, spaced (a ++ b) = spaced a || spaced b.
Proof.
  intros a b. unfold spaced. destruct (in_dec ascii_dec " " (a ++ b)) as [I|I]; destruct (in_dec ascii_dec " " a) as [J|J]; destruct (in_dec ascii_dec " " b) as [K|K]; try reflexivity; exfalso.
  - apply in_app_or in I. tauto.
  - apply I. apply in_or_app. tauto.
  - apply I. apply in_or_app. tauto.
  - apply I. apply in_or_app. tauto.
Qed.
Lemma spaced_words : forall s, Forall (fun c => is_word c = true \/ c = "." \/ c = "$") s -> spaced s = false.
Proof.
  intros s H. unfold spaced. destruct (in_dec ascii_dec " " s) as [I|_]; [|reflexivity]. rewrite Forall_forall in H. apply H in I.
  destruct I as [I|[I|I]]; discriminate I.
Qed.
Lemma spaced_arg : forall s, spaced (as_argument s) = spaced s.
Proof. intros s. unfold as_argument. destruct (spaced s) eqn:E; [|exact E]. rewrite !spaced_app, E. reflexivity. Qed.
Lemma name_words : forall n, name_ok n -> Forall (fun c => is_word c = true) n.
Proof.
  intros n (c & r & -> & A & W & _). constructor; [apply is_word_iff; left; exact A|]. eapply Forall_impl; [|exact W]. intros d D. apply is_word_iff. exact D.
Qed.
Lemma name_unders : forall n, name_ok n -> contains US2 n = false.
Proof. intros n (c & r & E & _ & _ & H). apply holds_not. exact H. Qed.
Lemma name_spaced : forall n, name_ok n -> spaced n = false.
Proof. intros n H. apply spaced_words. eapply Forall_impl; [|apply (name_words n H)]. intros c C. left. exact C. Qed.
Lemma literal_spaced : forall v, literal_ok v -> spaced v = false.
Proof. intros v (_ & H & _). apply spaced_words. eapply Forall_impl; [|exact H]. intros c [C|C]; [left; apply is_word_iff; exact C | right; left; exact C]. Qed.
Lemma name_not_nil : forall n, name_ok n -> n <> [].
Proof. intros n (c & r & -> & _). discriminate. Qed.
Lemma digit_app : forall a b, a <> [] -> starts_with_digit (a ++ b) = starts_with_digit a.
Proof. intros [|c a] b N; [contradiction | reflexivity]. Qed.
Lemma digit_name : forall n, name_ok n -> starts_with_digit n = false.
Proof.
  intros n (c & r & -> & A & _). unfold starts_with_digit. destruct A as [A|A]; unfold code_in in A; lia.
Qed.
Lemma functions : forall op, In op (map fst op_names) -> exists f, function_of op_names op = f /\ In (op, f) op_names.
Proof.
  intros op I. vm_compute in I. repeat (destruct I as [<-|I]; [eexists; split; [reflexivity | vm_compute; tauto]|]). destruct I.
Qed.

Ltac dig := match goal with |- context [if starts_with_digit ?z then _ else _] => destruct (starts_with_digit z) end.
Section Marks.
Variables v mk : str.
Hypothesis sv : spaced v = false.
Hypothesis nv : v <> [].
Hypothesis dv : starts_with_digit v = false.
Hypothesis smk : spaced mk = false.
Lemma gen_facts : forall e, expr_ok e -> gen v mk e <> [] /\ spaced (gen v mk e) = spaced (gen $"$." [] e) /\ starts_with_digit (gen v mk e) = starts_with_digit (gen $"$." [] e).
Proof.
  assert (AA : forall a b, spaced a = spaced b -> starts_with_digit a = starts_with_digit b -> starts_with_digit (as_argument a) = starts_with_digit (as_argument b)).
  { intros a b S D. unfold as_argument. rewrite S. destruct (spaced b); [reflexivity | exact D]. }
  assert (AN : forall a, a <> [] -> as_argument a <> []) by (intros a N; unfold as_argument; destruct (spaced a); [discriminate | exact N]).
  assert (N0 : forall e, expr_ok e -> gen $"$." [] e <> []).
  { apply ok_ind; cbn beta iota zeta delta [gen].
    - intros s (N & _). exact N.
    - discriminate.
    - intros x n _ N _ E. apply app_eq_nil in E. destruct E as [_ E]. discriminate E.
    - intros x _ N. exact N.
    - intros op x I _ N. destruct (list_eq_dec ascii_dec op $"-"); [dig; discriminate|].
      destruct I as [<-|[<-|[]]]; discriminate.
    - intros op x y I _ _ _ _. destruct (functions op I) as (f & -> & J). vm_compute in J. repeat (destruct J as [J|J]; [inversion J; subst; discriminate|]). destruct J.
    - intros f args N _ _. rewrite app_nil_r. destruct N as (c & r & -> & _). discriminate. }
  apply ok_ind; cbn beta iota zeta delta [gen].
  - intros s H. split; [apply H | split; reflexivity].
  - intros n H _. split; [|split].
    + intro E. apply app_eq_nil in E. destruct E as [E _]. exact (nv E).
    + rewrite !spaced_app, sv. rewrite (name_spaced n H). reflexivity.
    + rewrite !digit_app by (exact nv || discriminate). exact dv.
  - intros x n X (N & SP & D) H. split; [|split].
    + intro E. apply app_eq_nil in E. destruct E as [_ E]. discriminate E.
    + rewrite !spaced_app, !spaced_arg, SP. reflexivity.
    + rewrite !digit_app by (apply AN; (exact N || exact (N0 x X))). apply AA; assumption.
  - intros x _ H. exact H.
  - intros op x I X (N & SP & D). destruct (list_eq_dec ascii_dec op $"-").
    + rewrite (AA _ _ SP D). destruct (starts_with_digit (as_argument (gen $"$." [] x))); (split; [discriminate|]); split; try reflexivity; rewrite !spaced_app, !spaced_arg, SP; reflexivity.
    + split; [destruct I as [<-|[<-|[]]]; discriminate|]. split; [rewrite !spaced_app, !spaced_arg, SP; reflexivity|].
      destruct I as [<-|[<-|[]]]; reflexivity.
  - intros op x y I X Y (N & SP & D) (N' & SP' & D'). destruct (functions op I) as (f & -> & J). split; [|split].
    + vm_compute in J. repeat (destruct J as [J|J]; [inversion J; subst; discriminate|]). destruct J.
    + rewrite !spaced_app, !spaced_arg, SP, SP'. reflexivity.
    + vm_compute in J. repeat (destruct J as [J|J]; [inversion J; subst; reflexivity|]). destruct J.
  - intros f args H OK FA. assert (NF : f <> []) by exact (name_not_nil f H). split; [|split].
    + intro E. apply app_eq_nil in E. destruct E as [E _]. apply app_eq_nil in E. destruct E as [E _]. exact (NF E).
    + rewrite !spaced_app, smk. rewrite (name_spaced f H). cbn [orb]. change (spaced []) with false. cbn [orb].
      induction FA as [|a l (_ & SP & _) _ IH]; [reflexivity|]. inversion OK; subst. cbn [flat_map]. rewrite !spaced_app, !spaced_arg, SP, IH by assumption. reflexivity.
    + rewrite <- !app_assoc. rewrite !digit_app by exact NF. reflexivity.
Qed.
Lemma gen_arg_digit : forall e, expr_ok e -> starts_with_digit (as_argument (gen v mk e)) = starts_with_digit (as_argument (gen $"$." [] e)).
Proof. intros e H. destruct (gen_facts e H) as (_ & SP & D). unfold as_argument. rewrite SP. destruct (spaced (gen $"$." [] e)); [reflexivity | exact D]. Qed.

Definition sep_char (c : ascii) : bool := existsb (Ascii.eqb c) [" "; "("; ")"; "."; "$"; "-"].
Definition plain_char (c : ascii) : bool := is_word c || sep_char c.
Hypothesis pv : forallb plain_char v = true.
Hypothesis pmk : forallb plain_char mk = true.
Lemma plain_arg : forall s, forallb plain_char s = true -> forallb plain_char (as_argument s) = true.
Proof. intros s H. unfold as_argument. destruct (spaced s); [|exact H]. rewrite !forallb_app, H. reflexivity. Qed.
Lemma name_plain : forall n, name_ok n -> forallb plain_char n = true.
Proof. intros n H. apply forallb_forall. intros c I. pose proof (name_words n H) as W. rewrite Forall_forall in W. unfold plain_char. rewrite (W c I). reflexivity. Qed.
Lemma gen_plain : forall e, expr_ok e -> forallb plain_char (gen v mk e) = true.
Proof.
  apply ok_ind; cbn beta iota zeta delta [gen].
  - intros s (_ & H & _). apply forallb_forall. intros c I. rewrite Forall_forall in H. destruct (H c I) as [W|E]; [|subst c; reflexivity]. unfold plain_char. apply is_word_iff in W. rewrite W. reflexivity.
  - intros n H _. rewrite forallb_app, pv. apply name_plain, H.
  - intros x n _ H N. rewrite !forallb_app, (plain_arg _ H), (name_plain n N). reflexivity.
  - intros x _ H. exact H.
  - intros op x I _ H. pose proof (plain_arg _ H) as HA. destruct (list_eq_dec ascii_dec op $"-"); [dig|]; rewrite !forallb_app, HA; try reflexivity.
    destruct I as [<-|[<-|[]]]; reflexivity.
  - intros op x y I _ _ H K. destruct (functions op I) as (f & -> & J). rewrite !forallb_app, (plain_arg _ H), (plain_arg _ K).
    vm_compute in J. repeat (destruct J as [J|J]; [inversion J; subst; reflexivity|]). destruct J.
  - intros f args N _ FA. rewrite !forallb_app, pmk, (name_plain f N). cbn [andb]. induction FA as [|a l H _ IH]; [reflexivity|]. cbn [flat_map].
    rewrite !forallb_app, (plain_arg _ H), IH. reflexivity.
Qed.
End Marks.

(** ** The translation before the marks are replaced *)
Lemma plain_no : forall c s, plain_char c = false -> forallb plain_char s = true -> contains_byte c s = false.
Proof.
  intros c s N H. destruct (contains_byte c s) eqn:E; [|reflexivity]. apply contains_byte_In in E. rewrite forallb_forall in H. apply H in E. congruence.
Qed.
Lemma spaced_byte : forall s, contains_byte " " s = spaced s.
Proof.
  intros s. unfold spaced. destruct (in_dec ascii_dec " " s) as [I|I].
  - apply contains_byte_In. exact I.
  - destruct (contains_byte " " s) eqn:E; [|reflexivity]. apply contains_byte_In in E. contradiction.
Qed.
Lemma internal_arg : forall s, forallb plain_char s = true -> has_prefix dot_rep s = false -> internal (Ok s) = Ok (as_argument s).
Proof.
  intros s H D. unfold internal, as_argument. cbn [bind]. rewrite spaced_byte, (plain_no "009" s eq_refl H), orb_false_r.
  assert (Q : has_prefix [DQ] s = false).
  { destruct s as [|c s]; [reflexivity|]. cbn [has_prefix]. destruct (Ascii.eqb_spec DQ c) as [<-|_]; [discriminate H | reflexivity]. }
  rewrite Q. cbn [orb]. destruct (spaced s); cbn [negb]; [|reflexivity]. rewrite (prefix_first dot_rep s D). reflexivity.
Qed.
Lemma unders_prefix : forall w s, has_prefix w s = true -> contains US2 w = true -> contains US2 s = true.
Proof. intros w s P C. exact (prefix_contains US2 w s C P). Qed.
Lemma name_no_prefix : forall w s, contains US2 w = true -> contains US2 s = false -> has_prefix w s = false.
Proof. intros w s C N. destruct (has_prefix w s) eqn:E; [|reflexivity]. rewrite (prefix_contains US2 w s C E) in N. discriminate N. Qed.
Lemma name_no_mark : forall w s, contains US2 w = true -> contains US2 s = false -> contains w s = false.
Proof.
  intros w s C N. destruct (contains w s) eqn:E; [|reflexivity]. apply contains_iff in E. destruct E as (a & b & ->). rewrite (contains_mid US2 a w b C) in N. discriminate N.
Qed.
Definition G1 : expr -> str := gen global_rep func_call.
Lemma g1_facts : forall e, expr_ok e -> G1 e <> [] /\ spaced (G1 e) = spaced (gen $"$." [] e) /\ starts_with_digit (G1 e) = starts_with_digit (gen $"$." [] e).
Proof. exact (gen_facts global_rep func_call eq_refl ltac:(discriminate) eq_refl eq_refl). Qed.
Lemma g1_plain : forall e, expr_ok e -> forallb plain_char (G1 e) = true.
Proof. exact (gen_plain global_rep func_call eq_refl eq_refl). Qed.
Lemma g1_no_dot : forall e, expr_ok e -> has_prefix dot_rep (G1 e) = false.
Proof.
  unfold G1. apply ok_ind; cbn beta iota zeta delta [gen].
  - intros s (_ & _ & H). apply name_no_prefix; [reflexivity | apply holds_not; exact H].
  - reflexivity.
  - intros x n _ H _. change ($"." ++ n) with ("." :: n). rewrite prefix_cut by (vm_compute; intuition discriminate). unfold as_argument. destruct (spaced _); [reflexivity | exact H].
  - intros x _ H. exact H.
  - intros op x I _ _. destruct (list_eq_dec ascii_dec op $"-"); [dig; reflexivity|]. destruct I as [<-|[<-|[]]]; reflexivity.
  - intros op x y I _ _ _ _. destruct (functions op I) as (f & -> & J). vm_compute in J. repeat (destruct J as [J|J]; [inversion J; subst; reflexivity|]). destruct J.
  - intros f args (c & r & -> & A & _) _ _. cbn [app]. change dot_rep with ("_" :: tl dot_rep). cbn [has_prefix].
    destruct (Ascii.eqb_spec "_" c) as [<-|_]; [|reflexivity]. exfalso. destruct A as [A|A]; unfold code_in in A; vm_compute in A; destruct A; congruence.
Qed.
Lemma ident_marked : forall n, contains US2 n = false -> ident_text n = global_rep ++ n.
Proof.
  intros n N. unfold ident_text. rewrite (name_no_prefix dot_rep n eq_refl N), (name_no_prefix dollar_rep n eq_refl N), (name_no_mark func_call n eq_refl N). reflexivity.
Qed.
Lemma trim_mark : forall p n, trim_prefix p (p ++ n) = n.
Proof.
  intros p n. unfold trim_prefix. rewrite has_prefix_app. induction p as [|c p IH]; [reflexivity | exact IH].
Qed.
Lemma op_name : forall op, In op (map fst op_names) -> operator_name op = Ok (function_of op_names op).
Proof. intros op I. vm_compute in I. repeat (destruct I as [<-|I]; [reflexivity|]). destruct I. Qed.
Lemma join_args : forall l, l <> [] -> $" " ++ join $" " l = flat_map (fun a => $" " ++ a) l.
Proof.
  induction l as [|a [|b l] IH]; intros N; [contradiction| |].
  - cbn [join flat_map]. rewrite app_nil_r. reflexivity.
  - change (join $" " (a :: b :: l)) with (a ++ $" " ++ join $" " (b :: l)). rewrite IH by discriminate. cbn [flat_map]. rewrite <- !app_assoc. reflexivity.
Qed.
Lemma plain_dot : forall f (A : Type) (x y : A), name_ok f -> (if contains_byte "." (global_rep ++ f) then x else y) = y.
Proof.
  intros f A x y N. destruct (contains_byte "." (global_rep ++ f)) eqn:E; [|reflexivity]. exfalso. apply contains_byte_In, in_app_or in E.
  destruct E as [E|E]; [vm_compute in E; intuition discriminate|]. pose proof (name_words f N) as W. rewrite Forall_forall in W. apply W in E. discriminate E.
Qed.
Section Nodes.
Context {P : PrintEnv}.
Lemma node_gen : forall e, expr_ok e -> node_value e = Ok (G1 e).
Proof.
  assert (IA : forall x, expr_ok x -> node_value x = Ok (G1 x) -> internal (node_value x) = Ok (as_argument (G1 x))).
  { intros x X H. rewrite H. apply internal_arg; [apply g1_plain; exact X | apply g1_no_dot; exact X]. }
  apply ok_ind; unfold G1 in *; cbn beta iota zeta delta [gen node_value].
  - reflexivity.
  - intros n H _. rewrite ident_marked by exact (name_unders n H). reflexivity.
  - intros x n X H N. rewrite (IA x X H). cbn [bind]. rewrite ident_marked by exact (name_unders n N).
    rewrite internal_arg; [|rewrite forallb_app, (name_plain n N); reflexivity | reflexivity].
    unfold as_argument at 1. rewrite spaced_app, (name_spaced n N). cbn [bind]. change (spaced global_rep) with false. cbn [orb]. rewrite trim_mark. reflexivity.
  - intros x _ H. exact H.
  - intros op x I X H. rewrite op_name by (destruct I as [<-|[<-|[]]]; vm_compute; tauto). cbn [bind]. rewrite (IA x X H). cbn [bind].
    destruct (list_eq_dec ascii_dec op $"-") as [->|N].
    + change (str_eqb (function_of op_names $"-") $"sub") with true. destruct (g1_facts x X) as (NN & _). unfold G1 in NN.
      destruct (as_argument (gen global_rep func_call x)) as [|c s] eqn:E; [unfold as_argument in E; destruct (spaced _); [discriminate E | contradiction]|].
      unfold starts_with_digit, is_digit. destruct (_ && _); reflexivity.
    + destruct I as [<-|[<-|[]]]; [contradiction | reflexivity].
  - intros op x y I X Y H K. rewrite op_name by exact I. cbn [bind]. rewrite (IA x X H), (IA y Y K). cbn [bind].
    change (contains_byte STAR (as_argument (gen global_rep func_call y))) with (contains_byte "*" (as_argument (G1 y))).
    rewrite (plain_no "*" (as_argument (G1 y)) eq_refl (plain_arg _ (g1_plain y Y))), andb_false_r. reflexivity.
  - intros f args N OK FA. rewrite ident_marked by exact (name_unders f N). cbn [bind].
    rewrite plain_dot. 2:{ exact N. }
    rewrite trim_mark. destruct args as [|a args]; [cbn [flat_map]; rewrite app_nil_r; reflexivity|].
    assert (V : forall l, Forall expr_ok l -> Forall (fun e => node_value e = Ok (gen global_rep func_call e)) l ->
                (fix values (l : list expr) : res (list str) := match l with [] => Ok [] | a :: l' => do s <- internal (node_value a); do r <- values l'; Ok (s :: r) end) l
                = Ok (map (fun a => as_argument (gen global_rep func_call a)) l)).
    { intros l OK' FA'. induction FA' as [|b k B _ IH]; [reflexivity|]. inversion OK'; subst. rewrite (IA b) by assumption. cbn [bind]. rewrite IH by assumption. reflexivity. }
    specialize (V (a :: args) OK FA). cbn beta iota in V. eapply eq_trans; [apply (f_equal (fun r => bind r _)); exact V|]. cbn [bind]. rewrite join_args by discriminate. f_equal. f_equal. rewrite !flat_map_concat_map, map_map. reflexivity.
Qed.
End Nodes.
