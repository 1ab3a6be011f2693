(** The translation of assigned expressions: assignments. *)
From Coq Require Import String Ascii List ZArith NArith Bool Lia ZifyBool ZifyN Permutation.
From Verif Require Import GoStr GoStrFacts Utf8 QuoteModel TemplateModel TemplateSpec TemplateProofs TextModel TextProofs3 RazorExprModel RazorExprProofs RazorWordsModel RazorWordsSpec RazorWordsProofs
  ReModel ReSyntaxModel RazorTableModel RazorAssignModel ReSound RazorRefSpec RazorRefAuto RazorRefProofs RazorRefMain RazorAsgSpec RazorAsgText RazorAsgExpr RazorAsgExpr2 RazorAsgGo RazorAsgGo2 RazorAsgVal RazorAsgVal2.
Import ListNotations.
Local Open Scope char_scope.

(** ** Selectors *)
Section Select.
Context {P : PrintEnv}.
Definition tight (s : str) : Prop := forallb plain_char s = true /\ spaced s = false.
Lemma internal_tight : forall s, tight s -> internal (Ok s) = Ok s.
Proof.
  intros s (H & S). unfold internal. cbn [bind]. rewrite spaced_byte, S, (plain_no "009" s eq_refl H). cbn [orb negb]. rewrite orb_true_r. reflexivity.
Qed.
Lemma field_name : forall n, name_ok n -> internal (Ok (ident_text n)) = Ok (global_rep ++ n).
Proof.
  intros n N. rewrite ident_marked by exact (name_unders n N). apply internal_tight. split.
  - rewrite forallb_app, (name_plain n N). reflexivity.
  - rewrite spaced_app, (name_spaced n N). reflexivity.
Qed.
Lemma tight_field : forall s n, tight s -> name_ok n -> tight (s ++ $"." ++ n).
Proof.
  intros s n (H & S) N. split.
  - rewrite !forallb_app, H, (name_plain n N). reflexivity.
  - rewrite !spaced_app, S, (name_spaced n N). reflexivity.
Qed.
Lemma selected : forall l x s, node_value x = Ok s -> tight s -> Forall name_ok l -> node_value (selector x l) = @Ok str (s ++ fields l) /\ tight (s ++ fields l).
Proof.
  induction l as [|n l IH]; intros x s H T F.
  - cbn [selector fields flat_map]. rewrite app_nil_r. split; assumption.
  - inversion F; subst. cbn [selector]. change (fields (n :: l)) with (($"." ++ n) ++ fields l). rewrite app_assoc. apply IH; [|apply tight_field; assumption | assumption].
    cbn [node_value]. rewrite H. rewrite (internal_tight s T). cbn [bind]. rewrite field_name by assumption. cbn [bind]. rewrite trim_mark. reflexivity.
Qed.
Definition updated (f c v : str) : str := f ++ $" " ++ c ++ $" " ++ v.
Lemma node_update : forall op a l e, In op update_ops -> ident_text a = a -> tight a -> Forall name_ok l -> expr_ok e ->
  node_value (Binary op (selector (Ident a) l) (Paren e)) = Ok (updated (function_of op_names op) (a ++ fields l) (as_argument (G1 e))).
Proof.
  intros op a l e IO IA T F OK. assert (ION : In op (map fst op_names)) by (vm_compute in IO; vm_compute; tauto).
  destruct (selected l (Ident a) a) as [S1 S2]; [cbn [node_value]; rewrite IA; reflexivity | exact T | exact F|].
  cbn [node_value]. rewrite (op_name op ION). cbn [bind]. rewrite S1, (internal_tight _ S2). cbn [bind].
  assert (IE : internal (node_value e) = @Ok str (as_argument (G1 e))) by (rewrite (node_gen e OK); exact (internal_arg (G1 e) (g1_plain e OK) (g1_no_dot e OK))).
  rewrite IE. cbn [bind].
  change (contains_byte STAR (as_argument (G1 e))) with (contains_byte "*" (as_argument (G1 e))).
  rewrite (plain_no "*" (as_argument (G1 e)) eq_refl (plain_arg _ (g1_plain e OK))), andb_false_r. reflexivity.
Qed.
End Select.

(** ** What a target becomes *)
Definition raw (t : target) : str * list str :=
  match t_kind t with
  | Global | Root => ($"__REPL_0__", names t)
  | Context => (dot_rep ++ hd [] (names t), tl (names t))
  | Local | Braced => ($"__REPL_0__" ++ hd [] (names t), tl (names t))
  end.
Lemma names_split : forall t, exists n l, names t = n :: l.
Proof. intro t. unfold names. destruct (t_path t) as [|n l]; [exists (t_name t), [] | exists n, (l ++ [t_name t])]; reflexivity. Qed.
Lemma dotted_fields : forall n l, dotted (n :: l) = n ++ fields l.
Proof.
  intros n l. revert n. induction l as [|m l IH]; intro n; [cbn [dotted fields flat_map]; rewrite app_nil_r; reflexivity|].
  change (dotted (n :: m :: l)) with (n ++ $"." ++ dotted (m :: l)). rewrite IH. reflexivity.
Qed.
Definition raw_text (t : target) : str := fst (raw t) ++ fields (snd (raw t)).
Lemma fields_agree : forall l a s, agrees a s -> Forall name_ok l -> agrees (a ++ fields l) (s ++ fields l).
Proof.
  induction l as [|n l IH]; intros a s A F; [cbn [fields flat_map]; rewrite !app_nil_r; exact A|]. inversion F; subst.
  change (fields (n :: l)) with (("." :: n) ++ fields l). rewrite !app_assoc. apply IH; [|assumption].
  apply agrees_cut; [reflexivity | discriminate | exact A | apply agrees_name; [apply name_unders; assumption | apply name_dollar; assumption]].
Qed.
Lemma raw_agrees : forall t, Forall name_ok (names t) -> agrees (raw_text t) (cell t).
Proof.
  intros t F. unfold raw_text, raw, cell. destruct (names_split t) as (n & l & E). rewrite E in *. inversion F as [|x y N FL]; subst.
  assert (D : forall M x, In (M, x) [($"__REPL_0__", $"$$"); (dot_rep, $"."); (global_rep, $"$$.")] -> forall d, doubled d = x -> agrees (M ++ n) (d ++ n)).
  { intros M x I d X. unfold agrees. rewrite (restore_marked M x n I (name_unders n N)), doubled_app, X, (doubled_no n (name_dollar n N)). reflexivity. }
  assert (R : agrees $"__REPL_0__" $"$") by reflexivity.
  destruct (t_kind t); cbn [fst snd hd tl].
  - apply fields_agree; [exact R | exact F].
  - apply fields_agree; [exact R | exact F].
  - change (fields (n :: l)) with ($"." ++ n ++ fields l). rewrite app_assoc. apply fields_agree; [apply (D dot_rep $"."); [vm_compute; tauto | reflexivity] | exact FL].
  - rewrite dotted_fields, app_assoc. apply fields_agree; [apply (D $"__REPL_0__" $"$$"); [vm_compute; tauto | reflexivity] | exact FL].
  - rewrite dotted_fields, app_assoc. apply fields_agree; [apply (D $"__REPL_0__" $"$$"); [vm_compute; tauto | reflexivity] | exact FL].
Qed.
Lemma fields_dollar : forall l, Forall name_ok l -> ~ In "$" (fields l).
Proof.
  intros l F I. unfold fields in I. apply in_flat_map in I. destruct I as (m & J & [K|K]); [discriminate K|]. rewrite Forall_forall in F. exact (name_dollar m (F m J) K).
Qed.
Lemma last_plain : forall (s : str) a, s <> [] -> ~ In "$" s -> forall x, x ++ s <> a ++ ["$"].
Proof.
  intros s a NE N x E. destruct (exists_last NE) as (r & c & ->). rewrite app_assoc in E. apply app_inj_tail in E. destruct E as [_ E]. apply N. rewrite E. apply in_or_app. right. left. reflexivity.
Qed.
Lemma cell_unsliced : forall t, Forall name_ok (names t) -> ~ (in_context t = true /\ t_kind t <> Context /\ names t = [$"slice"]) -> unsliced (cell t).
Proof.
  intros t F NS. unfold cell. destruct (names_split t) as (n & l & E). rewrite E in *. inversion F as [|x y N FL]; subst.
  assert (ND : ~ In "$" (n ++ fields l)) by (intro I; apply in_app_or in I; destruct I as [I|I]; [exact (name_dollar n N I) | exact (fields_dollar l FL I)]).
  assert (NN : n ++ fields l <> []) by (intro Z; apply app_eq_nil in Z; destruct Z as [Z _]; exact (name_not_nil n N Z)).
  assert (G : (t_kind t = Global \/ t_kind t = Root) -> unsliced ($"$" ++ fields (n :: l))).
  { intro K. change ($"$" ++ fields (n :: l)) with ($"$." ++ n ++ fields l). split.
    - intros [|x a] b E1.
      + unfold slice_var in E1. cbn [app] in E1. injection E1 as E1. change (n ++ fields l = $"slice" ++ b) in E1. destruct b as [|c r].
        * exfalso. rewrite app_nil_r in E1. destruct l as [|m l].
          -- cbn [fields flat_map] in E1. rewrite app_nil_r in E1. apply NS. split; [unfold in_context; destruct K as [-> | ->]; reflexivity|]. split; [destruct K as [-> | ->]; discriminate | rewrite E1; reflexivity].
          -- assert (J : In "." $"slice") by (rewrite <- E1; apply in_or_app; right; left; reflexivity). vm_compute in J. intuition discriminate.
        * exists c, r. split; [reflexivity|]. intro C. subst c. assert (J : In " " (n ++ fields l)) by (rewrite E1; apply in_or_app; right; left; reflexivity).
          apply in_app_or in J. destruct J as [J|J].
          -- pose proof (name_words n N) as W. rewrite Forall_forall in W. apply W in J. discriminate J.
          -- pose proof (fields_chars l FL) as W. rewrite forallb_forall in W. apply W in J. discriminate J.
      + exfalso. injection E1 as _ E1. assert (J : In "$" ("." :: n ++ fields l)) by (refine (eq_ind_r (fun z => In "$" z) _ E1); apply in_or_app; right; left; reflexivity).
        destruct J as [J|J]; [discriminate J | exact (ND J)].
    - intros a. exact (last_plain (n ++ fields l) a NN ND $"$."). }
  assert (L : unsliced ($"$" ++ dotted (n :: l))).
  { rewrite dotted_fields. split.
    - intros [|x a] b E1.
      + exfalso. unfold slice_var in E1. destruct N as (c & r & -> & A & _). cbn [app] in E1. injection E1 as E1 _. subst c. destruct A as [A|A]; unfold code_in in A; vm_compute in A; destruct A; congruence.
      + exfalso. injection E1 as _ E1. apply ND. rewrite E1. apply in_or_app. right. left. reflexivity.
    - intros a. exact (last_plain (n ++ fields l) a NN ND $"$"). }
  destruct (t_kind t); [apply G; left; reflexivity | apply G; right; reflexivity | | exact L | exact L].
  apply unsliced_no. exact (fields_dollar (n :: l) F).
Qed.
