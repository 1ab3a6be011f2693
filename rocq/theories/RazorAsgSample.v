(** A parser of expressions that reads updates, and a document with assignments of all kinds. *)
From Coq Require Import String Ascii List ZArith NArith Bool Lia ZifyBool ZifyN Permutation.
From Verif Require Import GoStr GoStrFacts TemplateModel TemplateSpec TemplateProofs RazorExprModel RazorAssignModel RazorRefSpec RazorRefAuto RazorRefProofs RazorRefMain RazorAsgSpec RazorAsgAuto RazorAsgExpr RazorAsgVal2 RazorAsgVal3 RazorAsgWrite2.
Import ListNotations.
Local Open Scope char_scope.

(** The text before the first blank and the text after it *)
Fixpoint cut (s : str) : str * str :=
  match s with
  | [] => ([], [])
  | c :: r => if Ascii.eqb c " " then ([], r) else let '(a, b) := cut r in (c :: a, b)
  end.
Lemma cut_at : forall a b, ~ In " " a -> cut (a ++ " " :: b) = (a, b).
Proof.
  induction a as [|c a IH]; intros b N; [reflexivity|]. cbn [app cut]. destruct (Ascii.eqb_spec c " ") as [->|_]; [exfalso; apply N; left; reflexivity|].
  rewrite IH; [reflexivity | intros I; apply N; right; exact I].
Qed.
Lemma cut_length : forall s, length (snd (cut s)) <= length s.
Proof. induction s as [|c s IH]; [cbn; lia|]. cbn [cut]. destruct (Ascii.eqb c " "); [cbn; lia|]. destruct (cut s) as [a b]. cbn in *. lia. Qed.
Fixpoint parts (s : str) : list str :=
  match s with
  | [] => [[]]
  | c :: r => if Ascii.eqb c "." then [] :: parts r else match parts r with [] => [[c]] | p :: l => (c :: p) :: l end
  end.
Lemma parts_no : forall a s, ~ In "." a -> exists p l, parts s = p :: l /\ parts (a ++ s) = (a ++ p) :: l.
Proof.
  induction a as [|c a IH]; intros s N.
  - destruct (parts s) as [|p l] eqn:E; [|exists p, l; split; [reflexivity | exact E]]. exfalso. destruct s as [|c s]; [discriminate|]. cbn in E. destruct (Ascii.eqb c "."); [discriminate|]. destruct (parts s); discriminate.
  - destruct (IH s) as (p & l & E & E2); [intros I; apply N; right; exact I|]. exists p, l. split; [exact E|]. cbn [app parts]. destruct (Ascii.eqb_spec c ".") as [->|_]; [exfalso; apply N; left; reflexivity|]. rewrite E2. reflexivity.
Qed.
Lemma parts_fields : forall l a, ~ In "." a -> Forall (fun n => ~ In "." n) l -> parts (a ++ fields l) = a :: l.
Proof.
  induction l as [|n l IH]; intros a N F.
  - cbn [fields flat_map]. destruct (parts_no a [] N) as (p & l & E & E2). cbn in E. injection E as <- <-. rewrite E2, !app_nil_r. reflexivity.
  - inversion F; subst. change (fields (n :: l)) with ("." :: (n ++ fields l)). destruct (parts_no a ("." :: n ++ fields l) N) as (p & k & E & E2). cbn [parts Ascii.eqb] in E.
    change (parts ("." :: n ++ fields l)) with ([] :: parts (n ++ fields l)) in E. rewrite (IH n) in E by assumption. injection E as <- <-. rewrite E2, app_nil_r. reflexivity.
Qed.
Definition member (x : str) (l : list str) : bool := existsb (str_eqb x) l.
(** a.b.c op (E) *)
Definition as_update (s : str) : option (expr * str * str) :=
  let '(h, s) := cut s in
  let '(op, s) := cut s in
  match parts h, s with
  | a :: l, "(" :: s => if member op update_ops && str_eqb s (removelast s ++ $")") && forallb (forallb is_word) (a :: l) then Some (selector (Ident a) l, op, removelast s) else None
  | _, _ => None
  end.
Lemma update_length : forall s x op E, as_update s = Some (x, op, E) -> length E < length s.
Proof.
  intros s x op E H. unfold as_update in H. pose proof (cut_length s) as L1. destruct (cut s) as [h s1]. pose proof (cut_length s1) as L2. destruct (cut s1) as [o s2]. cbn [snd] in L1, L2.
  destruct (parts h) as [|a l]; [discriminate|]. destruct s2 as [|c s2]; [discriminate|].
  assert (R : length (removelast s2) <= length s2) by (clear; induction s2 as [|d s2 IH]; [cbn; lia|]; destruct s2; cbn in *; lia).
  assert (X : E = removelast s2).
  { destruct c as [[] [] [] [] [] [] [] []]; try discriminate. destruct (member o update_ops && str_eqb s2 (removelast s2 ++ $")") && forallb (forallb is_word) (a :: l)); [|discriminate]. injection H as _ _ <-. reflexivity. }
  subst E. cbn [length] in L2. lia.
Qed.
Section Parser.
Variable base : str -> option expr.
Fixpoint reading (n : nat) (s : str) : option expr :=
  match n with
  | O => base s
  | S n =>
      match as_update s with
      | Some (x, op, E) => match reading n E with Some e => Some (Binary op x (Paren e)) | None => base s end
      | None => base s
      end
  end.
Definition sample_parse (s : str) : option expr := reading (length s) s.
Lemma reading_more : forall n m s, length s <= n -> length s <= m -> reading n s = reading m s.
Proof.
  induction n as [|n IH]; intros m s L M.
  - destruct s; [|cbn in L; lia]. destruct m; reflexivity.
  - destruct m as [|m]; [destruct s; [reflexivity | cbn in M; lia]|]. cbn [reading]. destruct (as_update s) as [((x & op) & E)|] eqn:U; [|reflexivity].
    apply update_length in U. rewrite (IH m E); [reflexivity | lia | lia].
Qed.
Lemma sample_reads : reads_updates sample_parse.
Proof.
  intros a l op E e NA W F IO PE.
  assert (ND : forall n, Forall word_char n -> ~ In "." n /\ ~ In " " n) by (intros n H; rewrite Forall_forall in H; split; intros I; apply H, is_word_iff in I; discriminate I).
  assert (NF : Forall (fun n => ~ In "." n) l).
  { eapply Forall_impl; [|exact F]. intros n (c & r & -> & A & H & _). apply ND. constructor; [left; exact A | exact H]. }
  assert (H : ~ In " " (a ++ fields l)).
  { intros I. apply in_app_or in I. destruct I as [I|I]; [exact (proj2 (ND a W) I)|]. pose proof (fields_chars l F) as FC. rewrite forallb_forall in FC. apply FC in I. discriminate I. }
  assert (U : as_update (a ++ fields l ++ $" " ++ op ++ $" (" ++ E ++ $")") = Some (selector (Ident a) l, op, E)).
  { unfold as_update. rewrite app_assoc. change ($" " ++ op ++ $" (" ++ E ++ $")") with (" " :: (op ++ " " :: "(" :: (E ++ $")"))). rewrite (cut_at _ _ H).
    rewrite cut_at by (cbn in IO; repeat (destruct IO as [<-|IO]; [cbn; intuition discriminate|]); destruct IO).
    rewrite (parts_fields l a (proj1 (ND a W)) NF). change ($")") with [")"]. rewrite removelast_last.
    assert (MO : member op update_ops = true) by (unfold member; apply existsb_exists; exists op; split; [exact IO | apply str_eqb_eq; reflexivity]).
    assert (WL : forallb (forallb is_word) (a :: l) = true).
    { apply forallb_forall. intros n I. apply forallb_forall. intros c C. apply is_word_iff. destruct I as [<-|I]; [rewrite Forall_forall in W; exact (W c C)|].
      rewrite Forall_forall in F. destruct (F n I) as (d & r & -> & A & H2 & _). rewrite Forall_forall in H2. destruct C as [<-|C]; [left; exact A | exact (H2 c C)]. }
    cbv beta iota. rewrite MO. match goal with |- context[forallb (forallb is_word) ?x] => replace (forallb (forallb is_word) x) with true by (symmetry; exact WL) end. assert (SE : str_eqb (E ++ [")"]) (E ++ [")"]) = true) by (apply str_eqb_eq; reflexivity). rewrite SE. reflexivity. }
  unfold sample_parse. destruct (length (a ++ fields l ++ $" " ++ op ++ $" (" ++ E ++ $")")) as [|n] eqn:LN.
  - exfalso. destruct a; [contradiction | discriminate LN].
  - cbn [reading]. rewrite U. pose proof (update_length _ _ _ _ U) as LE. rewrite (reading_more n (length E) E); [|lia | lia]. unfold sample_parse in PE. rewrite PE. reflexivity.
Qed.
End Parser.

(** ** Conditions on texts, computed *)
Definition name_okb (n : str) : bool := match n with c :: r => is_alpha c && forallb is_word r && negb (contains $"__" n) | [] => false end.
Lemma name_sound : forall n, name_okb n = true -> name_ok n.
Proof.
  intros [|c r] H; [discriminate|]. unfold name_okb in H. apply andb_true_iff in H. destruct H as [H H3]. apply andb_true_iff in H. destruct H as [H1 H2].
  exists c, r. split; [reflexivity|]. split; [apply is_alpha_iff; exact H1|]. split.
  - apply Forall_forall. intros x I. rewrite forallb_forall in H2. apply is_word_iff. exact (H2 x I).
  - apply no_word. apply negb_true_iff. exact H3.
Qed.
Lemma names_sound : forall l, forallb name_okb l = true -> Forall name_ok l.
Proof. intros l H. apply Forall_forall. intros n I. rewrite forallb_forall in H. apply name_sound. exact (H n I). Qed.
Fixpoint dots_okb (prev : option ascii) (s : str) : bool :=
  match s with
  | [] => true
  | c :: r => (if Ascii.eqb c "." then match prev with Some d => is_word d || Ascii.eqb d ")" | None => false end else true) && dots_okb (Some c) r
  end.
Lemma dots_sound_from : forall s p d, dots_okb (Some d) s = true -> forall a b, s = a ++ "." :: b -> exists a' c, p ++ d :: a = a' ++ [c] /\ (word_char c \/ c = ")").
Proof.
  induction s as [|c s IH]; intros p d H a b E; [destruct a; discriminate|]. cbn [dots_okb] in H. apply andb_true_iff in H. destruct H as [H1 H2]. destruct a as [|x a].
  - injection E as -> _. change (Ascii.eqb "." ".") with true in H1. cbn iota in H1. exists p, d. split; [reflexivity|]. apply orb_true_iff in H1. destruct H1 as [H1|H1]; [left; apply is_word_iff; exact H1 | right; apply Ascii.eqb_eq; exact H1].
  - injection E as -> E. destruct (IH (p ++ [d]) x H2 a b E) as (a' & k & X & Y). exists a', k. split; [|exact Y]. rewrite <- X, <- app_assoc. reflexivity.
Qed.
Lemma dots_sound : forall s, dots_okb None s = true -> forall a b, s = a ++ "." :: b -> exists a' c, a = a' ++ [c] /\ (word_char c \/ c = ")").
Proof.
  intros [|c s] H a b E; [destruct a; discriminate|]. cbn [dots_okb] in H. apply andb_true_iff in H. destruct H as [H1 H2]. destruct a as [|x a].
  - injection E as -> _. discriminate H1.
  - injection E as -> E. exact (dots_sound_from s [] x H2 a b E).
Qed.
Definition text_okb (E : str) : bool :=
  forallb is_value E && match E with c :: _ => negb (is_blank c) | [] => false end && forallb (fun w => negb (contains w E)) kept_words && negb (contains $"<>" E) &&
  forallb (fun x => negb (contains ($" " ++ snd x ++ $" ") E)) op_names && dots_okb None E && negb (contains $"..." E) && negb (contains $"__" E).
Lemma value_back : forall c, is_value c = true -> value_char c.
Proof.
  intros c H. unfold is_value in H. apply orb_true_iff in H. destruct H as [H|H]; [apply orb_true_iff in H; destruct H as [H|H]|].
  - left. apply is_word_iff. exact H.
  - right. left. apply is_blank_iff. exact H.
  - right. right. unfold one_of in H. apply existsb_exists in H. destruct H as (x & I & X). apply Ascii.eqb_eq in X. subst. exact I.
Qed.
Lemma text_sound : forall E, text_okb E = true -> text_ok E.
Proof.
  intros E H. unfold text_okb in H. repeat (apply andb_true_iff in H; destruct H as [H ?]). rewrite forallb_forall in H. split; [apply Forall_forall; intros c I; apply value_back; exact (H c I)|].
  split; [destruct E as [|c r]; [discriminate|]; exists c, r; split; [reflexivity|]; intros B; apply is_blank_iff in B; rewrite B in *; discriminate|].
  split; [intros w I; apply no_word; apply negb_true_iff; match goal with X : forallb _ kept_words = true |- _ => rewrite forallb_forall in X; exact (X w I) end|].
  split; [apply no_word; apply negb_true_iff; assumption|].
  split; [intros o f I; apply no_word; apply negb_true_iff; match goal with X : forallb _ op_names = true |- _ => rewrite forallb_forall in X; exact (X (o, f) I) end|].
  split; [apply dots_sound; assumption|]. split; apply no_word; apply negb_true_iff; assumption.
Qed.
Lemma literal_sound : forall v, forallb (fun c => is_word c || Ascii.eqb c ".") v && negb (contains $"__" v) && negb (str_eqb v []) = true -> literal_ok v.
Proof.
  intros v H. apply andb_true_iff in H. destruct H as [H N]. apply andb_true_iff in H. destruct H as [H U]. split; [intros ->; discriminate N|]. split; [|apply no_word; apply negb_true_iff; exact U].
  apply Forall_forall. intros c I. rewrite forallb_forall in H. specialize (H c I). apply orb_true_iff in H. destruct H as [H|H]; [left; apply is_word_iff; exact H | right; apply Ascii.eqb_eq; exact H].
Qed.
Lemma blanks_sound : forall b, forallb is_blank b = true -> Forall blank_char b.
Proof. intros b H. apply Forall_forall. intros c I. rewrite forallb_forall in H. apply is_blank_iff. exact (H c I). Qed.

(** ** The sample *)
Notation V := RazorExprModel.Lit (only parsing).
Definition base (s : str) : option expr :=
  if str_eqb s $"1 + 2" then Some (Binary $"+" (V $"1") (V $"2"))
  else if str_eqb s $"f(x, -y) * 2.5" then Some (Binary $"*" (Call (Ident $"f") [Ident $"x"; Unary $"-" (Ident $"y")] false) (V $"2.5"))
  else if str_eqb s $"a.b && !done" then Some (Binary $"&&" (Sel (Ident $"a") $"b") (Unary $"!" (Ident $"done")))
  else if str_eqb s $"(x << 2)" then Some (Paren (Binary $"<<" (Ident $"x") (V $"2")))
  else if str_eqb s $"7" then Some (V $"7")
  else if str_eqb s $"__REPL_0__.my-key + (7)" then Some (Binary $"+" (Binary $"-" (Sel (Ident $"__REPL_0__") $"my") (Ident $"key")) (Paren (V $"7")))
  else if str_eqb s $"<-c" then Some (Unary $"<-" (Ident $"c"))
  else None.
Definition target_of (k : kind) (p : list str) (n : str) : target := {| t_kind := k; t_path := p; t_name := n |}.
Definition sample : list line :=
  [Words $"A line of text, {{ .Even }} with an action.";
   Asg [] (target_of Global [] $"total") $" " Declare $" " $"1 + 2" (Binary $"+" (V $"1") (V $"2"));
   Asg $"  " (target_of Global [$"a"] $"b") [] Assign [] $"f(x, -y) * 2.5" (Binary $"*" (Call (Ident $"f") [Ident $"x"; Unary $"-" (Ident $"y")] false) (V $"2.5"));
   Asg [] (target_of Global [$"a"] $"b") $" " (Update $"+") $" " $"f(x, -y) * 2.5" (Binary $"*" (Call (Ident $"f") [Ident $"x"; Unary $"-" (Ident $"y")] false) (V $"2.5"));
   Asg [] (target_of Root [] $"flags") [] (Update $"&^") [] $"(x << 2)" (Paren (Binary $"<<" (Ident $"x") (V $"2")));
   Words [];
   Asg ["009"] (target_of Context [] $"ok") $" " Assign $" " $"a.b && !done" (Binary $"&&" (Sel (Ident $"a") $"b") (Unary $"!" (Ident $"done")));
   Asg [] (target_of Local [] $"n") $" " Declare $" " $"7" (V $"7");
   Asg [] (target_of Local [$"o"] $"n") $" " (Update $"*") $" " $"7" (V $"7");
   Asg [] (target_of Braced [] $"n") [] (Update $"-") $" " $"1 + 2" (Binary $"+" (V $"1") (V $"2"));
   Words $"The end."].
Lemma sample_ok : Forall (line_ok (sample_parse base)) sample.
Proof.
  assert (O : forall t o, (forall op, o <> Update op) -> update_ok t o) by (intros t o H op E; exfalso; exact (H op E)).
  assert (U : forall t op, In op update_ops -> forallb (fun n => forallb (fun w => negb (contains w n)) kept_words) (names t) = true -> names t <> [$"slice"] -> update_ok t (Update op)).
  { intros t op I F N op' E. injection E as <-. split; [exact I|]. split; [|intros (_ & _ & X); exact (N X)]. apply Forall_forall. intros n J w W. rewrite forallb_forall in F. specialize (F n J). rewrite forallb_forall in F. apply no_word. apply negb_true_iff. exact (F w W). }
  assert (T : forall k p n, forallb name_okb (p ++ [n]) = true -> (forall m, hd_error (p ++ [n]) = Some m -> has_prefix $"else" m = false /\ has_prefix $"end" m = false) -> target_ok (target_of k p n)).
  { intros k p n F H. split; [apply names_sound; exact F|]. intros _ m E. destruct (H m E) as [H1 H2]. split; intros (r & X); subst m; [rewrite has_prefix_app in H1; discriminate | rewrite has_prefix_app in H2; discriminate]. }
  assert (TT : forall k p n, forallb name_okb (p ++ [n]) = true -> match hd_error (p ++ [n]) with Some m => has_prefix $"else" m || has_prefix $"end" m | None => false end = false -> target_ok (target_of k p n)).
  { intros k p n F H. apply T; [exact F|]. intros m E. rewrite E in H. apply orb_false_iff in H. exact H. }
  unfold sample. repeat apply Forall_cons; [ .. | apply Forall_nil]; cbn [line_ok];
    try (split; cbn; intuition discriminate);
    (split; [apply blanks_sound; reflexivity|]); (split; [apply TT; reflexivity|]);
    (split; [split; [apply blanks_sound; reflexivity | intros X NB op E; try discriminate X; try discriminate E; try (exfalso; apply NB; reflexivity); injection E as <-; cbn; intuition discriminate]|]);
    (split; [first [apply U; [cbn; tauto | reflexivity | discriminate] | apply O; intros op; discriminate]|]);
    (split; [apply blanks_sound; reflexivity|]); (split; [apply text_sound; vm_compute; reflexivity|]); (split; [vm_compute; reflexivity|]).
  all: cbn [expr_ok]; repeat split; try (apply name_sound; reflexivity); try (apply literal_sound; reflexivity); try discriminate; try (cbn; tauto).
Qed.
Lemma sample_quiet : quiet (lines line_source sample).
Proof. intros w I. apply no_word. cbn in I. repeat (destruct I as [<-|I]; [vm_compute; reflexivity|]). destruct I. Qed.
