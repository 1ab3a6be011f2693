(** Razor documents with blocks: the rows of the table, one after the other. *)
From Coq Require Import String Ascii List ZArith NArith Bool Lia ZifyBool ZifyN Permutation.
From Verif Require Import GoStr GoStrFacts Utf8 QuoteModel TemplateModel TemplateSpec TemplateProofs TextModel TextProofs3 RazorExprModel RazorExprProofs RazorWordsModel RazorWordsSpec RazorWordsProofs
  ReModel ReSyntaxModel RazorTableModel RazorAssignModel ReSound RazorRefSpec RazorRefAuto RazorRefProofs RazorRefMain RazorAsgSpec RazorAsgAuto RazorAsgText RazorAsgExpr RazorAsgExpr2 RazorAsgGo RazorAsgGo2 RazorAsgVal RazorAsgVal2 RazorAsgVal3 RazorAsgWrite RazorAsgWrite2
  RazorAsgMatch RazorAsgFits RazorAsgDoc RazorAsgMain BlockSpec BlockAuto BlockFits BlockDoc BlockMatch BlockMatch2 BlockMatch3 BlockValue BlockRows.
Import ListNotations.
Local Open Scope char_scope.

(** ** Expressions that start with @ *)
Lemma at_empty : forall r, head_re r = B "@" -> forall t, ~ eats r [] t.
Proof. intros r H t E. apply (head_eats _ r _ _ H) in E. destruct E as (c & x & E & _). discriminate E. Qed.
Lemma at_skipped : forall r s, head_re r = B "@" -> ~ In "@" s -> skipped r s.
Proof.
  intros r s H N u v E NE x t' EA. apply (head_eats _ r _ _ H) in EA. destruct EA as (c & y & EQ & C). apply Ascii.eqb_eq in C. subst c. destruct v as [|d v]; [contradiction|]. cbn [app] in EQ. injection EQ as EQ _. subst d.
  apply N. rewrite E. apply in_or_app. right. left. reflexivity.
Qed.
Lemma at_newline : forall r, head_re r = B "@" -> skipped r ["010"].
Proof. intros r H. apply at_skipped; [exact H | cbn; intuition discriminate]. Qed.

(** ** The document after the rows *)
Definition loops (x : block_line) : block_line :=
  match x with
  | Open i m OFor _ b2 E e b3 z | Open i m (OForEach _) _ b2 E e b3 z => Open i m ORange [] b2 E e b3 z
  | x => x
  end.
Definition src1 (x : block_line) : str := block_source (loops x).
Definition src2 (x : block_line) : str :=
  match x with
  | Open i m w _ _ _ e _ z => i ++ action m (opener_command w ++ $" " ++ G2 e) ++ z
  | x => block_source x
  end.
Definition src3 (x : block_line) : str := match x with Alt i m z => i ++ action m $"else" ++ z | x => src2 x end.
Definition src4 (x : block_line) : str := match x with Close i m _ _ _ z => i ++ action m $"end" ++ z | x => src3 x end.
Definition line4 (x : block_line) : line := match x with Simple x => x | x => Words (src4 x) end.

Section Main.
Variable parse : str -> option expr.
Definition allowed (keys : list str) (x : block_line) : Prop :=
  match x with
  | Simple _ => True
  | Open _ _ w _ _ _ _ _ _ => In (opener_key w) keys /\ (forall b, w = OElseIf b -> In $"if" keys)
  | Alt _ _ _ => In $"else" keys
  | Close _ _ _ _ _ _ => In $"end" keys
  end.
Lemma close_rest : forall b w (semi : bool) z, Forall blank_char b -> closer_ok w -> ~ In "@" z -> ~ In "010" z ->
  ~ In "@" (b ++ closer_text w ++ (if semi then $";" else []) ++ z) /\ ~ In "010" (b ++ closer_text w ++ (if semi then $";" else []) ++ z).
Proof.
  intros b w semi z B W NA NN. rewrite Forall_forall in B.
  assert (C : ~ In "@" (closer_text w) /\ ~ In "010" (closer_text w)).
  { destruct w as [| | | | |d]; cbn [closer_text closer_ok] in *; try (cbv; intuition discriminate). rewrite Forall_forall in W.
    split; intros I; repeat (apply in_app_or in I; destruct I as [I|I]); try (cbv in I; intuition discriminate); destruct (W _ I); discriminate. }
  destruct C as [C1 C2].
  split; intros I; repeat (apply in_app_or in I; destruct I as [I|I]); try contradiction; try (destruct (B _ I); discriminate); destruct semi; cbv in I; intuition discriminate.
Qed.
Lemma source_path : forall keys x, keys_ok keys -> block_ok parse x -> allowed keys x -> line_path keys (block_source x).
Proof.
  intros keys x (K1 & K2) H A. destruct x as [[s|i t b1 o b2 E e]|i m w b1 b2 E e b3 z|i m z|i m b w semi z]; cbn [block_source].
  - destruct H as [NA NN]. apply words_path; assumption.
  - exact (asg_path keys parse i t b1 o b2 E e H).
  - destruct H as (B & W & B1 & B2 & (V & _) & _ & _ & B3 & Z). destruct A as [A1 A2]. eapply open_path; eassumption.
  - destruct H as (B & Z). eapply alt_path; eassumption.
  - destruct H as (B & B' & W & NA & NN & _). destruct (close_rest b w semi z B' W NA NN) as [C1 C2]. eapply close_path; eassumption.
Qed.
Lemma blanks_out : forall b, Forall blank_char b -> ~ In "@" b /\ ~ In "010" b.
Proof. intros b F. rewrite Forall_forall in F. split; intros I; destruct (F _ I); discriminate. Qed.
Lemma action_out : forall m s, ~ In "@" s -> ~ In "010" s -> ~ In "@" (action m s) /\ ~ In "010" (action m s).
Proof.
  intros m s A N. unfold action. split; intros I; apply in_app_or in I; (destruct I as [I|I]; [destruct m; cbv in I; intuition discriminate|]); apply in_app_or in I; (destruct I as [I|I]; [contradiction | destruct m; cbv in I; intuition discriminate]).
Qed.
Lemma plain_out : forall s, forallb plain_char s = true -> ~ In "@" s /\ ~ In "010" s.
Proof. intros s H. rewrite forallb_forall in H. split; intros I; apply H in I; discriminate I. Qed.
Lemma command_line : forall w, opener_ok w -> ~ In "@" (opener_command w) /\ ~ In "010" (opener_command w).
Proof. intros w W. destruct (opener_line w W) as [A B]. destruct w; cbn [opener_command] in *; try (split; assumption); cbv; intuition discriminate. Qed.
Lemma parts_out : forall i a z, ~ In "@" i /\ ~ In "010" i -> ~ In "@" a /\ ~ In "010" a -> ~ In "@" z /\ ~ In "010" z -> ~ In "@" (i ++ a ++ z) /\ ~ In "010" (i ++ a ++ z).
Proof. intros i a z (A1 & A2) (B1 & B2) (C1 & C2). split; intros I; repeat (apply in_app_or in I; destruct I as [I|I]); contradiction. Qed.
Lemma text4 : forall x, block_ok parse x -> match x with Simple _ => True | _ => ~ In "@" (src4 x) /\ ~ In "010" (src4 x) end.
Proof.
  intros [x|i m w b1 b2 E e b3 z|i m z|i m b w semi z] H; [exact I| | |]; cbn [src4 src3 src2].
  - destruct H as (B & W & B1 & B2 & T & PE & OK & B3 & Z). apply parts_out; [exact (blanks_out i B)| |destruct (after_line z Z); split; assumption].
    apply action_out; [|]; intros I; apply in_app_or in I; (destruct I as [I|I]; [first [exact (proj1 (command_line w W) I) | exact (proj2 (command_line w W) I)]|]); (apply in_app_or in I; destruct I as [I|I]; [cbv in I; intuition discriminate|]);
      first [exact (proj1 (plain_out _ (g2_plain e OK)) I) | exact (proj2 (plain_out _ (g2_plain e OK)) I)].
  - destruct H as (B & Z). apply parts_out; [exact (blanks_out i B) | apply action_out; cbv; intuition discriminate|]. rewrite Forall_forall in Z. split; intros I; apply (Z _ I); cbn; tauto.
  - destruct H as (B & B' & W & NA & NN & _). apply parts_out; [exact (blanks_out i B) | apply action_out; cbv; intuition discriminate | split; assumption].
Qed.
Lemma loops_ok : forall x, block_ok parse x -> block_ok parse (loops x).
Proof.
  intros x H. destruct x as [x|i m w b1 b2 E e b3 z|i m z|i m b w semi z]; [exact H | | exact H | exact H]. destruct w; try exact H; destruct H as (B & W & B1 & B2 & T & PE & OK & B3 & Z); cbn [loops block_ok opener_ok]; repeat split; try assumption; try constructor; try apply T; try apply Z.
Qed.
Definition is_loop (w : opener) : bool := match w with OFor | OForEach _ => true | _ => false end.
Lemma allowed_all : forall x, allowed all_keys x.
Proof. intros [x|i m w b1 b2 E e b3 z|i m z|i m b w semi z]; cbn [allowed]; [exact I | | cbn; tauto | cbn; tauto]. split; [destruct w; cbn; tauto | intros; cbn; tauto]. Qed.
Lemma allowed_some : forall x, allowed some_keys (loops x).
Proof. intros [x|i m w b1 b2 E e b3 z|i m z|i m b w semi z]; cbn [loops allowed]; [exact I | | cbn; tauto | cbn; tauto]. destruct w; cbn [allowed]; (split; [cbn; tauto | intros; cbn; tauto]). Qed.
Lemma path2 : forall x, block_ok parse x -> line_path late_keys (src2 x).
Proof.
  intros x H. pose proof (text4 x H) as T4. destruct x as [x|i m w b1 b2 E e b3 z|i m z|i m b w semi z].
  - apply (source_path late_keys (Simple x)); [exact late_keys_ok | exact H | exact I].
  - destruct T4 as [NA NN]. apply words_path; assumption.
  - apply (source_path late_keys (Alt i m z)); [exact late_keys_ok | exact H | cbn; tauto].
  - apply (source_path late_keys (Close i m b w semi z)); [exact late_keys_ok | exact H | cbn; tauto].
Qed.
Lemma path3 : forall x, block_ok parse x -> line_path end_keys (src3 x).
Proof.
  intros x H. pose proof (text4 x H) as T4. destruct x as [x|i m w b1 b2 E e b3 z|i m z|i m b w semi z].
  - apply (source_path end_keys (Simple x)); [exact end_keys_ok | exact H | exact I].
  - destruct T4 as [NA NN]. apply words_path; assumption.
  - destruct T4 as [NA NN]. apply words_path; assumption.
  - apply (source_path end_keys (Close i m b w semi z)); [exact end_keys_ok | exact H | cbn; tauto].
Qed.
Lemma path4 : forall x, block_ok parse x -> line_path [] (src4 x).
Proof.
  intros x H. pose proof (text4 x H) as T4. destruct x as [x|i m w b1 b2 E e b3 z|i m z|i m b w semi z]; try (destruct T4 as [NA NN]; apply words_path; assumption).
  apply (source_path [] (Simple x)); [exact no_keys_ok | exact H | exact I].
Qed.
Lemma keeps : forall keys r (src dst : block_line -> str) x, keys_ok keys -> foreign keys r = true -> line_path keys (src x) -> src x = dst x -> block_keeps r src dst x.
Proof. intros keys r src dst x (K1 & K2) F L E. split; [exact E|]. eapply foreign_skips; eassumption. Qed.

Variable beyond : N -> bool.
Variables words signs opers : list (str * str).
Variable mode : validation.
Context {P : PrintEnv}.
Hypothesis HW : Permutation words RazorWordsModel.reserved.
Hypothesis HS : Permutation signs symbols.
Hypothesis HO : Permutation opers operator_words.
Hypothesis HU : reads_updates parse.
Variable other : replacement -> parser -> str -> str.
Hypothesis HF : follows_code beyond words signs opers parse mode default_delims other.

Lemma loop_row : forall r l, c_re (r_re r) = for_re -> c_names (r_re r) = [($"reduce2", 4); ($"reduce1", 3); ($"reduce", 1)] -> r_parser r = None -> r_replace r = $"@${reduce}range(" -> foreign some_keys (c_re (r_re r)) = true ->
  Forall (block_ok parse) l -> replace_step other (block_lines block_source l) r = block_lines src1 l.
Proof.
  intros r l RE RN RP RR FR H. unfold replace_step. rewrite RP. rewrite RE in *. rewrite RN, RR.
  apply blocks_document; [apply at_empty; reflexivity | apply at_newline; reflexivity|].
  eapply Forall_impl; [|exact H]. clear H. intros x H.
  assert (K : src1 x = block_source x -> allowed some_keys x -> block_keeps for_re block_source src1 x).
  { intros E A. apply (keeps some_keys); [exact some_keys_ok | exact FR | exact (source_path some_keys x some_keys_ok H A) | symmetry; exact E]. }
  destruct x as [x|i m w b1 b2 E e b3 z|i m z|i m b w semi z]; try (left; apply K; [reflexivity | cbn; tauto]).
  destruct (is_loop w) eqn:L; [|left; apply K; destruct w; try discriminate L; try reflexivity; (split; [cbn; tauto | intros; cbn; tauto])].
  right. pose proof H as (B & W & B1 & B2 & T & PE & OK & B3 & Z). exists i, (for_text m w b1), (b2 ++ E ++ $")" ++ b3 ++ z), ($"@" ++ mark_text m ++ $"range(").
  assert (S0 : block_source (Open i m w b1 b2 E e b3 z) = i ++ for_text m w b1 ++ b2 ++ E ++ $")" ++ b3 ++ z).
  { cbn [block_source]. unfold for_text. apply (f_equal (app i)). cbn [app]. apply (f_equal (cons "@")). rewrite <- !app_assoc. reflexivity. }
  split; [exact S0|]. split; [destruct w; try discriminate L; unfold src1; cbn [loops block_source opener_text]; rewrite <- !app_assoc; reflexivity|].
  split; [apply at_skipped; [reflexivity | apply (blanks_out i B)]|]. split.
  { apply at_skipped; [reflexivity|]. destruct T as (V & _). destruct (values_no_at E V) as (VA & _). intros I. repeat (apply in_app_or in I; destruct I as [I|I]); try (cbv in I; repeat (destruct I as [I|I]; [discriminate I|]); exact I); [exact (proj1 (blanks_out _ B2) I) | exact (VA I) | exact (proj1 (blanks_out _ B3) I) | exact (proj2 (after_line z Z) I)]. }
  split; [discriminate|]. split; [reflexivity|]. intros pv u EN.
  destruct (for_lands m w b1 ((b2 ++ E ++ $")" ++ b3 ++ z) ++ u) pv W B1) as (pv' & Q); [destruct w as [|b| | | |b]; try discriminate L; [left; reflexivity | right; exists b; reflexivity]|].
  exists pv', (mark_groups m). split; [exact Q|].
  unfold expand. set (f := named_group [($"reduce2", 4); ($"reduce1", 3); ($"reduce", 1)] (for_text m w b1) (mark_groups m)).
  change (expand_go (length $"@${reduce}range(") f $"@${reduce}range(") with ($"@" ++ f $"reduce" ++ $"range("). unfold f. destruct m; reflexivity.
Qed.
Lemma command_row : forall r a l, c_re (r_re r) = command_re a -> c_names (r_re r) = command_names -> r_parser r = Some PExprSkip -> r_replace r = command_repl -> head_re a = B "$" -> foreign late_keys (c_re (r_re r)) = true ->
  Forall (block_ok parse) l -> replace_step other (block_lines src1 l) r = block_lines src2 l.
Proof.
  intros r a l RE RN RP RR AH FR H. unfold replace_step. rewrite RP. cbn [run_parser].
  assert (HA : forall s t, eats a s t -> exists r, s = "$" :: r).
  { intros s t EA. apply (head_eats _ a s t AH) in EA. destruct EA as (c & x & -> & X). apply Ascii.eqb_eq in X. subst c. exists x. reflexivity. }
  rewrite RE in FR. rewrite RE. apply blocks_document; [apply at_empty; reflexivity | apply at_newline; reflexivity|].
  eapply Forall_impl; [|exact H]. clear H. intros x H.
  assert (K : src1 x = src2 x -> line_path late_keys (src2 x) -> block_keeps (command_re a) src1 src2 x).
  { intros E A. apply (keeps late_keys); [exact late_keys_ok | exact FR | rewrite E; exact A | exact E]. }
  pose proof (path2 x H) as P2. destruct x as [x|i m w b1 b2 E e b3 z|i m z|i m b w semi z]; try (left; apply K; [reflexivity | exact P2]).
  right. assert (X : exists w' b1', loops (Open i m w b1 b2 E e b3 z) = Open i m w' b1' b2 E e b3 z /\ plain_opener w' /\ opener_text w' = opener_command w).
  { destruct w; try (eexists; eexists; split; [reflexivity | split; [exact I | reflexivity]]). }
  destruct X as (w' & b1' & LE & PW & WT). pose proof (loops_ok _ H) as H'. rewrite LE in H'. destruct H' as (B & W & B1 & B2 & T & PE & OK & B3 & Z).
  exists i, (command_text m w' b1' b2 E b3), z, (action m (opener_command w ++ $" " ++ G2 e)).
  split; [unfold src1; rewrite LE; cbn [block_source]; unfold command_text; apply (f_equal (app i)); cbn [app]; apply (f_equal (cons "@")); rewrite <- !app_assoc; reflexivity|].
  split; [reflexivity|]. split; [apply at_skipped; [reflexivity | apply (blanks_out i B)]|]. split; [apply at_skipped; [reflexivity | exact (proj2 (after_line z Z))]|].
  split; [discriminate|]. split; [reflexivity|]. intros pv u EN.
  destruct (text_no E T) as (NE & LO & NL). assert (VL : value_line E) by (split; [exact LO|]; split; [exact NL|]; destruct T as (_ & Y & _); exact Y).
  assert (HD : hd "a" E <> "$").
  { destruct T as (V & (c & x & -> & _) & _). cbn [hd]. inversion V as [|? ? C _]; subst. intros ->. unfold value_char in C. destruct C as [C|[C|C]]; [apply is_word_iff in C; discriminate C | destruct C as [C|C]; discriminate C | cbn in C; intuition discriminate]. }
  destruct (command_lands a m w' b1' b2 E b3 z u pv HA PW W B1 B2 VL HD B3 Z EN) as (pv' & Q). exists pv', (command_groups m w' E). split; [exact Q|].
  rewrite <- WT. eapply command_value; eassumption.
Qed.
Lemma else_row : forall r l, c_re (r_re r) = else_re -> c_names (r_re r) = [($"reduce2", 4); ($"reduce1", 3); ($"reduce", 1)] -> r_parser r = None -> r_replace r = $"{{${reduce1} else ${reduce2}}}" -> foreign end_keys (c_re (r_re r)) = true ->
  Forall (block_ok parse) l -> replace_step other (block_lines src2 l) r = block_lines src3 l.
Proof.
  intros r l RE RN RP RR FR H. unfold replace_step. rewrite RP. rewrite RE in *. rewrite RN, RR.
  apply blocks_document; [apply at_empty; reflexivity | apply at_newline; reflexivity|].
  eapply Forall_impl; [|exact H]. clear H. intros x H.
  assert (K : src2 x = src3 x -> block_keeps else_re src2 src3 x).
  { intros E. apply (keeps end_keys); [exact end_keys_ok | exact FR | rewrite E; exact (path3 x H) | exact E]. }
  destruct x as [x|i m w b1 b2 E e b3 z|i m z|i m b w semi z]; try (left; apply K; reflexivity).
  right. destruct H as (B & Z). exists i, (else_text m), z, (action m $"else").
  split; [cbn [src2 block_source]; unfold else_text; apply (f_equal (app i)); cbn [app]; apply (f_equal (cons "@")); rewrite <- !app_assoc; reflexivity|].
  split; [reflexivity|]. split; [apply at_skipped; [reflexivity | apply (blanks_out i B)]|]. split; [apply at_skipped; [reflexivity|]; rewrite Forall_forall in Z; intros I; apply (Z _ I); cbn; tauto|].
  split; [discriminate|]. split; [reflexivity|]. intros pv u EN. destruct (else_lands m (z ++ u) pv) as (pv' & Q). exists pv', (mark_groups m). split; [exact Q|].
  unfold expand. set (f := named_group [($"reduce2", 4); ($"reduce1", 3); ($"reduce", 1)] (else_text m) (mark_groups m)).
  change (expand_go (length $"{{${reduce1} else ${reduce2}}}") f $"{{${reduce1} else ${reduce2}}}") with ($"{{" ++ f $"reduce1" ++ $" else " ++ f $"reduce2" ++ $"}}"). unfold f. destruct m; reflexivity.
Qed.
Lemma end_row : forall r l, c_re (r_re r) = end_re -> (forall whole g, named_group (c_names (r_re r)) whole g $"reduce1" = group 3 g /\ named_group (c_names (r_re r)) whole g $"reduce2" = group 4 g) ->
  r_parser r = None -> r_replace r = $"{{${reduce1} end ${reduce2}}}" -> foreign [] (c_re (r_re r)) = true ->
  Forall (block_ok parse) l -> replace_step other (block_lines src3 l) r = block_lines src4 l.
Proof.
  intros r l RE RN RP RR FR H. unfold replace_step. rewrite RP. rewrite RE in *. rewrite RR.
  apply blocks_document; [apply at_empty; reflexivity | apply at_newline; reflexivity|].
  eapply Forall_impl; [|exact H]. clear H. intros x H.
  assert (K : src3 x = src4 x -> block_keeps end_re src3 src4 x).
  { intros E. apply (keeps []); [exact no_keys_ok | exact FR | rewrite E; exact (path4 x H) | exact E]. }
  destruct x as [x|i m w b1 b2 E e b3 z|i m z|i m b w semi z]; try (left; apply K; reflexivity).
  right. destruct H as (B & B' & W & NA & NN & Z). exists i, (end_text m b w semi), z, (action m $"end").
  split; [cbn [src3 src2 block_source]; unfold end_text; apply (f_equal (app i)); cbn [app]; apply (f_equal (cons "@")); rewrite <- !app_assoc; reflexivity|].
  split; [reflexivity|]. split; [apply at_skipped; [reflexivity | apply (blanks_out i B)]|]. split; [apply at_skipped; [reflexivity | exact NA]|].
  split; [discriminate|]. split; [reflexivity|]. intros pv u EN. destruct (end_lands m b w semi z u pv B' W Z EN) as (pv' & Q). exists pv', (end_groups m b w). split; [exact Q|].
  unfold expand. set (f := named_group (c_names (r_re r)) (end_text m b w semi) (end_groups m b w)).
  change (expand_go (length $"{{${reduce1} end ${reduce2}}}") f $"{{${reduce1} end ${reduce2}}}") with ($"{{" ++ f $"reduce1" ++ $" end " ++ f $"reduce2" ++ $"}}").
  destruct (RN (end_text m b w semi) (end_groups m b w)) as [F1 F2]. fold f in F1, F2. rewrite F1, F2. destruct m; reflexivity.
Qed.
End Main.
