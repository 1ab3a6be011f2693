(** The translation of assigned expressions. *)
From Coq Require Import String Ascii List ZArith NArith Bool Lia ZifyBool ZifyN.
From Verif Require Import GoStr GoStrFacts Utf8 QuoteModel TemplateModel TemplateSpec TemplateProofs TextModel RazorExprModel RazorWordsModel RazorWordsSpec RazorWordsProofs
  ReModel ReSyntaxModel RazorTableModel RazorAssignModel ReSound RazorRefSpec RazorRefAuto RazorRefProofs RazorRefMain RazorAsgSpec.
Import ListNotations.
Local Open Scope char_scope.

(** ** Texts *)
Lemma cut_word : forall w a c b, ~ In c w -> contains w (a ++ c :: b) = true -> contains w a = true \/ contains w b = true.
Proof.
  intros w a c b N H. apply contains_iff in H. destruct H as (x & y & E).
  apply app_split in E. destruct E as [(k & -> & E)|(k & -> & E)].
  - apply app_split in E. destruct E as [(k' & E0 & E)|(k' & -> & _)].
    + destruct k' as [|d k'].
      * left. apply contains_iff. exists x, []. rewrite E0, !app_nil_r. reflexivity.
      * cbn [app] in E. inversion E; subst. exfalso. apply N. apply in_or_app. right. left. reflexivity.
    + left. apply contains_iff. exists x, k'. reflexivity.
  - destruct k as [|d k].
    + cbn [app] in E. destruct w as [|e w].
      * left. apply contains_iff. exists [], a. reflexivity.
      * cbn [app] in E. inversion E; subst. exfalso. apply N. left. reflexivity.
    + cbn [app] in E. inversion E; subst. right. apply contains_iff. exists k, y. reflexivity.
Qed.
Lemma cut_word_false : forall w a c b, ~ In c w -> contains w a = false -> contains w b = false -> contains w (a ++ c :: b) = false.
Proof.
  intros w a c b N A B. destruct (contains w (a ++ c :: b)) eqn:E; [|reflexivity]. apply cut_word in E; [|exact N]. destruct E; congruence.
Qed.
Lemma prefix_cut : forall w a c b, ~ In c w -> has_prefix w (a ++ c :: b) = has_prefix w a.
Proof.
  induction w as [|d w IH]; intros [|x a] c b N; try reflexivity.
  - cbn [app has_prefix]. destruct (Ascii.eqb d c) eqn:E; [|reflexivity]. apply Ascii.eqb_eq in E. subst. exfalso. apply N. left. reflexivity.
  - cbn [app has_prefix]. rewrite IH; [reflexivity|]. intro I. apply N. right. exact I.
Qed.
(** A character that is not in the word separates the replacements. *)
Lemma replace_cut : forall w x c b, ~ In c w -> w <> [] -> forall n a, length a < n -> replace_all w x (a ++ c :: b) = replace_all w x a ++ c :: replace_all w x b.
Proof.
  intros w x c b N NE. induction n as [|n IH]; intros a L; [lia|]. destruct a as [|d a].
  - cbn [app]. rewrite replace_all_nil. cbn [app]. apply replace_all_cons. destruct w as [|e w]; [contradiction|]. cbn [has_prefix].
    destruct (Ascii.eqb e c) eqn:E; [|reflexivity]. apply Ascii.eqb_eq in E. subst. exfalso. apply N. left. reflexivity.
  - destruct (has_prefix w (d :: a)) eqn:P.
    + apply has_prefix_iff in P. destruct P as [t E]. rewrite E. rewrite <- app_assoc. rewrite !replace_all_sep by exact NE. rewrite <- app_assoc. f_equal.
      apply IH. apply (f_equal (@length ascii)) in E. rewrite app_length in E. destruct w; [contradiction|]. cbn in E, L. lia.
    + cbn [app]. rewrite (replace_all_cons w x d a) by exact P. rewrite replace_all_cons; [|change (d :: a ++ c :: b) with ((d :: a) ++ c :: b); rewrite prefix_cut by exact N; exact P].
      cbn [app]. f_equal. apply IH. cbn in L. lia.
Qed.
Lemma replace_at : forall w x a c b, ~ In c w -> w <> [] -> replace_all w x (a ++ c :: b) = replace_all w x a ++ c :: replace_all w x b.
Proof. intros w x a c b N NE. exact (replace_cut w x c b N NE (S (length a)) a (Nat.lt_succ_diag_r _)). Qed.

(** ** Restored words *)
Definition keys : list str := map snd RazorWordsModel.reserved ++ [global_rep; dot_rep].
Lemma keys_words : forall w c, In w keys -> is_word c = false -> ~ In c w /\ w <> [].
Proof.
  intros w c I N. assert (A : forallb (fun w => forallb is_word w && negb (str_eqb w [])) keys = true) by (vm_compute; reflexivity).
  rewrite forallb_forall in A. specialize (A w I). apply andb_true_iff in A. destruct A as [A B]. rewrite forallb_forall in A. split.
  - intro J. specialize (A c J). congruence.
  - intros ->. discriminate B.
Qed.
Definition distributes (f : str -> str) : Prop := forall a c b, is_word c = false -> f (a ++ c :: b) = f a ++ c :: f b.
Lemma dist_replace : forall w x, In w keys -> distributes (replace_all w x).
Proof. intros w x I a c b N. destruct (keys_words w c I N). apply replace_at; assumption. Qed.
Lemma dist_comp : forall f g, distributes f -> distributes g -> distributes (fun s => f (g s)).
Proof. intros f g F G a c b N. rewrite (G a c b N). apply (F _ _ _ N). Qed.
Lemma dist_each : forall l, (forall kv, In kv l -> In (fst kv) keys) -> distributes (replace_each l).
Proof.
  induction l as [|[k v] l IH]; intros H; [intros a c b N; reflexivity|]. unfold replace_each. cbn [fold_left].
  assert (D : distributes (fun s => replace_each l (replace_all k v s))).
  { apply dist_comp; [apply IH; intros kv I; apply H; right; exact I | apply dist_replace; exact (H (k, v) (or_introl eq_refl))]. }
  exact D.
Qed.
Lemma restore_cut : distributes restore_words.
Proof.
  unfold restore_words. apply (dist_comp (replace_all global_rep $"$$.")); [apply dist_replace; vm_compute; tauto|].
  apply (dist_comp (replace_all dot_rep $".")); [apply dist_replace; vm_compute; tauto|].
  apply (dist_comp (replace_each (map (fun kv => (snd kv, fst kv)) RazorWordsModel.reserved))); [|apply dist_replace; vm_compute; tauto].
  apply dist_each. intros kv I. apply in_map_iff in I. destruct I as ((k, v) & <- & J). unfold keys. apply in_or_app. left. apply in_map_iff. exists (k, v). split; [reflexivity | exact J].
Qed.
(** Texts without the keys are kept. *)
Lemma replace_each_id : forall l s, (forall kv, In kv l -> contains (fst kv) s = false) -> replace_each l s = s.
Proof.
  induction l as [|kv l IH]; intros s H; [reflexivity|]. unfold replace_each in *. cbn [fold_left].
  rewrite replace_all_no by (apply H; left; reflexivity). apply IH. intros x I. apply H. right. exact I.
Qed.
Lemma in_keys : forall k v, In (k, v) (map (fun kv => (snd kv, fst kv)) RazorWordsModel.reserved) -> In k (map snd RazorWordsModel.reserved).
Proof. intros k v I. apply in_map_iff in I. destruct I as ((a, b) & E & J). inversion E; subst. apply in_map_iff. exists (v, k). split; [reflexivity | exact J]. Qed.
Lemma restore_id : forall s, (forall w, In w keys -> contains w s = false) -> restore_words s = s.
Proof.
  intros s H. unfold restore_words. rewrite (replace_all_no $"__REPL_0__") by (apply H; vm_compute; tauto).
  rewrite replace_each_id. 2:{ intros (k, v) I. apply H. unfold keys. apply in_or_app. left. exact (in_keys k v I). }
  rewrite (replace_all_no dot_rep) by (apply H; vm_compute; tauto). apply replace_all_no. apply H. vm_compute; tauto.
Qed.

(** *** Markers next to names *)
Definition US2 : str := $"__".
(** Every start of w in M leaves a rest of w that holds two underscores. *)
Fixpoint tail_check (w M : str) : bool :=
  match M with
  | [] => true
  | c :: M' => (negb (compatible w M) || (Nat.ltb (length M) (length w) && contains US2 (skipn (length M) w))) && tail_check w M'
  end.
Lemma contains_cons : forall w c s, contains w (c :: s) = has_prefix w (c :: s) || contains w s.
Proof.
  intros w c s. destruct (contains w (c :: s)) eqn:E.
  - symmetry. apply contains_iff in E. destruct E as ([|x a] & b & E).
    + apply orb_true_iff. left. apply has_prefix_iff. exists b. exact E.
    + cbn [app] in E. inversion E; subst. apply orb_true_iff. right. apply contains_iff. exists a, b. reflexivity.
  - symmetry. apply orb_false_iff. split.
    + destruct (has_prefix w (c :: s)) eqn:P; [|reflexivity]. apply has_prefix_iff in P. destruct P as [t P]. assert (contains w (c :: s) = true); [|congruence].
      apply contains_iff. exists [], t. exact P.
    + destruct (contains w s) eqn:P; [|reflexivity]. apply contains_iff in P. destruct P as (a & b & ->). assert (contains w (c :: a ++ w ++ b) = true); [|congruence].
      apply contains_iff. exists (c :: a), b. reflexivity.
Qed.
Lemma prefix_contains : forall w u s, contains w u = true -> has_prefix u s = true -> contains w s = true.
Proof.
  intros w u s C P. apply contains_iff in C. destruct C as (a & b & ->). apply has_prefix_iff in P. destruct P as [t ->].
  apply contains_iff. exists a, (b ++ t). rewrite <- !app_assoc. reflexivity.
Qed.
Lemma marker_before : forall w n M, tail_check w M = true -> contains US2 w = true -> contains US2 n = false -> contains w (M ++ n) = false.
Proof.
  intros w n M T W N. induction M as [|c M IH].
  - cbn [app]. destruct (contains w n) eqn:C; [|reflexivity]. rewrite <- N. symmetry. apply contains_iff in C. destruct C as (a & b & ->).
    exact (contains_mid US2 a w b W).
  - change ((c :: M) ++ n) with (c :: (M ++ n)). rewrite contains_cons. cbn [tail_check] in T. apply andb_true_iff in T. destruct T as [T1 T2]. rewrite (IH T2), orb_false_r.
    destruct (has_prefix w (c :: M ++ n)) eqn:P; [|reflexivity]. exfalso.
    apply has_prefix_iff in P. destruct P as [t P]. change (c :: M ++ n) with ((c :: M) ++ n) in P.
    assert (CO : compatible w (c :: M) = true) by (apply (compatible_of w (c :: M) t n); symmetry; exact P). rewrite CO in T1. cbn [negb orb] in T1.
    apply andb_true_iff in T1. destruct T1 as [L C]. apply Nat.ltb_lt in L.
    apply app_split in P. destruct P as [(k & E & _)|(k & E & E2)].
    + apply (f_equal (@length ascii)) in E. rewrite app_length in E. cbn in *. lia.
    + rewrite E in C. rewrite skipn_app, skipn_all, Nat.sub_diag in C. cbn [skipn app] in C.
      assert (Q : contains US2 n = true); [|congruence]. apply (prefix_contains US2 k n C). apply has_prefix_iff. exists t. exact E2.
Qed.
(** The marker after a name: the word cannot start in the name. *)
Lemma marker_after : forall w n M, has_prefix US2 w = true -> contains US2 n = false -> contains w M = false ->
  compatible (tl w) M = false -> contains w (n ++ M) = false.
Proof.
  intros w n M W N CM T. destruct (contains w (n ++ M)) eqn:C; [|reflexivity]. exfalso. apply contains_iff in C. destruct C as (a & b & E).
  apply has_prefix_iff in W. destruct W as [w' W]. apply app_split in E. destruct E as [(k & -> & E)|(k & -> & E)].
  - (* starts in the name *)
    destruct k as [|c k].
    { cbn [app] in E. rewrite <- E in CM. assert (contains w (w ++ b) = true) by (apply contains_iff; exists [], b; reflexivity). congruence. }
    subst w. cbn [app] in E. injection E as E1 E2. subst c. destruct k as [|c k].
    + cbn [app] in E2. change (tl (US2 ++ w')) with ("_" :: w') in T.
      assert (Q := compatible_of ("_" :: w') M b []). rewrite app_nil_r in Q. specialize (Q E2). congruence.
    + cbn [app] in E2. injection E2 as E2 _. subst c. assert (Q : contains US2 (a ++ "_" :: "_" :: k) = true); [|congruence].
      apply contains_iff. exists a, k. reflexivity.
  - rewrite E in CM. assert (contains w (k ++ w ++ b) = true) by (apply contains_iff; exists k, b; reflexivity). congruence.
Qed.
Lemma keys_shape : forall w, In w keys -> has_prefix US2 w = true /\ contains US2 w = true.
Proof. intros w I. vm_compute in I. repeat (destruct I as [<-|I]; [split; reflexivity|]). destruct I. Qed.

(** *** Translated names *)
Lemma restore_name : forall n, contains US2 n = false -> restore_words n = n.
Proof.
  intros n N. apply restore_id. intros w I. destruct (keys_shape w I) as [_ C]. exact (marker_before w n [] eq_refl C N).
Qed.
Lemma restore_marked : forall M x n, In (M, x) [($"__REPL_0__", $"$$"); (dot_rep, $"."); (global_rep, $"$$.")] -> contains US2 n = false -> restore_words (M ++ n) = x ++ n.
Proof.
  intros M x n I N.
  assert (NO : forall w, In w keys -> contains w n = false) by (intros w J; destruct (keys_shape w J) as [_ C]; exact (marker_before w n [] eq_refl C N)).
  assert (NX : forall w x, In w keys -> tail_check w x = true -> contains w (x ++ n) = false).
  { intros w y J T. destruct (keys_shape w J) as [_ C]. exact (marker_before w n y T C N). }
  assert (XX : forall x, forallb (fun w => tail_check w x) keys = true -> forall l, (forall k v, In (k, v) l -> In k keys) -> replace_each l (x ++ n) = x ++ n).
  { intros y T l L. apply replace_each_id. intros (k, v) J. cbn [fst]. rewrite forallb_forall in T. apply NX; [|apply T]; exact (L k v J). }
  assert (RK : forall k v, In (k, v) (map (fun kv => (snd kv, fst kv)) RazorWordsModel.reserved) -> In k keys).
  { intros k v J. unfold keys. apply in_or_app. left. exact (in_keys k v J). }
  assert (K0 : In $"__REPL_0__" keys) by (vm_compute; tauto). assert (K1 : In dot_rep keys) by (vm_compute; tauto). assert (K2 : In global_rep keys) by (vm_compute; tauto).
  unfold restore_words. destruct I as [E|[E|[E|[]]]]; injection E as <- <-.
  - rewrite replace_all_sep by discriminate. rewrite (replace_all_no _ _ n (NO _ K0)). rewrite XX; [|vm_compute; reflexivity | exact RK].
    rewrite (replace_all_no dot_rep); [|apply NX; [exact K1 | vm_compute; reflexivity]]. rewrite replace_all_no; [reflexivity|]. apply NX; [exact K2 | vm_compute; reflexivity].
  - rewrite (replace_all_no $"__REPL_0__"); [|apply NX; [exact K0 | vm_compute; reflexivity]].
    rewrite replace_each_id.
    2:{ intros (k, v) J. cbn [fst]. apply NX; [exact (RK k v J)|]. vm_compute in J. repeat (destruct J as [J|J]; [injection J as <- _; vm_compute; reflexivity|]). destruct J. }
    rewrite replace_all_sep by discriminate. rewrite (replace_all_no _ _ n (NO _ K1)). rewrite replace_all_no; [reflexivity|]. apply NX; [exact K2 | vm_compute; reflexivity].
  - rewrite (replace_all_no $"__REPL_0__"); [|apply NX; [exact K0 | vm_compute; reflexivity]].
    rewrite replace_each_id.
    2:{ intros (k, v) J. cbn [fst]. apply NX; [exact (RK k v J)|]. vm_compute in J. repeat (destruct J as [J|J]; [injection J as <- _; vm_compute; reflexivity|]). destruct J. }
    rewrite (replace_all_no dot_rep); [|apply NX; [exact K1 | vm_compute; reflexivity]].
    rewrite replace_all_sep by discriminate. rewrite (replace_all_no _ _ n (NO _ K2)). reflexivity.
Qed.
Lemma restore_call : forall n, contains US2 n = false -> restore_words (n ++ func_call) = n ++ func_call.
Proof.
  intros n N. apply restore_id. intros w I. destruct (keys_shape w I) as [P _]. apply marker_after; [exact P | exact N | |];
    vm_compute in I; repeat (destruct I as [<-|I]; [vm_compute; reflexivity|]); destruct I.
Qed.
