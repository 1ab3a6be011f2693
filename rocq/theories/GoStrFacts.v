(** Facts about the string model of [GoStr]. *)
From Coq Require Import String Ascii List ZArith NArith Bool Lia Permutation Sorted.
From Coq Require DecimalString DecimalZ DecimalFacts.
From Verif Require Import GoStr.
Import ListNotations.

(** ** Equality and order *)

Lemma ascii_eqb_eq a b : Ascii.eqb a b = true <-> a = b.
Proof. apply Ascii.eqb_eq. Qed.

Lemma ascii_eqb_refl a : Ascii.eqb a a = true.
Proof. apply Ascii.eqb_refl. Qed.

Lemma str_eqb_eq a b : str_eqb a b = true <-> a = b.
Proof.
  revert b; induction a as [|x a IH]; intros [|y b]; simpl; split; try congruence; intros H.
  - apply andb_true_iff in H as [H1 H2]. apply Ascii.eqb_eq in H1. apply IH in H2. congruence.
  - injection H as -> ->. rewrite Ascii.eqb_refl. simpl. apply IH. reflexivity.
Qed.

Lemma str_eqb_refl a : str_eqb a a = true.
Proof. apply str_eqb_eq. reflexivity. Qed.

Lemma str_eqb_neq a b : str_eqb a b = false <-> a <> b.
Proof.
  destruct (str_eqb a b) eqn:E; split; intros H; try congruence.
  - apply str_eqb_eq in E. contradiction.
  - intros ->. rewrite str_eqb_refl in E. discriminate.
Qed.

Lemma str_eqb_sym a b : str_eqb a b = str_eqb b a.
Proof.
  destruct (str_eqb a b) eqn:E.
  - apply str_eqb_eq in E. subst. symmetry. apply str_eqb_refl.
  - symmetry. apply str_eqb_neq. apply str_eqb_neq in E. congruence.
Qed.

Lemma str_eqb_spec a b : reflect (a = b) (str_eqb a b).
Proof. destruct (str_eqb a b) eqn:E; constructor; [apply str_eqb_eq|apply str_eqb_neq]; assumption. Qed.

Lemma str_eq_dec (a b : str) : {a = b} + {a <> b}.
Proof. destruct (str_eqb_spec a b); [left|right]; assumption. Defined.

Lemma N_of_ascii_inj a b : N_of_ascii a = N_of_ascii b -> a = b.
Proof. intros H. rewrite <- (ascii_N_embedding a), <- (ascii_N_embedding b), H. reflexivity. Qed.

Lemma str_leb_refl a : str_leb a a = true.
Proof. induction a; simpl; auto. rewrite N.ltb_irrefl. assumption. Qed.

Lemma str_leb_total a b : str_leb a b = true \/ str_leb b a = true.
Proof.
  revert b; induction a as [|x a IH]; intros [|y b]; simpl; auto.
  destruct (N.ltb_spec (N_of_ascii x) (N_of_ascii y)); auto.
  destruct (N.ltb_spec (N_of_ascii y) (N_of_ascii x)); auto.
Qed.

Lemma str_leb_antisym a b : str_leb a b = true -> str_leb b a = true -> a = b.
Proof.
  revert b; induction a as [|x a IH]; intros [|y b]; simpl; auto; try congruence.
  destruct (N.ltb_spec (N_of_ascii x) (N_of_ascii y)) as [H|H];
  destruct (N.ltb_spec (N_of_ascii y) (N_of_ascii x)) as [H'|H']; try lia; try congruence.
  intros H1 H2. f_equal; auto. apply N_of_ascii_inj. lia.
Qed.

Lemma str_leb_trans a b c : str_leb a b = true -> str_leb b c = true -> str_leb a c = true.
Proof.
  revert b c; induction a as [|x a IH]; intros [|y b] [|z c]; simpl; auto; try congruence.
  destruct (N.ltb_spec (N_of_ascii x) (N_of_ascii y)) as [H|H];
  destruct (N.ltb_spec (N_of_ascii y) (N_of_ascii x)) as [H'|H'];
  destruct (N.ltb_spec (N_of_ascii y) (N_of_ascii z)) as [G|G];
  destruct (N.ltb_spec (N_of_ascii z) (N_of_ascii y)) as [G'|G'];
  destruct (N.ltb_spec (N_of_ascii x) (N_of_ascii z)) as [F|F];
  destruct (N.ltb_spec (N_of_ascii z) (N_of_ascii x)) as [F'|F']; try lia; try congruence.
  apply IH.
Qed.

Lemma str_ltb_irrefl a : str_ltb a a = false.
Proof. unfold str_ltb. rewrite str_leb_refl. reflexivity. Qed.

(** ** Insertion sort *)

Lemma insert_by_perm {A} (leb : A -> A -> bool) x l : Permutation (insert_by leb x l) (x :: l).
Proof.
  induction l as [|y l IH]; simpl; auto.
  destruct (leb x y); auto.
  eapply Permutation_trans; [apply perm_skip, IH|apply perm_swap].
Qed.

Lemma isort_perm {A} (leb : A -> A -> bool) l : Permutation (isort leb l) l.
Proof.
  induction l; simpl; auto.
  eapply Permutation_trans; [apply insert_by_perm|]. auto.
Qed.

Lemma insert_by_sorted {A} (leb : A -> A -> bool)
  (tot : forall a b, leb a b = true \/ leb b a = true) x l :
  Sorted (fun a b => leb a b = true) l -> Sorted (fun a b => leb a b = true) (insert_by leb x l).
Proof.
  intros H. induction l as [|y l IH]; simpl.
  - constructor; auto.
  - destruct (leb x y) eqn:E.
    + constructor; auto.
    + inversion H as [|? ? Hs Hr]; subst.
      constructor; [apply IH; assumption|].
      destruct (tot x y) as [C|C]; [congruence|].
      destruct l as [|z l]; simpl; [constructor; assumption|].
      destruct (leb x z); constructor; auto. inversion Hr; assumption.
Qed.

Lemma isort_sorted {A} (leb : A -> A -> bool)
  (tot : forall a b, leb a b = true \/ leb b a = true) l :
  Sorted (fun a b => leb a b = true) (isort leb l).
Proof. induction l; simpl; [constructor|]. apply insert_by_sorted; assumption. Qed.

Lemma sorted_perm_unique {A} (R : A -> A -> Prop)
  (trans : forall a b c, R a b -> R b c -> R a c)
  (antisym : forall a b, R a b -> R b a -> a = b) l1 l2 :
  Sorted R l1 -> Sorted R l2 -> Permutation l1 l2 -> l1 = l2.
Proof.
  intros S1 S2. apply Sorted_StronglySorted in S1; [|exact trans].
  apply Sorted_StronglySorted in S2; [|exact trans].
  revert l2 S2. induction S1 as [|a l1 S1 IH F1]; intros l2 S2 P.
  - apply Permutation_nil in P. subst. reflexivity.
  - destruct S2 as [|b l2 S2 F2].
    + apply Permutation_sym, Permutation_nil in P. discriminate.
    + assert (a = b) as ->.
      { assert (Ha : In a (b :: l2)) by (eapply Permutation_in; [exact P|left; reflexivity]).
        assert (Hb : In b (a :: l1)) by (eapply Permutation_in; [apply Permutation_sym, P|left; reflexivity]).
        destruct Ha as [Ha|Ha]; [congruence|]. destruct Hb as [Hb|Hb]; [congruence|].
        rewrite Forall_forall in F1, F2. apply antisym; auto. }
      f_equal. apply IH; auto. eapply Permutation_cons_inv; eauto.
Qed.

Lemma sort_strings_perm l : Permutation (sort_strings l) l.
Proof. apply isort_perm. Qed.

Lemma sort_strings_sorted l : Sorted (fun a b => str_leb a b = true) (sort_strings l).
Proof. apply isort_sorted, str_leb_total. Qed.

Lemma sort_strings_unique l1 l2 : Permutation l1 l2 -> sort_strings l1 = sort_strings l2.
Proof.
  intros P. apply (sorted_perm_unique (fun a b => str_leb a b = true)).
  - apply str_leb_trans.
  - apply str_leb_antisym.
  - apply sort_strings_sorted.
  - apply sort_strings_sorted.
  - eapply Permutation_trans; [apply sort_strings_perm|].
    eapply Permutation_trans; [exact P|]. apply Permutation_sym, sort_strings_perm.
Qed.

Lemma sort_strings_fixed l : Sorted (fun a b => str_leb a b = true) l -> sort_strings l = l.
Proof.
  intros H. apply (sorted_perm_unique (fun a b => str_leb a b = true)); auto.
  - apply str_leb_trans.
  - apply str_leb_antisym.
  - apply sort_strings_sorted.
  - apply sort_strings_perm.
Qed.

(** ** Prefixes *)

Lemma has_prefix_app p s : has_prefix p (p ++ s) = true.
Proof. induction p; simpl; auto. rewrite Ascii.eqb_refl. assumption. Qed.

Lemma has_prefix_iff p s : has_prefix p s = true <-> exists t, s = p ++ t.
Proof.
  split.
  - revert s; induction p as [|x p IH]; intros s H; simpl in *; eauto.
    destruct s as [|y s]; [discriminate|].
    apply andb_true_iff in H as [H1 H2]. apply Ascii.eqb_eq in H1. subst.
    destruct (IH _ H2) as [t ->]. eauto.
  - intros [t ->]. apply has_prefix_app.
Qed.

Lemma has_prefix_nil s : has_prefix [] s = true.
Proof. reflexivity. Qed.

Lemma has_prefix_length p s : has_prefix p s = true -> length p <= length s.
Proof. intros H. apply has_prefix_iff in H as [t ->]. rewrite app_length. lia. Qed.

Lemma has_prefix_firstn p s : has_prefix p s = true -> firstn (length p) s = p.
Proof.
  intros H. apply has_prefix_iff in H as [t ->].
  rewrite firstn_app, firstn_all, Nat.sub_diag, firstn_O, app_nil_r. reflexivity.
Qed.

Lemma has_prefix_split p s : has_prefix p s = true -> s = p ++ skipn (length p) s.
Proof.
  intros H. rewrite <- (firstn_skipn (length p) s) at 1. rewrite has_prefix_firstn; auto.
Qed.

Lemma has_suffix_iff p s : has_suffix p s = true <-> exists t, s = t ++ p.
Proof.
  unfold has_suffix. rewrite has_prefix_iff. split; intros [t H].
  - exists (rev t). apply (f_equal (@rev ascii)) in H. rewrite rev_involutive, rev_app_distr, rev_involutive in H. assumption.
  - exists (rev t). subst. rewrite rev_app_distr. reflexivity.
Qed.

Lemma trim_suffix_app t p : trim_suffix p (t ++ p) = t.
Proof.
  unfold trim_suffix. destruct (has_suffix p (t ++ p)) eqn:E.
  - rewrite app_length. replace (length t + length p - length p) with (length t) by lia.
    rewrite firstn_app, firstn_all, Nat.sub_diag, firstn_O, app_nil_r. reflexivity.
  - assert (has_suffix p (t ++ p) = true) by (apply has_suffix_iff; eauto). congruence.
Qed.

Lemma trim_suffix_no t p : has_suffix p t = false -> trim_suffix p t = t.
Proof. unfold trim_suffix. intros ->. reflexivity. Qed.

(** ** Index *)

Lemma index_Some sub s n :
  index sub s = Some n ->
  exists a b, s = a ++ sub ++ b /\ length a = n /\
              forall k, k < n -> has_prefix sub (skipn k s) = false.
Proof.
  revert n; induction s as [|c s IH]; intros n H; simpl in H.
  - destruct (has_prefix sub []) eqn:E; [|discriminate]. injection H as <-.
    apply has_prefix_iff in E as [t E]. exists [], t. simpl. split; auto. split; auto. intros; lia.
  - destruct (has_prefix sub (c :: s)) eqn:E.
    + injection H as <-. apply has_prefix_iff in E as [t E]. exists [], t. simpl. split; auto. split; auto. intros; lia.
    + destruct (index sub s) as [m|] eqn:I; [|discriminate]. simpl in H. injection H as <-.
      destruct (IH m eq_refl) as (a & b & -> & L & F).
      exists (c :: a), b. simpl. split; auto. split; auto.
      intros [|k] Hk; simpl; auto. apply F. lia.
Qed.

Lemma index_None sub s : index sub s = None <-> forall k, k <= length s -> has_prefix sub (skipn k s) = false.
Proof.
  induction s as [|c s IH]; simpl.
  - destruct (has_prefix sub []) eqn:E; split; try congruence.
    + intros H. specialize (H 0 (Nat.le_refl 0)). simpl in H. congruence.
    + intros _ k _. rewrite skipn_nil. assumption.
  - destruct (has_prefix sub (c :: s)) eqn:E.
    + split; [discriminate|]. intros H. specialize (H 0 ltac:(lia)). simpl in H. congruence.
    + destruct (index sub s) eqn:I; simpl.
      * split; [discriminate|]. intros H. destruct IH as [_ IH].
        assert (Some n = None) by (apply IH; intros k Hk; apply (H (S k)); lia). discriminate.
      * split; auto. intros _ [|k] Hk; simpl; auto. apply IH; auto. lia.
Qed.

Lemma contains_iff sub s : contains sub s = true <-> exists a b, s = a ++ sub ++ b.
Proof.
  unfold contains. destruct (index sub s) as [n|] eqn:I.
  - split; auto. intros _. apply index_Some in I as (a & b & H & _). eauto.
  - split; [discriminate|]. intros (a & b & ->).
    rewrite index_None in I. specialize (I (length a)).
    rewrite skipn_app, skipn_all, Nat.sub_diag in I. simpl in I. rewrite has_prefix_app in I.
    assert (true = false); [apply I|discriminate]. rewrite app_length. lia.
Qed.

Lemma contains_false_index sub s : contains sub s = false <-> index sub s = None.
Proof. unfold contains. destruct (index sub s); split; congruence. Qed.

Lemma contains_app_false sub a b : contains sub (a ++ b) = false -> contains sub a = false /\ contains sub b = false.
Proof.
  intros H. split.
  - destruct (contains sub a) eqn:E; auto. apply contains_iff in E as (x & y & ->).
    rewrite <- H. symmetry. apply contains_iff. exists x, (y ++ b). rewrite <- !app_assoc. reflexivity.
  - destruct (contains sub b) eqn:E; auto. apply contains_iff in E as (x & y & ->).
    rewrite <- H. symmetry. apply contains_iff. exists (a ++ x), y. rewrite <- !app_assoc. reflexivity.
Qed.

(** Leftmost occurrence from its characterisation. *)
Lemma index_unique sub s n :
  has_prefix sub (skipn n s) = true -> n <= length s ->
  (forall k, k < n -> has_prefix sub (skipn k s) = false) ->
  index sub s = Some n.
Proof.
  revert n; induction s as [|c s IH]; intros n H L F.
  - simpl in L. assert (n = 0) as -> by lia. simpl in *. rewrite H. reflexivity.
  - destruct n as [|n].
    + simpl skipn in H. cbn [index]. rewrite H. reflexivity.
    + cbn [index]. pose proof (F 0 ltac:(lia)) as F0. cbn [skipn] in F0. rewrite F0.
      rewrite (IH n); auto.
      * simpl in L. lia.
      * intros k Hk. apply (F (S k)). lia.
Qed.

(** ** Single byte search *)

Lemma index_byte_None c s : index_byte c s = None <-> ~ In c s.
Proof.
  induction s as [|x s IH]; simpl.
  - tauto.
  - destruct (Ascii.eqb_spec x c).
    + split; [discriminate|]. intros H. exfalso. auto.
    + destruct (index_byte c s); simpl.
      * split; [discriminate|]. intros H. destruct IH as [_ IH]. exfalso.
        assert (Some n0 = None) by (apply IH; tauto). discriminate.
      * split; auto. intros _ [?|?]; [congruence|]. tauto.
Qed.

Lemma index_byte_Some c s n : index_byte c s = Some n ->
  exists a b, s = a ++ c :: b /\ length a = n /\ ~ In c a.
Proof.
  revert n; induction s as [|x s IH]; intros n H; simpl in H; [discriminate|].
  destruct (Ascii.eqb_spec x c).
  - injection H as <-. subst. exists [], s. simpl. tauto.
  - destruct (index_byte c s) as [m|]; [|discriminate]. injection H as <-.
    destruct (IH m eq_refl) as (a & b & -> & L & N).
    exists (x :: a), b. simpl. split; auto. split; auto. intros [?|?]; auto.
Qed.

Lemma has_prefix_1 c s : has_prefix [c] s = match s with [] => false | x :: _ => Ascii.eqb c x end.
Proof. destruct s; simpl; auto. rewrite andb_true_r. reflexivity. Qed.

Lemma contains_byte_In c s : contains_byte c s = true <-> In c s.
Proof.
  unfold contains_byte. destruct (index_byte c s) eqn:E.
  - apply index_byte_Some in E as (a & b & -> & _). split; auto. intros _. rewrite in_app_iff. simpl. auto.
  - apply index_byte_None in E. split; [discriminate|]. contradiction.
Qed.

Lemma contains_1_In c s : contains [c] s = true <-> In c s.
Proof.
  rewrite contains_iff. split.
  - intros (a & b & ->). rewrite in_app_iff. simpl. auto.
  - intros H. apply in_split in H as (a & b & ->). exists a, b. reflexivity.
Qed.

Lemma contains_1_notIn c s : contains [c] s = false <-> ~ In c s.
Proof.
  rewrite <- contains_1_In. destruct (contains [c] s); split; congruence.
Qed.

(** ** Split and join *)

Lemma split_go_skip sep s k cur : split_go sep s k cur = split_go sep (skipn k s) 0 cur.
Proof.
  revert k; induction s as [|c s IH]; intros [|k]; simpl; auto.
Qed.

Lemma split_go_cur sep s cur x l :
  split_go sep s 0 [] = x :: l -> split_go sep s 0 cur = (rev cur ++ x) :: l.
Proof.
  revert cur x l. induction s as [|c s IH]; intros cur x l H.
  - simpl in *. injection H as <- <-. rewrite app_nil_r. reflexivity.
  - cbn [split_go] in *. destruct (has_prefix sep (c :: s)) eqn:E.
    + injection H as <- <-. rewrite app_nil_r. reflexivity.
    + destruct (split_go sep s 0 []) as [|y l'] eqn:F.
      * exfalso. destruct s; simpl in F; [discriminate|].
        destruct (has_prefix sep (a :: s)); [discriminate|].
        clear -F. revert F. generalize [a]. induction s; intros; simpl in *; [discriminate|].
        destruct (has_prefix sep (a0 :: s)); [discriminate|]. eapply IHs; eauto.
      * rewrite (IH [c] _ _ eq_refl) in H. injection H as <- <-.
        rewrite (IH (c :: cur) _ _ eq_refl). simpl. rewrite <- app_assoc. reflexivity.
Qed.

Lemma split_go_nonnil sep s k cur : split_go sep s k cur <> [].
Proof.
  revert k cur; induction s as [|c s IH]; intros k cur; simpl; [discriminate|].
  destruct k; auto. destruct (has_prefix sep (c :: s)); [discriminate|auto].
Qed.

Lemma split_nonnil sep s : split sep s <> [].
Proof. apply split_go_nonnil. Qed.

Lemma split_nil sep : split sep [] = [[]].
Proof. reflexivity. Qed.

Lemma split_eq_nosep sep c s : has_prefix sep (c :: s) = false ->
  split sep (c :: s) = match split sep s with [] => [] | x :: l => (c :: x) :: l end.
Proof.
  intros H. unfold split. cbn [split_go]. rewrite H.
  destruct (split_go sep s 0 []) as [|x l] eqn:E; [exfalso; eapply split_go_nonnil; eauto|].
  rewrite (split_go_cur _ _ _ _ _ E). reflexivity.
Qed.

Lemma split_eq_sep sep s : sep <> [] -> split sep (sep ++ s) = [] :: split sep s.
Proof.
  intros H. destruct sep as [|d sep]; [congruence|].
  unfold split. cbn [app split_go].
  change (d :: sep ++ s) with ((d :: sep) ++ s). rewrite has_prefix_app.
  rewrite split_go_skip. cbn [length]. rewrite Nat.sub_succ, Nat.sub_0_r.
  rewrite skipn_app, skipn_all, Nat.sub_diag. reflexivity.
Qed.

(** Induction principle following the scan of [split]. *)
Lemma split_scan_ind (sep : str) (Hsep : sep <> []) (P : str -> Prop) :
  P [] ->
  (forall s, P s -> P (sep ++ s)) ->
  (forall c s, has_prefix sep (c :: s) = false -> P s -> P (c :: s)) ->
  forall s, P s.
Proof.
  intros H0 Hs Hc s.
  remember (length s) as n eqn:L. assert (length s <= n) as L' by lia. clear L.
  revert s L'. induction n as [|n IH]; intros s L.
  - destruct s; [assumption|simpl in L; lia].
  - destruct s as [|c s]; [assumption|].
    destruct (has_prefix sep (c :: s)) eqn:E.
    + apply has_prefix_iff in E as [t E]. rewrite E. apply Hs. apply IH.
      apply (f_equal (@length ascii)) in E. rewrite app_length in E. simpl in E, L.
      destruct sep; [congruence|]. simpl in E. lia.
    + apply Hc; auto. apply IH. simpl in L. lia.
Qed.

Lemma join_cons sep x l : l <> [] -> join sep (x :: l) = x ++ sep ++ join sep l.
Proof. destruct l; [congruence|reflexivity]. Qed.

Lemma join_split sep s : sep <> [] -> join sep (split sep s) = s.
Proof.
  intros H. induction s as [|s IH|c s E IH] using (split_scan_ind sep H); auto.
  - rewrite split_eq_sep by assumption. rewrite join_cons by apply split_nonnil. rewrite IH. reflexivity.
  - rewrite split_eq_nosep by assumption.
    destruct (split sep s) as [|x l] eqn:F; [exfalso; eapply split_nonnil; eauto|].
    destruct l; simpl in *; congruence.
Qed.

Lemma split_no sep s : contains sep s = false -> split sep s = [s].
Proof.
  induction s as [|c s IH]; intros H; [reflexivity|].
  rewrite split_eq_nosep.
  - rewrite IH; [reflexivity|]. change (c :: s) with ([c] ++ s) in H. apply contains_app_false in H. tauto.
  - destruct (has_prefix sep (c :: s)) eqn:E; auto.
    apply has_prefix_iff in E as [t E]. rewrite <- H. symmetry. apply contains_iff. exists [], t. exact E.
Qed.

(** Splitting [a ++ sep ++ b] when the first occurrence is right after [a]. *)
Lemma split_first sep a b : sep <> [] ->
  (forall k, k < length a -> has_prefix sep (skipn k (a ++ sep ++ b)) = false) ->
  split sep (a ++ sep ++ b) = a :: split sep b.
Proof.
  intros Hs. induction a as [|c a IH]; intros H.
  - exact (split_eq_sep sep b Hs).
  - change ((c :: a) ++ sep ++ b) with (c :: (a ++ sep ++ b)). rewrite split_eq_nosep.
    + rewrite IH; [reflexivity|]. intros k Hk. apply (H (S k)). simpl. lia.
    + apply (H 0). simpl. lia.
Qed.

Lemma split_index_some sep s n : sep <> [] -> index sep s = Some n ->
  split sep s = firstn n s :: split sep (skipn (n + length sep) s).
Proof.
  intros Hs I. apply index_Some in I as (a & b & -> & <- & F).
  rewrite split_first by assumption.
  rewrite firstn_app, firstn_all, Nat.sub_diag, firstn_O, app_nil_r.
  f_equal. f_equal.
  rewrite app_assoc, skipn_app.
  rewrite (skipn_all2 (a ++ sep)) by (rewrite app_length; lia).
  rewrite app_length, Nat.sub_diag. reflexivity.
Qed.

Lemma split_index_none sep s : index sep s = None -> split sep s = [s].
Proof. intros H. apply split_no. apply contains_false_index. assumption. Qed.

(** Single byte separators. *)

Lemma split1_cons_sep c s : split [c] (c :: s) = [] :: split [c] s.
Proof. apply (split_eq_sep [c] s). discriminate. Qed.

Lemma split1_cons_other c d s : c <> d ->
  split [c] (d :: s) = match split [c] s with [] => [] | x :: l => (d :: x) :: l end.
Proof.
  intros H. apply split_eq_nosep. rewrite has_prefix_1. apply Ascii.eqb_neq. assumption.
Qed.

Lemma split1_app c a s : ~ In c a -> split [c] (a ++ c :: s) = a :: split [c] s.
Proof.
  induction a as [|d a IH]; intros H; simpl app.
  - apply split1_cons_sep.
  - rewrite split1_cons_other by (intros ->; apply H; left; reflexivity).
    rewrite IH; [reflexivity|]. intros G. apply H. right. assumption.
Qed.

Lemma split1_notIn c a : ~ In c a -> split [c] a = [a].
Proof. intros H. apply split_no. apply contains_1_notIn. assumption. Qed.

Lemma split1_join c l : l <> [] -> Forall (fun x => ~ In c x) l -> split [c] (join [c] l) = l.
Proof.
  intros N F. induction F as [|x l Hx F IH]; [congruence|].
  destruct l as [|y l].
  - simpl. apply split1_notIn. assumption.
  - rewrite join_cons by discriminate. change ([c] ++ join [c] (y :: l)) with (c :: join [c] (y :: l)).
    rewrite split1_app by assumption.
    rewrite IH by discriminate. reflexivity.
Qed.

Lemma split1_fields c s : Forall (fun x => ~ In c x) (split [c] s).
Proof.
  induction s as [|d s IH].
  - repeat constructor. simpl. tauto.
  - destruct (ascii_dec c d) as [->|D].
    + rewrite split1_cons_sep. constructor; auto.
    + rewrite split1_cons_other by assumption.
      destruct (split [c] s) as [|x l] eqn:E; [constructor|].
      inversion IH; subst. constructor; auto. simpl. intros [?|?]; congruence || tauto.
Qed.

Lemma split1_app_gen c a b :
  split [c] (a ++ b) =
  match split [c] b with
  | [] => []
  | y :: m => match rev (split [c] a) with
              | [] => []
              | x :: r => rev r ++ (x ++ y) :: m
              end
  end.
Proof.
  destruct (split [c] b) as [|y m] eqn:Eb; [exfalso; eapply split_nonnil; eauto|].
  induction a as [|d a IH].
  - simpl. rewrite Eb. reflexivity.
  - simpl app. destruct (ascii_dec c d) as [->|D].
    + rewrite !split1_cons_sep, IH. simpl rev.
      destruct (rev (split [d] a)) as [|x r] eqn:Er.
      * exfalso. apply (f_equal (@rev _)) in Er. rewrite rev_involutive in Er. simpl in Er. eapply split_nonnil; eauto.
      * simpl. rewrite rev_app_distr. reflexivity.
    + rewrite !split1_cons_other by assumption. rewrite IH.
      destruct (split [c] a) as [|z l] eqn:Ea; [exfalso; eapply split_nonnil; eauto|].
      simpl rev. destruct (rev l) as [|x r] eqn:Er; simpl.
      * apply (f_equal (@rev _)) in Er. rewrite rev_involutive in Er. simpl in Er. subst. reflexivity.
      * rewrite !rev_app_distr. simpl. reflexivity.
Qed.

Lemma split1_length c s : length (split [c] s) = S (count_occ ascii_dec s c).
Proof.
  induction s as [|d s IH]; [reflexivity|].
  destruct (ascii_dec c d) as [->|D].
  - rewrite split1_cons_sep. simpl. destruct (ascii_dec d d); congruence.
  - rewrite split1_cons_other by assumption. simpl. destruct (ascii_dec d c); [congruence|].
    destruct (split [c] s); simpl in *; congruence.
Qed.

(** ** Replace *)

Lemma replace_all_no old new s : contains old s = false -> replace_all old new s = s.
Proof. intros H. unfold replace_all. rewrite split_no by assumption. reflexivity. Qed.

Lemma replace_all_sep old new s : old <> [] ->
  replace_all old new (old ++ s) = new ++ replace_all old new s.
Proof.
  intros H. unfold replace_all. rewrite split_eq_sep by assumption.
  rewrite join_cons by apply split_nonnil. reflexivity.
Qed.

Lemma replace_all_cons old new c s : has_prefix old (c :: s) = false ->
  replace_all old new (c :: s) = c :: replace_all old new s.
Proof.
  intros H. unfold replace_all. rewrite split_eq_nosep by assumption.
  destruct (split old s) as [|x l] eqn:E; [exfalso; eapply split_nonnil; eauto|].
  destruct l; reflexivity.
Qed.

Lemma replace_all_nil old new : replace_all old new [] = [].
Proof. reflexivity. Qed.

(** ** Decimal numbers *)

Lemma lit_inj a b : lit a = lit b -> a = b.
Proof.
  unfold lit. intros H. rewrite <- (string_of_list_ascii_of_string a), H.
  apply string_of_list_ascii_of_string.
Qed.

Lemma Z_to_int_norm z : DecimalString.NilZero.int_of_string (DecimalString.NilZero.string_of_int (Z.to_int z)) = Some (Z.to_int z).
Proof.
  apply DecimalString.NilZero.isi; destruct z; simpl; try discriminate.
  - intros H. injection H as H. apply (f_equal Pos.of_uint) in H.
    rewrite DecimalPos.Unsigned.of_to in H. discriminate.
  - intros H. injection H as H. apply (f_equal Pos.of_uint) in H.
    rewrite DecimalPos.Unsigned.of_to in H. discriminate.
Qed.

Lemma itoa_inj a b : itoa a = itoa b -> a = b.
Proof.
  unfold itoa. intros H. apply lit_inj in H.
  apply (f_equal DecimalString.NilZero.int_of_string) in H. rewrite !Z_to_int_norm in H.
  injection H as H. apply DecimalZ.to_int_inj. assumption.
Qed.

(** ** Miscellaneous *)

Lemma mem_str_In x l : mem_str x l = true <-> In x l.
Proof.
  induction l as [|y l IH]; simpl; [split; [discriminate|tauto]|].
  rewrite orb_true_iff, str_eqb_eq, IH. split; intros [?|?]; auto.
Qed.

Lemma repeat_str_length s n : length (repeat_str s n) = n * length s.
Proof. induction n; simpl; auto. rewrite app_length. lia. Qed.

Lemma take_drop_while p s : take_while p s ++ drop_while p s = s.
Proof. induction s; simpl; auto. destruct (p a); simpl; congruence. Qed.

Lemma take_while_all p s : Forall (fun c => p c = true) (take_while p s).
Proof. induction s; simpl; auto. destruct (p a) eqn:E; auto. Qed.

Lemma drop_while_head p s : match drop_while p s with [] => True | c :: _ => p c = false end.
Proof. induction s; simpl; auto. destruct (p a) eqn:E; auto. Qed.

Lemma drop_while_nil p s : drop_while p s = [] <-> Forall (fun c => p c = true) s.
Proof.
  induction s; simpl.
  - split; auto.
  - destruct (p a) eqn:E.
    + rewrite IHs. split; intros H; [constructor|inversion H]; auto.
    + split; [discriminate|]. intros H. inversion H. congruence.
Qed.
