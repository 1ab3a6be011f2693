(** Lemmas on the list of functions. *)
From Coq Require Import String Ascii List ZArith NArith Bool PeanoNat Permutation Sorted Lia.
From Verif Require Import GoStr GoStrFacts Utf8 Utf8Facts ValueModel ValueFacts TextModel HclModel FuncsModel FuncsProofs HelpModel HelpSpec.
Import ListNotations.

Lemma occurs_cut : forall (f A B : str), ~ In " "%char f -> (exists x y, A ++ " "%char :: B = x ++ f ++ y) -> (exists x y, A = x ++ f ++ y) \/ (exists x y, B = x ++ f ++ y).
Proof.
  intros f A B N (x & y & E). destruct (app_eq_app _ _ _ _ E) as (l & [(E1 & E2)|(E1 & E2)]).
  - destruct (app_eq_app _ _ _ _ E2) as (k & [(F1 & F2)|(F1 & F2)]).
    + destruct k as [|c k]; cbn [app] in F2.
      * left. exists x, []. rewrite !app_nil_r in *. subst. reflexivity.
      * injection F2 as <- F2. destruct N. rewrite F1. apply in_or_app. right. left. reflexivity.
    + left. exists x, k. rewrite E1, F1. reflexivity.
  - destruct l as [|c l]; cbn [app] in E2.
    + right. destruct f as [|c f]; [exists [], B; reflexivity|]. injection E2 as <- _. destruct N. left. reflexivity.
    + injection E2 as <- E2. right. exists l, y. exact E2.
Qed.
Lemma occurs_left : forall (f A B : str), (exists x y, A = x ++ f ++ y) -> exists x y, A ++ B = x ++ f ++ y.
Proof. intros f A B (x & y & ->). exists x, (y ++ B). rewrite <- !app_assoc. reflexivity. Qed.
Lemma occurs_right : forall (f A B : str), (exists x y, B = x ++ f ++ y) -> exists x y, A ++ B = x ++ f ++ y.
Proof. intros f A B (x & y & ->). exists (A ++ x), y. rewrite <- !app_assoc. reflexivity. Qed.

Lemma sort_ascending : forall l, NoDup l -> ascending (sort_strings l).
Proof.
  intros l N. assert (T : forall a b c, str_leb a b = true -> str_leb b c = true -> str_leb a c = true) by (intros a b c; apply str_leb_trans).
  pose proof (Permutation_NoDup (Permutation_sym (sort_strings_perm l)) N) as M. pose proof (sort_strings_sorted l) as SS. apply Sorted_StronglySorted in SS; [|intros a b c; apply T].
  unfold ascending. revert M SS. generalize (sort_strings l). intros r M SS. induction SS as [|x r SS IH FA]; [constructor|]. inversion M as [|? ? NI M']; subst. constructor; [exact (IH M')|].
  rewrite Forall_forall in *. intros y I. split; [exact (FA y I)|]. intros ->. exact (NI I).
Qed.
Lemma filter_ascending : forall f l, ascending l -> ascending (filter f l).
Proof.
  intros f l A. induction A as [|x l A IH FA]; [constructor|]. cbn [filter]. destruct (f x); [|exact IH]. constructor; [exact IH|]. rewrite Forall_forall in *. intros y I. apply filter_In in I. exact (FA y (proj1 I)).
Qed.
Lemma ascending_nodup : forall l, ascending l -> NoDup l.
Proof. intros l A. induction A as [|x l A IH FA]; constructor; [|exact IH]. intros I. rewrite Forall_forall in FA. destruct (FA x I) as (_ & N). exact (N eq_refl). Qed.

Section Help.
Context {F : Type}.
Variable lower : str -> str.
Variable tf : table F.
Hypothesis ND : NoDup (map fst tf).

Lemma keys_filter : forall f, NoDup (map fst (filter f tf)).
Proof.
  intros f. clear - ND. induction tf as [|(k & e) l IH]; [constructor|]. cbn [map fst] in ND. inversion ND as [|? ? N D]; subst. cbn [filter]. destruct (f (k, e)); [|exact (IH D)]. cbn [map fst]. constructor; [|exact (IH D)].
  intros I. apply N. apply in_map_iff in I. destruct I as (x & E & I). apply filter_In in I. apply in_map_iff. exists x. split; [exact E | exact (proj1 I)].
Qed.
Lemma all_ascending : ascending (get_functions tf true true).
Proof. apply sort_ascending, keys_filter. Qed.
Lemma all_in : forall k, In k (get_functions tf true true) <-> exists e, mget tf k = Some e.
Proof.
  intros k. destruct (list_spec tf true true ND) as (_ & L). rewrite L. split; [intros (e & E & _); exists e; exact E|]. intros (e & E). exists e. split; [exact E|]. destruct (e_is_alias e); reflexivity.
Qed.
Lemma filtered_ascending : forall all category detailed filters, ascending (filter_functions lower tf all category detailed filters).
Proof. intros. unfold filter_functions. destruct (all && _); [apply all_ascending | apply filter_ascending, all_ascending]. Qed.

Lemma join_occurs : spaced lower -> forall f l, ~ In " "%char (lower f) -> occurs lower f (join $" " l) -> l = [] \/ exists a, In a l /\ occurs lower f a.
Proof.
  intros SP f l N. induction l as [|x [|y l] IH]; intros O; [left; reflexivity | right; exists x; split; [left; reflexivity | exact O] |]. right.
  change (join $" " (x :: y :: l)) with (x ++ $" " ++ join $" " (y :: l)) in O. unfold occurs in O. rewrite SP in O. destruct (occurs_cut _ _ _ N O) as [X|X].
  - exists x. split; [left; reflexivity | exact X].
  - destruct (IH X) as [Z|(a & I & Oa)]; [discriminate Z|]. exists a. split; [right; exact I | exact Oa].
Qed.
Lemma join_has : spaced lower -> forall f l a, In a l -> occurs lower f a -> occurs lower f (join $" " l).
Proof.
  intros SP f l a. induction l as [|x [|y l] IH]; intros I O; [destruct I | destruct I as [->|[]]; exact O |]. change (join $" " (x :: y :: l)) with (x ++ $" " ++ join $" " (y :: l)). unfold occurs. rewrite SP.
  destruct I as [->|I]; [apply occurs_left; exact O | apply occurs_right, occurs_right; exact (IH I O)].
Qed.
Lemma search_has : spaced lower -> forall category detailed name (e : entry F) f, answers lower category detailed name e f -> contains (lower f) (search_text lower category detailed name e) = true.
Proof.
  intros SP category detailed name e f A. apply contains_iff. unfold search_text. destruct A as [A|[(a & I & A)|[(-> & A)|(-> & A)]]].
  - apply occurs_left. rewrite SP. apply occurs_left. exact A.
  - apply occurs_left. rewrite SP. apply occurs_right, occurs_right. exact (join_has SP f _ a I A).
  - apply occurs_right, occurs_left, occurs_right. exact A.
  - apply occurs_right, occurs_right, occurs_right. exact A.
Qed.
Lemma search_only : spaced lower -> forall category detailed name (e : entry F) f, ~ In " "%char (lower f) -> lower [] = [] -> contains (lower f) (search_text lower category detailed name e) = true -> answers lower category detailed name e f.
Proof.
  intros SP category detailed name e f N L0 C. apply contains_iff in C. unfold search_text in C. rewrite SP in C.
  assert (EMP : forall A : str, (exists x y, [] = x ++ lower f ++ y) -> exists x y, A = x ++ lower f ++ y).
  { intros A (x & y & E). symmetry in E. apply app_eq_nil in E. destruct E as (-> & E). apply app_eq_nil in E. destruct E as (E & ->). rewrite E. exists [], A. reflexivity. }
  assert (FRONT : (exists x y, lower name ++ $" " ++ lower (join $" " (e_aliases e)) = x ++ lower f ++ y) -> answers lower category detailed name e f).
  { intros X. destruct (occurs_cut _ _ _ N X) as [Y|Y]; [left; exact Y|]. destruct (join_occurs SP f _ N Y) as [Z|Z]; [|right; left; exact Z]. rewrite Z in Y. cbn [join] in Y. rewrite L0 in Y. left. apply EMP. exact Y. }
  destruct category, detailed; cbn [app] in C |- *.
  - destruct (occurs_cut _ _ _ N C) as [Y|Y]; [exact (FRONT Y)|]. destruct (occurs_cut _ _ _ N Y) as [Z|Z]; right; right; [left | right]; split; [reflexivity | exact Z | reflexivity | exact Z].
  - rewrite app_nil_r in C. destruct (occurs_cut _ _ _ N C) as [Y|Y]; [exact (FRONT Y)|]. right. right. left. split; [reflexivity | exact Y].
  - destruct (occurs_cut _ _ _ N C) as [Y|Y]; [exact (FRONT Y)|]. right. right. right. split; [reflexivity | exact Y].
  - rewrite app_nil_r in C. exact (FRONT C).
Qed.
Lemma filter_known : forall all category detailed filters k, In k (filter_functions lower tf all category detailed filters) <->
  exists e, mget tf k = Some e /\ (e_is_alias e = true -> all = true) /\ (filters = [] \/ exists f, In f filters /\ contains (lower f) (search_text lower category detailed k e) = true).
Proof.
  intros all category detailed filters k. unfold filter_functions. destruct (all && _) eqn:E.
  - apply andb_prop in E. destruct E as (-> & E). destruct filters; [|discriminate E]. rewrite all_in. split; intros (e & H); exists e; [split; [exact H|]; split; [reflexivity | left; reflexivity] | exact (proj1 H)].
  - rewrite filter_In, all_in. split.
    + intros ((e & M) & H). exists e. rewrite M in H. split; [exact M|]. destruct (e_is_alias e) eqn:EA, all; cbn [andb negb] in H; try discriminate H; (split; [first [reflexivity | discriminate]|]);
        (destruct filters as [|f0 fs]; [left; reflexivity|]; right; apply existsb_exists in H; destruct H as (g & I & C); apply in_map_iff in I; destruct I as (f & <- & I); exists f; split; [exact I | exact C]).
    + intros (e & M & A & H). split; [exists e; exact M|]. rewrite M. replace (e_is_alias e && negb all) with false by (destruct (e_is_alias e); [rewrite (A eq_refl); reflexivity | reflexivity]).
      destruct filters as [|f0 fs]; [reflexivity|]. destruct H as [H|(f & I & C)]; [discriminate H|]. apply existsb_exists. exists (lower f). split; [apply in_map; exact I | exact C].
Qed.
Lemma filter_found : spaced lower -> forall all category detailed filters k, asked lower tf all category detailed filters k -> In k (filter_functions lower tf all category detailed filters).
Proof.
  intros SP all category detailed filters k (e & M & A & H). apply filter_known. exists e. split; [exact M|]. split; [exact A|]. destruct H as [H|(f & I & H)]; [left; exact H|]. right. exists f. split; [exact I | exact (search_has SP _ _ _ _ _ H)].
Qed.
Lemma filter_only : spaced lower -> lower [] = [] -> forall all category detailed filters k, Forall (fun f => ~ In " "%char (lower f)) filters -> In k (filter_functions lower tf all category detailed filters) -> asked lower tf all category detailed filters k.
Proof.
  intros SP L0 all category detailed filters k N I. apply filter_known in I. destruct I as (e & M & A & H). exists e. split; [exact M|]. split; [exact A|]. destruct H as [H|(f & I & H)]; [left; exact H|]. right. exists f. split; [exact I|].
  rewrite Forall_forall in N. exact (search_only SP _ _ _ _ _ (N f I) L0 H).
Qed.

(** Groups *)
Lemma sget_mset : forall {A} (z : A) m k v k', sget z (mset m k v) k' = if str_eqb k' k then v else sget z m k'.
Proof.
  intros A z m k v k'. unfold sget. assert (X : mget (mset m k v) k' = if str_eqb k' k then Some v else mget m k'); [|rewrite X; destruct (str_eqb k' k); reflexivity].
  induction m as [|(k0 & v0) m IH]; [reflexivity|]. cbn [mset]. destruct (str_eqb k k0) eqn:E.
  - apply str_eqb_eq in E. subst k0. cbn [mget]. destruct (str_eqb k' k); reflexivity.
  - cbn [mget]. rewrite IH. destruct (str_eqb k' k0) eqn:E0; [|reflexivity]. apply str_eqb_eq in E0. subst k0. destruct (str_eqb k' k) eqn:E1; [|reflexivity]. apply str_eqb_eq in E1. subst k'. rewrite str_eqb_refl in E. discriminate E.
Qed.
Lemma keys_mset : forall {A} (m : list (str * A)) k v, (forall x, In x (mkeys (mset m k v)) <-> x = k \/ In x (mkeys m)) /\ (NoDup (mkeys m) -> NoDup (mkeys (mset m k v))).
Proof.
  intros A m k v. assert (IN : forall x, In x (mkeys (mset m k v)) <-> x = k \/ In x (mkeys m)).
  { intros x. induction m as [|(k0 & v0) m IH]; cbn [mset mkeys map fst In]; [split; [intros [->|[]]; left; reflexivity | intros [->|[]]; left; reflexivity]|]. unfold mkeys in IH.
    destruct (str_eqb k k0) eqn:E; cbn [mkeys map fst In].
    - apply str_eqb_eq in E. subst k0. split; [intros [->|H]; [left; reflexivity | right; right; exact H] | intros [->|[->|H]]; [left; reflexivity | left; reflexivity | right; exact H]].
    - rewrite IH. split; [intros [->|[->|H]]; [right; left; reflexivity | left; reflexivity | right; right; exact H] | intros [->|[->|H]]; [right; left; reflexivity | left; reflexivity | right; right; exact H]]. }
  split; [exact IN|]. clear IN. induction m as [|(k0 & v0) m IH]; intros N; cbn [mset mkeys map fst] in *; [constructor; [intros [] | constructor]|]. inversion N as [|? ? NI N']; subst.
  destruct (str_eqb k k0) eqn:E; cbn [mkeys map fst].
  - apply str_eqb_eq in E. subst k0. constructor; assumption.
  - constructor; [|exact (IH N')]. intros I. assert (X : k0 = k \/ In k0 (mkeys m)).
    { clear - I. unfold mkeys. induction m as [|(k1 & v1) m IH]; cbn [mset map fst In] in *; [destruct I as [<-|[]]; left; reflexivity|]. destruct (str_eqb k k1) eqn:E1; cbn [map fst In] in I.
      - destruct I as [<-|I]; [left; reflexivity | right; right; exact I].
      - destruct I as [<-|I]; [right; left; reflexivity|]. destruct (IH I) as [->|H]; [left; reflexivity | right; right; exact H]. }
    destruct X as [->|X]; [rewrite str_eqb_refl in E; discriminate E | exact (NI X)].
Qed.
Lemma categories_known : forall by_category functions m0 k, let m := fold_left (fun m f => mset m (group_of tf by_category f) (sget [] m (group_of tf by_category f) ++ [f])) functions m0 in
  sget [] m k = sget [] m0 k ++ filter (fun f => str_eqb k (group_of tf by_category f)) functions /\
  (In k (mkeys m) <-> In k (mkeys m0) \/ exists f, In f functions /\ group_of tf by_category f = k) /\ (NoDup (mkeys m0) -> NoDup (mkeys m)).
Proof.
  intros b functions. induction functions as [|f fs IH]; intros m0 k m; subst m.
  - cbn [fold_left filter]. rewrite app_nil_r. split; [reflexivity|]. split; [|intros N; exact N]. split; [intros I; left; exact I | intros [I|(f & [] & _)]; exact I].
  - cbn [fold_left]. set (m1 := mset m0 _ _). destruct (IH m1 k) as (A & B & C). destruct (keys_mset m0 (group_of tf b f) (sget [] m0 (group_of tf b f) ++ [f])) as (K1 & K2). fold m1 in K1, K2.
    split; [|split].
    + rewrite A. unfold m1. rewrite sget_mset. cbn [filter]. destruct (str_eqb k (group_of tf b f)) eqn:E; [|reflexivity]. apply str_eqb_eq in E. subst k. rewrite <- app_assoc. reflexivity.
    + rewrite B, K1. split.
      * intros [[->|I]|(g & I & E)]; [right; exists f; split; [left; reflexivity | reflexivity] | left; exact I | right; exists g; split; [right; exact I | exact E]].
      * intros [I|(g & [<-|I] & E)]; [left; right; exact I | left; left; symmetry; exact E | right; exists g; split; assumption].
    + intros N. apply C. apply K2. exact N.
Qed.
Lemma sections_known : forall by_category functions, ascending (map fst (sections tf by_category functions)) /\
  forall k l, In (k, l) (sections tf by_category functions) <-> l = filter (fun f => str_eqb k (group_of tf by_category f)) functions /\ l <> [].
Proof.
  intros b functions. unfold sections, categories. set (m := fold_left _ functions []).
  assert (K : forall k, sget [] m k = filter (fun f => str_eqb k (group_of tf b f)) functions /\ (In k (mkeys m) <-> exists f, In f functions /\ group_of tf b f = k)).
  { intros k. destruct (categories_known b functions [] k) as (A & B & _). fold m in A, B. split; [exact A|]. rewrite B. split; [intros [[]|H]; exact H | intros H; right; exact H]. }
  assert (N : NoDup (mkeys m)) by (apply (categories_known b functions [] []); constructor). split.
  - rewrite map_map. cbn [fst]. rewrite map_id. apply sort_ascending. exact N.
  - intros k l. rewrite in_map_iff. split.
    + intros (x & E & I). injection E as -> <-. apply (Permutation_in _ (sort_strings_perm _)) in I. destruct (K k) as (A & B). rewrite A. split; [reflexivity|]. apply B in I. destruct I as (f & I & G). intros X.
      assert (Y : In f (filter (fun f => str_eqb k (group_of tf b f)) functions)) by (apply filter_In; split; [exact I | rewrite G; apply str_eqb_refl]). rewrite X in Y. destruct Y.
    + intros (E & NE). exists k. destruct (K k) as (A & B). rewrite A, <- E. split; [reflexivity|]. apply (Permutation_in _ (Permutation_sym (sort_strings_perm _))). apply B. destruct l as [|f l]; [congruence|].
      assert (Y : In f (filter (fun f => str_eqb k (group_of tf b f)) functions)) by (rewrite <- E; left; reflexivity). apply filter_In in Y. destruct Y as (I & G). exists f. split; [exact I|]. symmetry. apply str_eqb_eq. exact G.
Qed.

(** Columns *)
Definition opt {A} (o : option A) : list A := match o with Some x => [x] | None => [] end.
Lemma col_enough : forall n, n <= nb_column * col_length n /\ (col_length n = 0 <-> n = 0) /\ (nb_column * col_length n < n + nb_column).
Proof.
  intros n. unfold col_length, nb_column. pose proof (Nat.div_mod (n + (5 - 1)) 5 ltac:(discriminate)) as D. pose proof (Nat.mod_upper_bound (n + (5 - 1)) 5 ltac:(discriminate)) as U. lia.
Qed.
Lemma rows_simple : forall l, short_rows l = map (fun r => flat_map (fun j => opt (nth_error l (j * col_length (length l) + r))) (seq 0 5)) (seq 0 (col_length (length l))).
Proof.
  intros l. unfold short_rows. apply map_ext. intros r. cbv zeta. rewrite Nat.div_mul by discriminate. reflexivity.
Qed.
Lemma row_cells : forall (l : list str) col r n j0 c, nth_error (flat_map (fun j => opt (nth_error l (j * col + r))) (seq j0 n)) c = if c <? n then nth_error l ((j0 + c) * col + r) else None.
Proof.
  intros l col r n. induction n as [|n IH]; intros j0 c; [destruct c; reflexivity|]. cbn [seq flat_map]. destruct (nth_error l (j0 * col + r)) as [x|] eqn:E.
  - cbn [opt app]. destruct c as [|c]; [rewrite Nat.add_0_r, E; reflexivity|]. cbn [nth_error]. rewrite IH. change (S c <? S n) with (c <? n). replace (S j0 + c) with (j0 + S c) by lia. reflexivity.
  - assert (Z : forall m k, (j0 <= k) -> flat_map (fun j => opt (nth_error l (j * col + r))) (seq k m) = []).
    { induction m as [|m IHm]; intros k Lk; [reflexivity|]. cbn [seq flat_map]. rewrite IHm by lia. apply nth_error_None in E. rewrite (proj2 (nth_error_None l (k * col + r))); [reflexivity|].
      pose proof (Nat.mul_le_mono_r j0 k col Lk). lia. }
    cbn [opt app]. rewrite Z by lia. destruct (c <? S n); [|destruct c; reflexivity]. replace (nth_error (@nil str) c) with (@None str) by (destruct c; reflexivity). symmetry. apply nth_error_None. apply nth_error_None in E.
    pose proof (Nat.mul_le_mono_r j0 (j0 + c) col ltac:(lia)). lia.
Qed.
Lemma rows_cells : forall l r row, nth_error (short_rows l) r = Some row -> forall c, nth_error row c = if c <? 5 then nth_error l (c * length (short_rows l) + r) else None.
Proof.
  intros l r row E c. rewrite rows_simple in *. rewrite map_length, seq_length. rewrite nth_error_map in E. destruct (nth_error (seq 0 _) r) as [r'|] eqn:ER; [|discriminate E]. cbn [option_map] in E. injection E as <-.
  assert (r' = r). { assert (LR : r < length (seq 0 (col_length (length l)))) by (apply nth_error_Some; rewrite ER; discriminate). pose proof (nth_error_nth _ _ 0 ER) as X. rewrite seq_length in LR. rewrite seq_nth in X by exact LR. cbn [plus] in X. congruence. }
  subst r'. exact (row_cells l (col_length (length l)) r 5 0 c).
Qed.
Lemma swap_loops : forall {A B C} (g : A -> B -> list C) (la : list A) (lb : list B), Permutation (flat_map (fun a => flat_map (g a) lb) la) (flat_map (fun b => flat_map (fun a => g a b) la) lb).
Proof.
  intros A B C g la lb. induction la as [|a la IH].
  - cbn [flat_map]. induction lb as [|b lb IHb]; [constructor | exact IHb].
  - cbn [flat_map]. eapply Permutation_trans; [apply Permutation_app_head; exact IH|]. clear IH. induction lb as [|b lb IHb]; [constructor|]. cbn [flat_map].
    rewrite <- !app_assoc. apply Permutation_app_head. eapply Permutation_trans; [|apply Permutation_app_head; exact IHb]. rewrite !app_assoc. apply Permutation_app_tail. apply Permutation_app_comm.
Qed.
Lemma all_cells : forall (l : list str) n, length l <= n -> flat_map (fun i => opt (nth_error l i)) (seq 0 n) = l.
Proof.
  intros l. induction l as [|x l IH]; intros n Ln.
  - assert (Z : forall m, flat_map (fun i => opt (nth_error (@nil str) i)) m = []) by (induction m as [|i m IHm]; [reflexivity|]; cbn [flat_map]; rewrite IHm; destruct i; reflexivity). apply Z.
  - destruct n as [|n]; cbn [length] in Ln; [lia|]. cbn [seq flat_map nth_error opt app]. f_equal. rewrite <- seq_shift, flat_map_concat_map, map_map, <- flat_map_concat_map. apply IH. lia.
Qed.
Lemma flat_seq : forall {C} (g : nat -> list C) col n j0, flat_map (fun j => flat_map (fun r => g (j * col + r)) (seq 0 col)) (seq j0 n) = flat_map g (seq (j0 * col) (n * col)).
Proof.
  intros C g col n. induction n as [|n IH]; intros j0; [reflexivity|]. cbn [seq flat_map]. rewrite IH. cbn [Nat.mul]. rewrite seq_app, flat_map_app. f_equal.
  - assert (X : forall k s, flat_map (fun r => g (j0 * col + r)) (seq s k) = flat_map g (seq (j0 * col + s) k)); [|rewrite X, Nat.add_0_r; reflexivity].
    induction k as [|k IHk]; intros s; [reflexivity|]. cbn [seq flat_map]. rewrite IHk, Nat.add_succ_r. reflexivity.
  - replace (j0 * col + col) with (col + j0 * col) by lia. reflexivity.
Qed.
Lemma rows_all : forall l, Permutation (concat (short_rows l)) l.
Proof.
  intros l. rewrite rows_simple, <- flat_map_concat_map. eapply Permutation_trans; [apply (swap_loops (fun r j => opt (nth_error l (j * col_length (length l) + r))))|].
  rewrite (flat_seq (fun i => opt (nth_error l i))). cbn [Nat.mul]. rewrite all_cells; [apply Permutation_refl|]. destruct (col_enough (length l)) as (E & _). unfold nb_column in E. lia.
Qed.
Lemma rows_count : forall l, length l <= 5 * length (short_rows l) < length l + 5.
Proof. intros l. rewrite rows_simple, map_length, seq_length. destruct (col_enough (length l)) as (A & _ & C). unfold nb_column in *. lia. Qed.

(** Widths *)
Lemma max_ok : forall l x, In x l -> length x <= max_length l.
Proof.
  intros l. unfold max_length. assert (G : forall l m, m <= fold_left (fun m (f : str) => Nat.max (length f) m) l m /\ forall x, In x l -> length x <= fold_left (fun m (f : str) => Nat.max (length f) m) l m).
  { clear l. induction l as [|y l0 IH]; intros m; [split; [apply le_n | intros x []]|]. cbn [fold_left]. destruct (IH (Nat.max (length y) m)) as (A & B). split; [lia|]. intros x [->|I]; [lia | exact (B x I)]. }
  intros x I. exact (proj2 (G l 0) x I).
Qed.
Lemma low_runes : forall p s, low p -> rune_count (p ++ s) = length p + rune_count s.
Proof.
  intros p s L. induction L as [|c p Lc L IH]; [reflexivity|]. cbn [app length]. unfold rune_count in *. rewrite (chunks_ascii c (p ++ s) Lc). cbn [length]. rewrite IH. reflexivity.
Qed.
Lemma low_runes_end : forall p s, low p -> rune_count (s ++ p) = rune_count s + length p.
Proof.
  intros p s L. destruct L as [|c p Lc L]; [rewrite app_nil_r; cbn [length]; lia|]. unfold rune_count. rewrite chunks_app_cut.
  - rewrite app_length. f_equal. pose proof (low_runes (c :: p) [] (Forall_cons c Lc L)) as X. rewrite app_nil_r in X. unfold rune_count in X. cbn [length] in X |- *. rewrite X. apply Nat.add_0_r.
  - unfold cont_byte. apply andb_false_iff. left. apply N.leb_gt. exact Lc.
Qed.
Lemma runes_bytes : forall s, rune_count s <= length s.
Proof.
  intros s. pattern s. apply str_len_ind. clear s. intros s IH. destruct s as [|c s]; [apply le_n|]. unfold rune_count in *. rewrite chunks_cons by discriminate.
  pose proof (decode_width (c :: s) ltac:(discriminate)) as W. cbn [length]. specialize (IH (skipn (snd (decode (c :: s))) (c :: s))). rewrite skipn_length in IH. cbn [length] in IH, W. lia.
Qed.
Lemma cell_ok : forall pre post width item, low pre -> low post -> length item <= width -> exists shown n, short_cell pre post tf width item = shown ++ spaces n /\
  shown = (match mget tf item with Some (Alias _ _) => pre ++ item ++ post | _ => item end) /\ rune_count item + n = width + 2 /\ 2 <= n.
Proof.
  intros pre post width item LP LQ L. pose proof (runes_bytes item) as RB. assert (NA : exists shown n, pad_right (width + 2) item = shown ++ spaces n /\ shown = item /\ rune_count item + n = width + 2 /\ 2 <= n).
  { exists item, (width + 2 - rune_count item). split; [reflexivity|]. split; [reflexivity|]. lia. }
  unfold short_cell. destruct (mget tf item) as [[i|n i]|]; [exact NA| |exact NA]. exists (pre ++ item ++ post), (width + 2 + length (pre ++ post) - rune_count (pre ++ item ++ post)).
  split; [reflexivity|]. split; [reflexivity|]. rewrite low_runes by exact LP. rewrite low_runes_end by exact LQ. rewrite app_length. lia.
Qed.

(** Details *)
Lemma detailed_known : forall functions, ascending (detailed_names tf functions) /\ forall n, In n (detailed_names tf functions) <-> exists f, In f functions /\ stands_for tf f n.
Proof.
  intros functions. unfold detailed_names. set (g := fun (m : list (str * unit)) f => _).
  assert (G : forall fs m, (NoDup (mkeys m) -> NoDup (mkeys (fold_left g fs m))) /\ forall n, In n (mkeys (fold_left g fs m)) <-> In n (mkeys m) \/ exists f, In f fs /\ stands_for tf f n).
  { induction fs as [|f fs IH]; intros m; [split; [intros N; exact N | intros n; split; [intros I; left; exact I | intros [I|(f & [] & _)]; exact I]]|]. cbn [fold_left]. destruct (IH (g m f)) as (A & B).
    assert (X : exists o, (NoDup (mkeys m) -> NoDup (mkeys (g m f))) /\ (forall n, In n (mkeys (g m f)) <-> o = Some n \/ In n (mkeys m)) /\ forall n, o = Some n <-> stands_for tf f n).
    { unfold g, stands_for. destruct (mget tf f) as [[i|n0 i]|].
      - destruct (keys_mset m f tt) as (K1 & K2). exists (Some f). split; [exact K2|]. split; [intros n; rewrite K1; split; (intros [H|H]; [left; congruence | right; exact H])|]. intros n. split; [intros E; injection E as <-; exists (Own i); split; reflexivity | intros (e & E & ->); injection E as <-; reflexivity].
      - destruct (keys_mset m (i_name i) tt) as (K1 & K2). exists (Some (i_name i)). split; [exact K2|]. split; [intros n; rewrite K1; split; (intros [H|H]; [left; congruence | right; exact H])|]. intros n. split; [intros E; injection E as <-; exists (Alias n0 i); split; reflexivity | intros (e & E & ->); injection E as <-; reflexivity].
      - exists None. split; [intros N; exact N|]. split; [intros n; split; [intros I; right; exact I | intros [H|I]; [discriminate H | exact I]]|]. intros n. split; [discriminate | intros (e & E & _); discriminate E]. }
    destruct X as (o & X1 & X2 & X3). split; [intros N; apply A, X1, N|]. intros n. rewrite B, X2, X3. split.
    - intros [[H|H]|(f' & I & H)]; [right; exists f; split; [left; reflexivity | exact H] | left; exact H | right; exists f'; split; [right; exact I | exact H]].
    - intros [H|(f' & [<-|I] & H)]; [left; right; exact H | left; left; exact H | right; exists f'; split; assumption]. }
  split.
  - apply sort_ascending. apply (proj1 (G functions [])). constructor.
  - intros n. split.
    + intros I. apply (Permutation_in _ (sort_strings_perm _)) in I. apply (proj2 (G functions [])) in I. destruct I as [[]|H]; exact H.
    + intros H. apply (Permutation_in _ (Permutation_sym (sort_strings_perm _))). apply (proj2 (G functions [])). right. exact H.
Qed.
Lemma described : forall name own e, kept_names tf -> mget tf name = Some e -> stands_for tf name own -> detailed_description tf own = e_description e.
Proof.
  intros name own e K M (e' & M' & ->). rewrite M in M'. injection M' as <-. unfold detailed_description. destruct e as [i|n i]; cbn [e_is_alias e_real_name e_description]; [rewrite M; reflexivity | rewrite (K _ _ _ M); reflexivity].
Qed.
End Help.
