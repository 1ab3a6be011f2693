(** Proofs about templates. *)
From Coq Require Import String Ascii List ZArith NArith Bool Arith Lia.
From Verif Require Import GoStr GoStrFacts ValueModel ValueFacts DictModel CliModel CliSpec CliProofs PathModel PathProofs TemplateModel TemplateSpec.
Import ListNotations.

(** ** Detection *)
Lemma holds_iff t s : contains s t = true <-> holds t s.
Proof. apply contains_iff. Qed.
Lemma holds_not t s : contains s t = false <-> ~ holds t s.
Proof. rewrite <- holds_iff. destruct (contains s t); split; intro H; congruence. Qed.
Lemma razor_iff d t : is_razor d t = true <-> holds t (razor_delim d) /\ ~ holds t $"no-gotemplate!" /\ ~ holds t $"no-razor!".
Proof. unfold is_razor. rewrite !andb_true_iff, !negb_true_iff, !holds_not, holds_iff. tauto. Qed.
Lemma code_iff d t : is_code d t = true <->
  ~ holds t $"no-gotemplate!" /\ (holds t (left_delim d) \/ holds t (right_delim d) \/ holds t (razor_delim d) /\ ~ holds t $"no-razor!").
Proof. unfold is_code. rewrite andb_true_iff, negb_true_iff, !orb_true_iff, holds_not, !holds_iff, razor_iff. tauto. Qed.

Lemma set_delims_long l : forall d i, (List.length l + i > 3 -> i <= 3 -> set_delims d i l = None)%nat.
Proof.
  induction l as [|s l IH]; intros d i H J; cbn [set_delims List.length] in *; [lia|]. destruct (Nat.eqb_spec i 3); [reflexivity|]. apply IH; lia.
Qed.
Lemma new_delims_three l r z : ~ In ","%char l -> ~ In ","%char r -> ~ In ","%char z ->
  new_delims (l ++ $"," ++ r ++ $"," ++ z) = Some {| left_delim := or_default l $"{{"; right_delim := or_default r $"}}"; razor_delim := or_default z $"@" |}.
Proof.
  intros A B C. unfold new_delims. destruct (l ++ $"," ++ r ++ $"," ++ z) as [|c t] eqn:X; [destruct l; discriminate X|]. rewrite <- X. clear X. change $"," with [","%char]. cbn [app].
  rewrite split1_app by exact A. rewrite split1_app by exact B. rewrite split1_notIn by exact C. destruct l, r, z; reflexivity.
Qed.
Lemma new_delims_two l r : ~ In ","%char l -> ~ In ","%char r ->
  new_delims (l ++ $"," ++ r) = Some {| left_delim := or_default l $"{{"; right_delim := or_default r $"}}"; razor_delim := $"@" |}.
Proof.
  intros A B. unfold new_delims. destruct (l ++ $"," ++ r) as [|c t] eqn:X; [destruct l; discriminate X|]. rewrite <- X. clear X. change $"," with [","%char]. cbn [app].
  rewrite split1_app by exact A. rewrite split1_notIn by exact B. destruct l, r; reflexivity.
Qed.
Lemma new_delims_one l : ~ In ","%char l -> new_delims l = Some {| left_delim := or_default l $"{{"; right_delim := $"}}"; razor_delim := $"@" |}.
Proof. intro A. unfold new_delims. destruct l as [|c l]; [reflexivity|]. change $"," with [","%char]. rewrite split1_notIn by exact A. reflexivity. Qed.
Lemma new_delims_more t : (count_occ ascii_dec t ","%char > 2)%nat -> new_delims t = None.
Proof.
  intro H. unfold new_delims. destruct t as [|c t]; [cbn in H; lia|]. apply set_delims_long; [|lia]. change $"," with [","%char]. rewrite split1_length. lia.
Qed.
Lemma new_delims_nonempty t d : new_delims t = Some d -> left_delim d <> [] /\ right_delim d <> [] /\ razor_delim d <> [].
Proof.
  intro H. unfold new_delims in H. assert (G : forall l d i d', left_delim d <> [] /\ right_delim d <> [] /\ razor_delim d <> [] -> set_delims d i l = Some d' -> left_delim d' <> [] /\ right_delim d' <> [] /\ razor_delim d' <> []).
  { clear. induction l as [|s l IH]; intros d i d' N H; cbn [set_delims] in H; [inversion H; subst; exact N|]. destruct (Nat.eqb i 3); [discriminate H|]. apply IH in H; [exact H|].
    destruct s as [|c s]; [exact N|]. destruct N as (A & B & C). destruct i as [|[|i]]; cbn; repeat split; try assumption; discriminate. }
  destruct t; [inversion H; subst; repeat split; discriminate|]. apply G in H; [exact H|]. repeat split; discriminate.
Qed.

(** ** Options *)
Lemma oget_oset o k v k' : oget (oset o k v) k' = if Nat.eqb k' k then v else oget o k'.
Proof.
  induction o as [|[a x] o IH]; cbn [oset oget]; [reflexivity|]. destruct (Nat.eqb_spec k a) as [->|N]; cbn [oget].
  - destruct (Nat.eqb_spec k' a); reflexivity.
  - rewrite IH. destruct (Nat.eqb_spec k' a) as [->|]; [|reflexivity]. destruct (Nat.eqb_spec a k); [congruence|reflexivity].
Qed.
Lemma opt_set_get ks : forall o v k, oget (opt_set o v ks) k = if in_dec Nat.eq_dec k ks then v else oget o k.
Proof.
  unfold opt_set. induction ks as [|a ks IH]; intros o v k; [reflexivity|]. cbn [fold_left]. rewrite IH, oget_oset.
  destruct (in_dec Nat.eq_dec k ks) as [I|I], (in_dec Nat.eq_dec k (a :: ks)) as [J|J], (Nat.eqb_spec k a) as [->|N]; try reflexivity; exfalso; cbn in *; firstorder congruence.
Qed.
Lemma default_get k : oget default_options k = (k <? 11).
Proof.
  unfold default_options, o_on_by_default_count. pose proof (opt_set_get (seq 0 11) [] true k) as H. unfold opt_set in H. rewrite H.
  destruct (in_dec Nat.eq_dec k (seq 0 11)) as [I|I]; rewrite in_seq in I; symmetry; [apply Nat.ltb_lt|apply Nat.ltb_ge]; lia.
Qed.
Lemma oset_keys o k v x : In x (map fst (oset o k v)) <-> x = k \/ In x (map fst o).
Proof.
  induction o as [|[a y] o IH]; cbn [oset map fst In]; [intuition|]. destruct (Nat.eqb_spec k a) as [->|N]; cbn [map fst In]; [intuition|]. rewrite IH. intuition.
Qed.
Lemma oset_nodup o k v : NoDup (map fst o) -> NoDup (map fst (oset o k v)).
Proof.
  induction o as [|[a y] o IH]; intro H; cbn [oset map fst]; [constructor; [intros []|constructor]|]. inversion H; subst. destruct (Nat.eqb_spec k a) as [->|N]; cbn [map fst]; [exact H|].
  constructor; [|apply IH; assumption]. rewrite oset_keys. intros [->|I]; contradiction.
Qed.
Definition copy_opts (o : optset) : optset := fold_left (fun o kv => oset o (fst kv) (snd kv)) o [].
Lemma copy_fold o : forall acc, NoDup (map fst o) -> (forall k, In k (map fst o) -> ~ In k (map fst acc)) -> NoDup (map fst acc) ->
  NoDup (map fst (fold_left (fun o kv => oset o (fst kv) (snd kv)) o acc)) /\
  (forall k, oget (fold_left (fun o kv => oset o (fst kv) (snd kv)) o acc) k = if in_dec Nat.eq_dec k (map fst acc) then oget acc k else oget o k).
Proof.
  induction o as [|[a v] o IH]; intros acc Nd D Na; cbn [fold_left fst snd].
  - split; [exact Na|]. intro k. destruct (in_dec Nat.eq_dec k (map fst acc)) as [I|I]; [reflexivity|]. clear -I. induction acc as [|[b y] acc IH]; [reflexivity|]. cbn in *. destruct (Nat.eqb_spec k b); [exfalso; apply I; left; congruence|]. apply IH. tauto.
  - inversion Nd as [|? ? Na' Nd']; subst. destruct (IH (oset acc a v) Nd') as [X Y].
    + intros k I J. apply oset_keys in J. destruct J as [->|J]; [contradiction|]. apply (D k); [right; exact I|exact J].
    + apply oset_nodup. exact Na.
    + split; [exact X|]. intro k. rewrite Y, oget_oset. cbn [oget]. destruct (in_dec Nat.eq_dec k (map fst (oset acc a v))) as [I|I]; rewrite oset_keys in I; destruct (in_dec Nat.eq_dec k (map fst acc)) as [J|J]; destruct (Nat.eqb_spec k a) as [->|N]; try reflexivity; try tauto.
      exfalso. apply (D a); [left; reflexivity|exact J].
Qed.
Lemma copy_get o k : NoDup (map fst o) -> oget (copy_opts o) k = oget o k.
Proof. intro H. unfold copy_opts. rewrite (proj2 (copy_fold o [] H ltac:(intros ? ? []) ltac:(constructor))). reflexivity. Qed.
Lemma copy_nodup o : NoDup (map fst o) -> NoDup (map fst (copy_opts o)).
Proof. intro H. apply (copy_fold o [] H ltac:(intros ? ? []) ltac:(constructor)). Qed.

Lemma update_length {A} (l : list A) : forall i f, List.length (update l i f) = List.length l.
Proof. induction l; intros [|i] f; cbn; auto. Qed.
Lemma update_nth {A} (l : list A) : forall i f j d, nth j (update l i f) d = if Nat.eqb j i && (j <? List.length l) then f (nth j l d) else nth j l d.
Proof.
  induction l as [|x l IH]; intros i f j d; [destruct i, j; cbn; try rewrite andb_false_r; reflexivity|].
  destruct i as [|i], j as [|j]; try reflexivity. cbn [update nth]. rewrite IH. cbn [Nat.eqb List.length]. reflexivity.
Qed.

(** Every template has its own options. *)
Record wfh (h : heap) : Prop := {
  w_range : forall t, exists_in h t -> (t_options (tpl_at h t) < List.length (h_sets h))%nat;
  w_own : forall t u, exists_in h t -> exists_in h u -> t_options (tpl_at h t) = t_options (tpl_at h u) -> t = u;
  w_sets : forall i, NoDup (map fst (nth i (h_sets h) []));
  w_kids : forall t f n, exists_in h t -> mget (t_children (tpl_at h t)) f = Some n -> exists_in h n }.

Lemma start_wf o folder : NoDup (map fst o) -> wfh (start o folder).
Proof.
  intro H. split.
  - intros t L. unfold exists_in in L. cbn in *. destruct t; [cbn; lia|lia].
  - intros t u L M _. unfold exists_in in *. cbn in *. lia.
  - intros [|[|i]]; cbn; [exact H|constructor|constructor].
  - intros t f n L. unfold exists_in, tpl_at in *. cbn in *. destruct t as [|[|t]]; discriminate.
Qed.
Lemma set_option_get h t k v u k' : wfh h -> exists_in h t -> exists_in h u ->
  option_of (set_option h t k v) u k' = if Nat.eqb u t && Nat.eqb k' k then v else option_of h u k'.
Proof.
  intros W T U. unfold option_of, set_option, tpl_at. cbn [h_sets h_tpls]. fold (tpl_at h t). fold (tpl_at h u). rewrite update_nth.
  destruct (Nat.eqb_spec (t_options (tpl_at h u)) (t_options (tpl_at h t))) as [E|E].
  - apply (w_own h W) in E; [|assumption..]. subst u. rewrite Nat.eqb_refl. replace (t_options (tpl_at h t) <? List.length (h_sets h)) with true by (symmetry; apply Nat.ltb_lt, (w_range h W), T).
    cbn [andb]. apply oget_oset.
  - cbn [andb]. destruct (Nat.eqb_spec u t); [subst; contradiction|]. reflexivity.
Qed.
Lemma set_option_wf h t k v : wfh h -> wfh (set_option h t k v).
Proof.
  intros [A B C D]. split; unfold exists_in, set_option, tpl_at in *; cbn [h_sets h_tpls].
  - intros u L. rewrite update_length. apply A. exact L.
  - exact B.
  - intro i. rewrite update_nth. destruct (_ && _); [apply oset_nodup, C|apply C].
  - exact D.
Qed.

Lemma context_new abs h t folder c : wfh h -> exists_in h t ->
  (exists n, get_new_context abs h t folder c = (h, n) /\ exists_in h n) \/
  (exists h', get_new_context abs h t folder c = (h', List.length (h_tpls h)) /\
    wfh h' /\ exists_in h' (List.length (h_tpls h)) /\ (forall u, exists_in h u -> exists_in h' u /\ forall k, option_of h' u k = option_of h u k) /\
    forall k, option_of h' (List.length (h_tpls h)) k = option_of h t k).
Proof.
  intros W T. unfold get_new_context. set (fd := match folder with [] => t_folder (tpl_at h t) | _ => folder end).
  destruct (if c then mget (t_children (tpl_at h t)) fd else None) as [n|] eqn:Kd; [left; exists n; split; [reflexivity|]; destruct c; [exact (w_kids h W t fd n T Kd)|discriminate Kd]|]. right. clear Kd.
  set (par := if c then _ else h_tpls h). set (child := {| t_options := _; t_folder := _; t_children := _ |}). eexists. split; [reflexivity|].
  assert (Lp : List.length par = List.length (h_tpls h)) by (unfold par; destruct c; [apply update_length|reflexivity]).
  assert (Op : forall u d, t_options (nth u par d) = t_options (nth u (h_tpls h) d)).
  { intros u d. unfold par. destruct c; [|reflexivity]. rewrite update_nth. destruct (_ && _); reflexivity. }
  fold (copy_opts (nth (t_options (tpl_at h t)) (h_sets h) [])). set (cp := copy_opts _).
  assert (Old : forall u, exists_in h u -> t_options (tpl_at {| h_sets := h_sets h ++ [cp]; h_tpls := par ++ [child] |} u) = t_options (tpl_at h u)).
  { intros u L. unfold tpl_at. cbn [h_tpls]. rewrite app_nth1 by (rewrite Lp; exact L). apply Op. }
  assert (New : t_options (tpl_at {| h_sets := h_sets h ++ [cp]; h_tpls := par ++ [child] |} (List.length (h_tpls h))) = List.length (h_sets h)).
  { unfold tpl_at. cbn [h_tpls]. rewrite app_nth2 by lia. rewrite Lp, Nat.sub_diag. reflexivity. }
  assert (Ex : forall u, exists_in {| h_sets := h_sets h ++ [cp]; h_tpls := par ++ [child] |} u <-> exists_in h u \/ u = List.length (h_tpls h)).
  { intro u. unfold exists_in. cbn [h_tpls]. rewrite app_length, Lp. cbn. lia. }
  split; [split|split; [|split]].
  - intros u L. apply Ex in L. cbn [h_sets]. rewrite app_length. destruct L as [L| ->]; [rewrite Old by exact L; pose proof (w_range h W u L); lia|rewrite New; cbn; lia].
  - intros u v L M E. apply Ex in L, M. destruct L as [L| ->], M as [M| ->]; [|exfalso|exfalso|reflexivity].
    + rewrite !Old in E by assumption. apply (w_own h W); assumption.
    + rewrite New, Old in E by assumption. pose proof (w_range h W u L). lia.
    + rewrite New, Old in E by assumption. pose proof (w_range h W v M). lia.
  - intro i. cbn [h_sets]. destruct (Nat.lt_trichotomy i (List.length (h_sets h))) as [L|[->|L]].
    + rewrite app_nth1 by exact L. apply (w_sets h W).
    + rewrite app_nth2 by lia. rewrite Nat.sub_diag. cbn [nth]. apply copy_nodup, (w_sets h W).
    + rewrite nth_overflow by (rewrite app_length; cbn; lia). constructor.
  - intros u f n L G. apply Ex in L. apply Ex. destruct L as [L| ->].
    + unfold tpl_at in G. cbn [h_tpls] in G. rewrite app_nth1 in G by (rewrite Lp; exact L). unfold par in G. destruct c; [|left; exact (w_kids h W u f n L G)].
      rewrite update_nth in G. destruct (_ && _); [|left; exact (w_kids h W u f n L G)]. cbn [t_children] in G. rewrite mget_mset in G. destruct (str_eqb f fd); [right; congruence|left; exact (w_kids h W u f n L G)].
    + unfold tpl_at in G. cbn [h_tpls] in G. rewrite app_nth2 in G by lia. rewrite Lp, Nat.sub_diag in G. discriminate G.
  - apply Ex. right. reflexivity.
  - intros u L. split; [apply Ex; left; exact L|]. intro k. unfold option_of. rewrite Old by exact L. cbn [h_sets]. rewrite app_nth1 by (apply (w_range h W); exact L). reflexivity.
  - intro k. unfold option_of. rewrite New. cbn [h_sets]. rewrite app_nth2 by lia. rewrite Nat.sub_diag. cbn [nth]. apply copy_get, (w_sets h W).
Qed.
Lemma ops_wf abs ops : forall h, wfh h -> ops_ok abs h ops -> wfh (run_ops abs h ops).
Proof.
  induction ops as [|o ops IH]; intros h W K; [exact W|]. cbn [ops_ok] in K. destruct K as [T K]. apply IH; [|exact K]. destruct o as [t folder c|t k v]; cbn [run_op] in *.
  - destruct (context_new abs h t folder c W T) as [(n & -> & _)|(h' & -> & W' & _)]; assumption.
  - apply set_option_wf. exact W.
Qed.
Lemma options_isolated abs o folder ops t k v u k' : NoDup (map fst o) -> ops_ok abs (start o folder) ops ->
  let h := run_ops abs (start o folder) ops in exists_in h t -> exists_in h u ->
  option_of (set_option h t k v) u k' = if Nat.eqb u t && Nat.eqb k' k then v else option_of h u k'.
Proof. intros N K h T U. apply set_option_get; [|assumption..]. apply ops_wf; [apply start_wf; exact N|exact K]. Qed.
Lemma options_child abs o folder ops t fd c h' n : NoDup (map fst o) -> ops_ok abs (start o folder) ops ->
  let h := run_ops abs (start o folder) ops in exists_in h t -> get_new_context abs h t fd c = (h', n) -> ~ exists_in h n ->
  forall k, option_of h' n k = option_of h t k /\ forall u, exists_in h u -> option_of h' u k = option_of h u k.
Proof.
  intros N K h T G X k. assert (W : wfh h) by (apply ops_wf; [apply start_wf; exact N|exact K]).
  destruct (context_new abs h t fd c W T) as [(n' & H & E)|(h2 & H & W' & E & O & C)]; rewrite H in G; inversion G; subst.
  - contradiction.
  - split; [apply C|]. intros u L. apply O. exact L.
Qed.
Lemma options_cached abs h t fd n : fd <> [] -> mget (t_children (tpl_at h t)) fd = Some n -> get_new_context abs h t fd true = (h, n).
Proof. intros N H. unfold get_new_context. destruct fd; [contradiction|]. rewrite H. reflexivity. Qed.
Lemma options_fresh abs h t fd h' n : get_new_context abs h t fd false = (h', n) -> ~ exists_in h n.
Proof. intro H. unfold get_new_context in H. cbn [fst snd] in H. inversion H. unfold exists_in. lia. Qed.
Lemma options_twice abs h t fd h' n : fd <> [] -> exists_in h t -> get_new_context abs h t fd true = (h', n) -> get_new_context abs h' t fd true = (h', n).
Proof.
  intros N T H. destruct (mget (t_children (tpl_at h t)) fd) as [c|] eqn:M.
  - rewrite (options_cached abs h t fd c N M) in H. inversion H; subst. apply options_cached; assumption.
  - apply options_cached; [exact N|]. unfold get_new_context in H. destruct fd as [|x fd]; [contradiction|]. rewrite M in H. inversion H; subst. unfold tpl_at. cbn [h_tpls].
    rewrite app_nth1 by (rewrite update_length; exact T). rewrite update_nth, Nat.eqb_refl. replace (t <? List.length (h_tpls h)) with true by (symmetry; apply Nat.ltb_lt; exact T).
    cbn [andb t_children]. apply mget_mset_eq.
Qed.

(** ** Constants *)
Section Constants.
Lemma const_refl c : (exists s, c = vstr s) \/ (exists b, c = vbool b) \/ c = VNil -> const_eq c c = true.
Proof. intros [(s & ->)|[(b & ->)| ->]]; unfold const_eq; cbn; [apply str_eqb_refl|apply Bool.eqb_reflx|reflexivity]. Qed.
Lemma set_keep stop v names : forall st k x, mget (fst st) k = Some x -> mget (fst (set_constant stop v names st)) k = Some x.
Proof.
  induction names as [|n names IH]; intros st k x H; [exact H|]. cbn [set_constant]. destruct (mget (fst st) n) as [val|] eqn:G.
  - destruct (const_eq v val); [exact H|apply IH; exact H].
  - assert (H' : mget (mset (fst st) n v) k = Some x) by (rewrite mget_mset_ne; [exact H|intros ->; congruence]).
    destruct stop; [exact H'|apply IH; exact H'].
Qed.
Lemma set_new stop v names : forall st k x, mget (fst (set_constant stop v names st)) k = Some x -> mget (fst st) k = Some x \/ (mget (fst st) k = None /\ x = v /\ In k names).
Proof.
  induction names as [|n names IH]; intros st k x H; [left; exact H|]. cbn [set_constant] in H. destruct (mget (fst st) n) as [val|] eqn:G.
  - destruct (const_eq v val); [left; exact H|]. apply IH in H. destruct H as [H|(A & B & C)]; [left; exact H|right; repeat split; auto; right; exact C].
  - assert (D : mget (mset (fst st) n v) k = Some x -> mget (fst st) k = Some x \/ (mget (fst st) k = None /\ x = v /\ In k (n :: names))).
    { rewrite mget_mset. destruct (str_eqb_spec k n) as [->|N]; [|auto]. intro X. inversion X; subst. right. repeat split; [exact G|left; reflexivity]. }
    destruct stop; [apply D; exact H|]. apply IH in H. cbn [fst] in H. destruct H as [H|(A & B & C)]; [apply D; exact H|]. rewrite mget_mset in A. destruct (str_eqb k n); [discriminate A|].
    right. repeat split; [exact A|exact B|right; exact C].
Qed.
Lemma set_all v names : forall st, (forall n x, In n names -> mget (fst st) n = Some x -> const_eq v x = false) -> NoDup names ->
  forall n, In n names -> mget (fst st) n = None -> mget (fst (set_constant false v names st)) n = Some v.
Proof.
  induction names as [|m names IH]; intros st H Nd n I G; [destruct I|]. inversion Nd as [|? ? Nm Nd']; subst. cbn [set_constant]. destruct (mget (fst st) m) as [val|] eqn:Gm.
  - rewrite (H m val) by (auto; left; reflexivity). destruct I as [->|I]; [congruence|]. apply IH; auto. intros n' x I'. apply H. right. exact I'.
  - destruct I as [->|I].
    + apply set_keep. apply mget_mset_eq.
    + assert (n <> m) by (intros ->; contradiction). apply IH; auto.
      * intros n' x I'. cbn [fst]. rewrite mget_mset_ne by (intros ->; contradiction). apply H. right. exact I'.
      * cbn [fst]. rewrite mget_mset_ne by congruence. exact G.
Qed.

Fixpoint settled (v : value) (names : list str) (m : list (str * value)) : Prop :=
  match names with [] => True | n :: r => exists x, mget m n = Some x /\ (const_eq v x = true \/ settled v r m) end.
Lemma settled_id stop v names : forall st, settled v names (fst st) -> set_constant stop v names st = st.
Proof.
  induction names as [|n names IH]; intros st H; [reflexivity|]. cbn [settled] in H. destruct H as (x & G & H). cbn [set_constant]. rewrite G.
  destruct (const_eq v x) eqn:C; [reflexivity|]. apply IH. destruct H as [H|H]; [congruence|exact H].
Qed.
Lemma settled_mono v names m m' : (forall k x, mget m k = Some x -> mget m' k = Some x) -> settled v names m -> settled v names m'.
Proof.
  intro K. induction names as [|n names IH]; intro H; [exact I|]. destruct H as (x & G & H). exists x. split; [apply K; exact G|]. destruct H as [H|H]; [left; exact H|right; apply IH; exact H].
Qed.
Lemma set_settled v names : const_eq v v = true -> forall st, settled v names (fst (set_constant false v names st)).
Proof.
  intro R. induction names as [|n names IH]; intro st; [exact I|]. cbn [set_constant settled]. destruct (mget (fst st) n) as [x|] eqn:G.
  - destruct (const_eq v x) eqn:C; [exists x; auto|]. exists x. split; [apply set_keep; exact G|right; apply IH].
  - exists v. split; [apply set_keep, mget_mset_eq|left; exact R].
Qed.
Definition grows (m m' : list (str * value)) : Prop :=
  (forall k x, mget m k = Some x -> mget m' k = Some x) /\
  (forall k x, mget m' k = Some x -> mget m k = Some x \/ (mget m k = None /\ constant k x)).
Lemma grows_trans a b c : grows a b -> grows b c -> grows a c.
Proof.
  intros [A1 A2] [B1 B2]. split; [auto|]. intros k x H. destruct (B2 k x H) as [H'|[H' C]]; [apply A2; exact H'|].
  right. split; [|exact C]. destruct (mget a k) as [y|] eqn:G; [|reflexivity]. apply A1 in G. congruence.
Qed.
Lemma set_grows stop v names st : (forall k, In k names -> constant k v) -> grows (fst st) (fst (set_constant stop v names st)).
Proof.
  intro C. split; [apply set_keep|]. intros k x H. destruct (set_new _ _ _ _ _ _ H) as [H'|(A & -> & I)]; [left; exact H'|right; split; [exact A|apply C; exact I]].
Qed.
Lemma init_grows st : grows (fst st) (fst (init_constants st)).
Proof.
  unfold init_constants. eapply grows_trans; [eapply grows_trans; [eapply grows_trans|]|]; apply set_grows; intros k I; unfold constant.
  - left. split; [reflexivity|exact I].
  - right. left. destruct I as [<-|[]]. auto.
  - right. right. left. destruct I as [<-|[]]. auto.
  - right. right. right. destruct I as [<-|[]]. auto.
Qed.
Lemma init_twice st : init_constants (init_constants st) = init_constants st.
Proof.
  set (a := set_constant false (vstr newline) [$"NL"; $"CR"; $"NEWLINE"] st). set (b := set_constant false (vbool true) [$"true"] a).
  set (c := set_constant false (vbool false) [$"false"] b). set (d := set_constant false VNil [$"null"] c).
  assert (E : init_constants st = d) by reflexivity. rewrite E.
  assert (ab : forall k x, mget (fst a) k = Some x -> mget (fst b) k = Some x) by (intros; apply set_keep; assumption).
  assert (bc : forall k x, mget (fst b) k = Some x -> mget (fst c) k = Some x) by (intros; apply set_keep; assumption).
  assert (cd : forall k x, mget (fst c) k = Some x -> mget (fst d) k = Some x) by (intros; apply set_keep; assumption).
  unfold init_constants.
  rewrite (settled_id false (vstr newline) [$"NL"; $"CR"; $"NEWLINE"] d) by (apply (settled_mono _ _ (fst a)); [auto|apply set_settled, const_refl; eauto]).
  rewrite (settled_id false (vbool true) [$"true"] d) by (apply (settled_mono _ _ (fst b)); [auto|apply set_settled, const_refl; eauto]).
  rewrite (settled_id false (vbool false) [$"false"] d) by (apply (settled_mono _ _ (fst c)); [auto|apply set_settled, const_refl; eauto]).
  apply settled_id. apply set_settled, const_refl. auto.
Qed.
Lemma const_eq_iff c v : (exists s, c = vstr s) \/ (exists b, c = vbool b) \/ c = VNil -> (const_eq c v = true <-> v = c).
Proof.
  intro H. split; [|intros ->; apply const_refl; exact H]. unfold const_eq.
  destruct H as [(s & ->)|[(b & ->)| ->]]; destruct v as [|[]| | | | | |]; cbn; intro H; try discriminate H.
  - apply andb_true_iff in H. destruct H as [A B]. destruct named; [discriminate A|]. apply str_eqb_eq in B. subst. reflexivity.
  - apply Bool.eqb_prop in H. subst. reflexivity.
  - reflexivity.
Qed.
(** All the constants are there when the user has none of them. *)
Lemma init_all st : (forall k v, mget (fst st) k = Some v -> ~ constant k v) ->
  forall k v, constant k v -> mget (fst (init_constants st)) k = match mget (fst st) k with Some x => Some x | None => Some v end.
Proof.
  intros U k v C. destruct (mget (fst st) k) as [x|] eqn:G; [apply (proj1 (init_grows st)); exact G|].
  set (a := set_constant false (vstr newline) [$"NL"; $"CR"; $"NEWLINE"] st). set (b := set_constant false (vbool true) [$"true"] a).
  set (c := set_constant false (vbool false) [$"false"] b).
  assert (E : init_constants st = set_constant false VNil [$"null"] c) by reflexivity.
  assert (F : forall v names s, (exists t, v = vstr t) \/ (exists b, v = vbool b) \/ v = VNil -> grows (fst st) (fst s) -> (forall n, In n names -> constant n v) -> NoDup names ->
     (forall n, In n names -> mget (fst s) n = mget (fst st) n) ->
     forall n, In n names -> mget (fst st) n = None -> mget (fst (set_constant false v names s)) n = Some v).
  { intros v' names s Hv Gr Hn Nd Same n I Gn. apply set_all; [|exact Nd|exact I|rewrite Same; assumption]. intros m y Im Gm. destruct (const_eq v' y) eqn:X; [|reflexivity].
    apply const_eq_iff in X; [|exact Hv]. subst y. rewrite Same in Gm by exact Im. exfalso. apply (U m v' Gm). apply Hn. exact Im. }
  assert (Ga : grows (fst st) (fst a)) by (apply set_grows; intros n I; left; auto).
  assert (Gb : grows (fst a) (fst b)) by (apply set_grows; intros n I; right; left; destruct I as [<-|[]]; auto).
  assert (Gc : grows (fst b) (fst c)) by (apply set_grows; intros n I; right; right; left; destruct I as [<-|[]]; auto).
  assert (same : forall stop v names s n, ~ In n names -> mget (fst (set_constant stop v names s)) n = mget (fst s) n).
  { clear. intros stop v names s n N. destruct (mget (fst s) n) as [x|] eqn:G; [apply set_keep; exact G|]. destruct (mget (fst (set_constant stop v names s)) n) as [y|] eqn:H; [|reflexivity].
    apply set_new in H. destruct H as [H|(_ & _ & I)]; [congruence|contradiction]. }
  rewrite E. destruct C as [[-> I]|[[-> ->]|[[-> ->]|[-> ->]]]].
  - apply set_keep. apply set_keep. apply set_keep. unfold a. apply F; try assumption; eauto.
    + split; auto.
    + intros n J. left. auto.
    + repeat constructor; cbn; intuition discriminate.
  - apply set_keep. apply set_keep. apply (F (vbool true) [$"true"] a); try assumption; eauto; [| |intros n J|left; reflexivity].
    + intros n [<-|[]]. right. left. auto.
    + repeat constructor; cbn; intuition discriminate.
    + destruct J as [<-|[]]. apply same. cbn. intuition discriminate.
  - apply set_keep. apply (F (vbool false) [$"false"] b); try assumption; eauto; [eapply grows_trans; eassumption| | |intros n J|left; reflexivity].
    + intros n [<-|[]]. right. right. left. auto.
    + repeat constructor; cbn; intuition discriminate.
    + destruct J as [<-|[]]. unfold b, a. rewrite !same by (cbn; intuition discriminate). reflexivity.
  - apply (F VNil [$"null"] c); try assumption; eauto; [eapply grows_trans; [eapply grows_trans|]; eassumption| | |intros n J|left; reflexivity].
    + intros n [<-|[]]. right. right. right. auto.
    + repeat constructor; cbn; intuition discriminate.
    + destruct J as [<-|[]]. unfold c, b, a. rewrite !same by (cbn; intuition discriminate). reflexivity.
Qed.
End Constants.

(** ** Merge *)
Lemma merge_only {E : Env} i ctx values m k : template_merge i ctx values = Ok m -> k <> sprint key_function -> mget m k = mget ctx k.
Proof.
  intros H N. assert (A : forall d, mget (dict_add i ctx key_function d) k = mget ctx k).
  { intro d. unfold dict_add. destruct (mget ctx (sprint key_function)) as [c|]; [destruct (c_try_as_list c) as [[j l]|]|]; rewrite mget_mset_ne; congruence. }
  unfold template_merge in H. destruct values; try (destruct (try_as_dict dflt _) as [[j x]|]; [|discriminate H]); inversion H; apply A.
Qed.

(** ** Names of result files *)
Lemma ext_rev_skip x : forall r acc, ~ In "."%char x -> ~ In SLASH x -> ext_rev (rev x ++ r) acc = ext_rev r (x ++ acc).
Proof.
  induction x as [|c x IH] using rev_ind; intros r acc A B; [reflexivity|]. rewrite rev_app_distr. cbn [rev app]. rewrite in_app_iff in A, B. cbn [ext_rev].
  destruct (Ascii.eqb_spec c "."); [exfalso; apply A; right; left; auto|]. destruct (Ascii.eqb_spec c SLASH); [exfalso; apply B; right; left; auto|].
  rewrite IH by tauto. rewrite <- app_assoc. reflexivity.
Qed.
Lemma ext_unique p e : extension p e -> path_ext p = e.
Proof.
  unfold path_ext. intros [(a & x & -> & -> & A & B)|(a & x & -> & -> & A & B & C)].
  - rewrite !rev_app_distr, <- app_assoc. rewrite ext_rev_skip by assumption. cbn. rewrite app_nil_r. reflexivity.
  - rewrite rev_app_distr. rewrite ext_rev_skip by assumption. destruct C as [->|(a' & ->)]; [reflexivity|]. rewrite rev_app_distr. reflexivity.
Qed.
Lemma ext_exists p : extension p (path_ext p).
Proof.
  unfold path_ext. assert (G : forall r acc, ~ In "."%char acc -> ~ In "/"%char acc -> extension (rev r ++ acc) (ext_rev r acc)).
  { induction r as [|c r IH]; intros acc A B; cbn [ext_rev rev].
    - right. exists [], acc. repeat split; auto.
    - destruct (Ascii.eqb_spec c ".") as [->|N].
      + left. exists (rev r), acc. rewrite <- app_assoc. repeat split; auto.
      + destruct (Ascii.eqb_spec c SLASH) as [->|M].
        * right. exists (rev r ++ [SLASH]), acc. repeat split; auto. right. exists (rev r). reflexivity.
        * rewrite <- app_assoc. apply IH; intros [->|I]; auto. }
  specialize (G (rev p) [] ltac:(intros []) ltac:(intros [])). rewrite rev_involutive, app_nil_r in G. exact G.
Qed.
Lemma ext_suffix p e : extension p e -> exists a, p = a ++ e.
Proof. intros [(a & x & -> & -> & _)|(a & x & -> & -> & _)]; [exists a; reflexivity|exists (a ++ x); rewrite app_nil_r; reflexivity]. Qed.
Lemma generated_eq a e : extension (a ++ e) e -> generated (a ++ e) = a ++ $".generated" ++ e.
Proof. intro H. unfold generated. rewrite (ext_unique _ _ H), trim_suffix_app. reflexivity. Qed.
Lemma extension_append a e : (e = [] \/ exists x, e = $"." ++ x /\ ~ In "."%char x /\ ~ In "/"%char x) ->
  path_ext (a ++ $".generated" ++ e) = match e with [] => $".generated" | _ => e end.
Proof.
  intros [->|(x & -> & A & B)]; apply ext_unique; left.
  - exists a, $"generated". rewrite app_nil_r. repeat split; cbn; intuition discriminate.
  - exists (a ++ $".generated"), x. rewrite <- !app_assoc. repeat split; auto.
Qed.
Lemma ext_form p : path_ext p = [] \/ exists x, path_ext p = $"." ++ x /\ ~ In "."%char x /\ ~ In "/"%char x.
Proof. destruct (ext_exists p) as [(a & x & _ & -> & A & B)|(a & x & _ & -> & _)]; [right; exists x; auto|left; reflexivity]. Qed.
Lemma generated_inj x y : generated x = generated y -> x = y.
Proof.
  destruct (ext_suffix x _ (ext_exists x)) as (a & Ex). destruct (ext_suffix y _ (ext_exists y)) as (b & Ey).
  pose proof (ext_form x) as Fx. pose proof (ext_form y) as Fy. pose proof (ext_exists x) as Xx. pose proof (ext_exists y) as Xy.
  set (e := path_ext x) in *. set (f := path_ext y) in *. clearbody e f. subst x y. rewrite !generated_eq by assumption. intro H.
  pose proof (f_equal path_ext H) as P. rewrite !extension_append in P by assumption.
  assert (K : forall u e, extension (u ++ e) e -> e = [] -> forall v, u <> v ++ $".generated").
  { clear. intros u e X -> v ->. apply ext_unique in X. rewrite <- app_assoc, extension_append in X by (left; reflexivity). discriminate X. }
  destruct e as [|c e], f as [|d f].
  - rewrite !app_nil_r in *. apply app_inv_tail in H. exact H.
  - exfalso. rewrite <- P in H. rewrite app_nil_r in H. rewrite app_assoc in H. apply app_inv_tail in H. exact (K a [] Xx eq_refl b H).
  - exfalso. rewrite P in H. rewrite app_nil_r in H. rewrite app_assoc in H. apply app_inv_tail in H. exact (K b [] Xy eq_refl a (eq_sym H)).
  - rewrite P in H. apply app_inv_tail in H. subst. rewrite P. reflexivity.
Qed.

(** The template suffixes. *)
Lemma ends_iff s e : has_suffix e s = true <-> ends s e.
Proof. apply has_suffix_iff. Qed.
Lemma ends_not s e : has_suffix e s = false <-> ~ ends s e.
Proof. rewrite <- ends_iff. destruct (has_suffix e s); split; intro; congruence. Qed.
Lemma strip_cases x :
  strip_ext (x ++ $".template.gt") = x /\
  (~ ends x $".template" -> strip_ext (x ++ $".gt") = x) /\
  strip_ext (x ++ $".template") = x /\
  (~ ends x $".gt" -> ~ ends x $".template" -> strip_ext x = x).
Proof.
  unfold strip_ext, template_ext. cbn [fold_left]. repeat split.
  - change $".template.gt" with ($".template" ++ $".gt"). rewrite app_assoc, !trim_suffix_app. reflexivity.
  - intro N. rewrite trim_suffix_app. apply trim_suffix_no, ends_not. exact N.
  - rewrite (trim_suffix_no _ $".gt"), trim_suffix_app; [reflexivity|]. apply ends_not. intros (a & H). change $".template" with ($".templa" ++ $"te") in H. apply (f_equal (@rev ascii)) in H. rewrite !rev_app_distr in H. discriminate H.
  - intros A B. rewrite !trim_suffix_no; [reflexivity|apply ends_not; assumption..|]. apply ends_not. rewrite trim_suffix_no; [assumption|apply ends_not; assumption].
Qed.
Lemma is_template_iff f : is_template f = true <-> ends f $".gt" \/ ends f $".template".
Proof. unfold is_template, template_ext. cbn [existsb]. rewrite orb_false_r, orb_true_iff, !ends_iff. reflexivity. Qed.
Lemma name_plain ov src tgt f result n : ~ ends f $".gt" -> ~ ends f $".template" -> get_target_file f src tgt = Ok n -> result_name ov src tgt f result = Ok (Some n).
Proof.
  intros A B G. unfold result_name. destruct (strip_cases f) as (_ & _ & _ & ->); [|assumption..]. rewrite G. cbn [bind].
  destruct (is_template f) eqn:T; [apply is_template_iff in T; destruct T; contradiction|reflexivity].
Qed.
Lemma name_template ov src tgt f result a e : ends f $".gt" \/ ends f $".template" -> get_target_file (strip_ext f) src tgt = Ok (a ++ e) -> extension (a ++ e) e ->
  result_name ov src tgt f result =
  Ok (if list_eq_dec ascii_dec (trim_space result) [] then
        match e with [] => None | _ => Some (if ov then a ++ e else a ++ $".generated" ++ e) end
      else Some (if ov then a ++ e else a ++ $".generated" ++ e)).
Proof.
  intros T G X. unfold result_name. rewrite G. cbn [bind]. apply is_template_iff in T. rewrite T, (ext_unique _ _ X), (generated_eq _ _ X).
  destruct (list_eq_dec ascii_dec (trim_space result) []) as [->|N].
  - destruct e; reflexivity.
  - destruct (trim_space result) as [|c r]; [contradiction|reflexivity].
Qed.

(** The keys of the constants. *)
Section Keys.
Context {E : Env}.
Definition is_new (m m' : list (str * value)) (k : str) : bool := match mget m k, mget m' k with None, Some _ => true | _, _ => false end.
Lemma set_other stop v names : forall st k, ~ In k names -> mget (fst (set_constant stop v names st)) k = mget (fst st) k.
Proof.
  induction names as [|n names IH]; intros st k H; [reflexivity|]. cbn [set_constant]. cbn [In] in H.
  assert (X : mget (mset (fst st) n v) k = mget (fst st) k) by (apply mget_mset_ne; intros ->; tauto).
  destruct (mget (fst st) n) as [val|].
  - destruct (const_eq v val); [reflexivity | apply IH; tauto].
  - destruct stop; [exact X|]. rewrite IH by tauto. exact X.
Qed.
Lemma set_keys v names : NoDup names -> forall st,
  snd (set_constant false v names st) = snd st ++ filter (is_new (fst st) (fst (set_constant false v names st))) names.
Proof.
  induction 1 as [|n names Nn Nd IH]; intros st; [cbn; rewrite app_nil_r; reflexivity|].
  cbn [set_constant]. destruct (mget (fst st) n) as [val|] eqn:Gn.
  - assert (X : is_new (fst st) (fst (if const_eq v val then st else set_constant false v names st)) n = false) by (unfold is_new; rewrite Gn; reflexivity).
    cbn [filter]. rewrite X. destruct (const_eq v val); [| apply IH].
    assert (Y : filter (is_new (fst st) (fst st)) names = []).
    { clear. induction names as [|a l IH]; [reflexivity|]. cbn [filter]. unfold is_new at 1. destruct (mget (fst st) a); exact IH. }
    rewrite Y, app_nil_r. reflexivity.
  - rewrite IH. cbn [fst snd]. set (st' := (mset (fst st) n v, snd st ++ [n])).
    assert (X : is_new (fst st) (fst (set_constant false v names st')) n = true).
    { unfold is_new. rewrite Gn, (set_keep false v names st' n v); [reflexivity|]. apply mget_mset_eq. }
    cbn [filter]. rewrite X, <- app_assoc. cbn [app]. do 2 f_equal. apply filter_ext_in. intros k I. unfold is_new.
    replace (mget (mset (fst st) n v) k) with (mget (fst st) k); [reflexivity|]. symmetry. apply mget_mset_ne. intros ->. contradiction.
Qed.
Lemma new_outside : forall m m' a b l, (forall k, In k l -> mget m k = mget a k) -> (forall k, In k l -> mget m' k = mget b k) ->
  filter (is_new m m') l = filter (is_new a b) l.
Proof. intros m m' a b l A B. apply filter_ext_in. intros k I. unfold is_new. rewrite (A k I), (B k I). reflexivity. Qed.
Lemma init_keys : forall m keys, let st := init_constants (m, keys) in
  snd st = keys ++ filter (fun k => match mget m k, mget (fst st) k with None, Some _ => true | _, _ => false end)
                     [$"NL"; $"CR"; $"NEWLINE"; $"true"; $"false"; $"null"].
Proof.
  intros m keys. cbv zeta. change (fun k => match mget m k, mget (fst (init_constants (m, keys))) k with None, Some _ => true | _, _ => false end)
    with (is_new m (fst (init_constants (m, keys)))).
  unfold init_constants.
  set (s0 := (m, keys)). set (a := set_constant false (vstr newline) [$"NL"; $"CR"; $"NEWLINE"] s0).
  set (b := set_constant false (vbool true) [$"true"] a). set (c := set_constant false (vbool false) [$"false"] b).
  set (d := set_constant false VNil [$"null"] c).
  assert (N3 : NoDup [$"NL"; $"CR"; $"NEWLINE"]) by (repeat constructor; cbn; intuition discriminate).
  assert (N1 : forall x : str, NoDup [x]) by (intro; repeat constructor; intros []).
  pose proof (set_keys (vstr newline) _ N3 s0) as Sa. pose proof (set_keys (vbool true) _ (N1 $"true") a) as Sb.
  pose proof (set_keys (vbool false) _ (N1 $"false") b) as Sc. pose proof (set_keys VNil _ (N1 $"null") c) as Sd.
  fold a in Sa. fold b in Sb. fold c in Sc. fold d in Sd.
  pose proof (set_other false (vstr newline) [$"NL"; $"CR"; $"NEWLINE"] s0) as Oa. pose proof (set_other false (vbool true) [$"true"] a) as Ob.
  pose proof (set_other false (vbool false) [$"false"] b) as Oc. pose proof (set_other false VNil [$"null"] c) as Od.
  fold a in Oa. fold b in Ob. fold c in Oc. fold d in Od. cbn [fst snd s0] in Sa, Oa.
  clearbody a b c d.
  rewrite Sd, Sc, Sb, Sa, <- !app_assoc. f_equal.
  change [$"NL"; $"CR"; $"NEWLINE"; $"true"; $"false"; $"null"] with ([$"NL"; $"CR"; $"NEWLINE"] ++ [$"true"] ++ [$"false"] ++ [$"null"]).
  rewrite !filter_app.
  assert (E1 : filter (is_new m (fst a)) [$"NL"; $"CR"; $"NEWLINE"] = filter (is_new m (fst d)) [$"NL"; $"CR"; $"NEWLINE"]).
  { apply new_outside; [reflexivity|]. intros k I. rewrite Od, Oc, Ob; [reflexivity|..]; cbn in I |- *; intuition subst; discriminate. }
  assert (E2 : filter (is_new (fst a) (fst b)) [$"true"] = filter (is_new m (fst d)) [$"true"]).
  { apply new_outside; intros k I; [rewrite Oa | rewrite Od, Oc]; try reflexivity; cbn in I |- *; intuition subst; discriminate. }
  assert (E3 : filter (is_new (fst b) (fst c)) [$"false"] = filter (is_new m (fst d)) [$"false"]).
  { apply new_outside; intros k I; [rewrite Ob, Oa | rewrite Od]; try reflexivity; cbn in I |- *; intuition subst; discriminate. }
  assert (E4 : filter (is_new (fst c) (fst d)) [$"null"] = filter (is_new m (fst d)) [$"null"]).
  { apply new_outside; intros k I; [rewrite Oc, Ob, Oa | ]; try reflexivity; cbn in I |- *; intuition subst; discriminate. }
  rewrite E1, E2, E3, E4. reflexivity.
Qed.
End Keys.

Lemma child_folder : forall abs h t fd c h' n, exists_in h t -> get_new_context abs h t fd c = (h', n) ->
  (c = true -> mget (t_children (tpl_at h t)) (or_default fd (t_folder (tpl_at h t))) = None) ->
  t_folder (tpl_at h' n) = match or_default fd (t_folder (tpl_at h t)) with [] => [] | f => abs f end /\ t_children (tpl_at h' n) = [].
Proof.
  intros abs h t fd c h' n X H N. unfold get_new_context in H. unfold or_default in *.
  set (f := match fd with [] => t_folder (tpl_at h t) | _ => fd end) in *.
  assert (Z : (if c then mget (t_children (tpl_at h t)) f else None) = None) by (destruct c; [apply N; reflexivity | reflexivity]).
  rewrite Z in H. clear N.
  assert (L : List.length (if c then update (h_tpls h) t (fun p => {| t_options := t_options p; t_folder := t_folder p; t_children := mset (t_children p) f (List.length (h_tpls h)) |}) else h_tpls h) = List.length (h_tpls h)).
  { destruct c; [apply update_length | reflexivity]. }
  inversion H; subst h' n. unfold tpl_at at 1 4. cbn [h_tpls]. rewrite app_nth2 by (rewrite L; lia). rewrite L, Nat.sub_diag. cbn [nth t_folder t_children].
  split; [| reflexivity]. destruct f eqn:F; [| reflexivity]. unfold f in F. destruct fd; [exact F | discriminate F].
Qed.
