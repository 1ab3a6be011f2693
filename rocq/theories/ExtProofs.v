(** Proofs about the templates defined in files. *)
From Coq Require Import String Ascii List ZArith NArith Bool Lia Permutation.
From Verif Require Import GoStr GoStrFacts ValueModel ValueFacts PathModel SearchModel CliModel ExtModel ExtSpec.
Import ListNotations.

Section Ext.
Context {T : Type}.
Variable empty : T -> bool.
Notation register := (@register T empty).
Notation import_templates := (@import_templates T empty).
Notation process_files := (@process_files T empty).
Notation process_file := (@process_file T empty).
Notation chosen := (@chosen T empty).

(** ** Choosing *)
Definition pick (o : option T) (b : T) : option T := match o with Some a => if empty b then Some a else Some b | None => Some b end.
Definition picks (l : list T) (o : option T) : option T := fold_left pick l o.
Lemma picks_some l : forall a, picks l (Some a) = Some a /\ Forall (fun e => empty e = true) l \/ exists x b c, l = x ++ b :: c /\ empty b = false /\ Forall (fun e => empty e = true) c /\ picks l (Some a) = Some b.
Proof.
  induction l as [|b l IH]; intros a; [left; split; [reflexivity|constructor]|]. cbn [picks fold_left pick]. destruct (empty b) eqn:E.
  - destruct (IH a) as [(P & F)|(x & y & c & -> & EY & F & P)]; [left; split; [exact P | constructor; assumption] | right; exists (b :: x), y, c; repeat split; assumption].
  - destruct (IH b) as [(P & F)|(x & y & c & -> & EY & F & P)]; right; [exists [], b, l; repeat split; assumption | exists (b :: x), y, c; repeat split; assumption].
Qed.
Lemma picks_chosen l b : picks l None = Some b -> chosen l b.
Proof.
  destruct l as [|a l]; [discriminate|]. cbn [picks fold_left pick]. intros H. destruct (picks_some l a) as [(P & F)|(x & y & c & -> & EY & F & P)]; unfold picks in P; rewrite P in H; injection H as <-.
  - destruct (empty a) eqn:E; [apply c_empty; assumption | apply (c_last empty [] a l); assumption].
  - apply (c_last empty (a :: x) y c); assumption.
Qed.
Lemma picks_none l : picks l None = None -> l = [].
Proof. destruct l as [|a l]; [reflexivity|]. cbn [picks fold_left pick]. intros H. destruct (picks_some l a) as [(P & _)|(x & y & c & _ & _ & _ & P)]; unfold picks in P; congruence. Qed.
Lemma chosen_fun l b b' : chosen l b -> chosen l b' -> b = b'.
Proof.
  assert (P : forall l b, chosen l b -> picks l None = Some b).
  { intros k x [a y c E F|y c E F].
    - unfold picks. rewrite fold_left_app. cbn [fold_left]. replace (pick (fold_left pick a None) y) with (Some y) by (destruct (fold_left pick a None); cbn [pick]; [rewrite E|]; reflexivity). clear E. induction F as [|z c E F IH]; [reflexivity|]. cbn [fold_left pick]. rewrite E. exact IH.
    - unfold picks. cbn [fold_left pick]. clear E. induction F as [|z c E F IH]; [reflexivity|]. cbn [fold_left pick]. rewrite E. exact IH. }
  intros H1 H2. apply P in H1, H2. congruence.
Qed.
Lemma chosen_in l b : chosen l b -> In b l.
Proof. intros [a x c _ _|x c _ _]; [apply in_or_app; right|]; left; reflexivity. Qed.

(** ** Tables *)
Definition body (m : @table T) (x : str) : option T := option_map t_body (mget m x).
Definition named (x : str) (l : @table T) : list T := map (fun nt => t_body (snd nt)) (filter (fun nt => if eq_str (fst nt) x then true else false) l).
Lemma mhas_mget {A} (m : list (str * A)) k : mhas m k = match mget m k with Some _ => true | None => false end.
Proof. reflexivity. Qed.
Lemma register_body m nt x : body (register m nt) x = if eq_str (fst nt) x then pick (body m x) (t_body (snd nt)) else body m x.
Proof.
  unfold ExtModel.register, body. rewrite mhas_mget. destruct (eq_str (fst nt) x) as [<-|N].
  - destruct (mget m (fst nt)) as [t|] eqn:G; cbn [option_map pick].
    + rewrite Bool.andb_true_r. destruct (empty (t_body (snd nt))); [rewrite G; reflexivity | rewrite mget_mset_eq; reflexivity].
    + rewrite Bool.andb_false_r, mget_mset_eq. reflexivity.
  - destruct (empty _ && _); [reflexivity|]. rewrite mget_mset_ne by exact N. reflexivity.
Qed.
Lemma fold_body l : forall m x, body (fold_left register l m) x = picks (named x l) (body m x).
Proof.
  induction l as [|nt l IH]; intros m x; [reflexivity|]. cbn [fold_left]. rewrite IH, register_body. unfold named. cbn [filter]. destruct (eq_str (fst nt) x); reflexivity.
Qed.
Lemma register_get m nt x t : mget (register m nt) x = Some t -> mget m x = Some t \/ nt = (x, t).
Proof.
  unfold ExtModel.register. destruct (empty _ && _); [left; assumption|]. rewrite mget_mset. destruct (str_eqb_spec x (fst nt)) as [->|_]; [|left; assumption]. intros H. injection H as <-. right. destruct nt; reflexivity.
Qed.
Lemma fold_get l : forall m x t, mget (fold_left register l m) x = Some t -> mget m x = Some t \/ In (x, t) l.
Proof.
  induction l as [|nt l IH]; intros m x t H; [left; exact H|]. cbn [fold_left] in H. destruct (IH _ _ _ H) as [G|I]; [|right; right; exact I]. destruct (register_get _ _ _ _ G) as [G'| ->]; [left; exact G' | right; left; reflexivity].
Qed.
Lemma register_nodup m nt : NoDup (mkeys m) -> NoDup (mkeys (register m nt)).
Proof. intros N. unfold ExtModel.register. destruct (empty _ && _); [exact N | apply NoDup_mset; exact N]. Qed.
Lemma fold_nodup l : forall m, NoDup (mkeys m) -> NoDup (mkeys (fold_left register l m)).
Proof. induction l as [|nt l IH]; intros m N; [exact N|]. apply IH, register_nodup, N. Qed.

Lemma get_in {A} (m : list (str * A)) k v : NoDup (mkeys m) -> mget m k = Some v <-> In (k, v) m.
Proof.
  induction m as [|[k' v'] m IH]; cbn [mkeys map fst mget In]; intros N; [split; [discriminate | intros []]|]. inversion N as [|? ? NI N']; subst. destruct (str_eqb_spec k k') as [->|NE].
  - split; [intros H; injection H as ->; left; reflexivity|]. intros [H|H]; [injection H as ->; reflexivity|]. exfalso. apply NI. apply (in_map fst) in H. exact H.
  - rewrite (IH N'). split; [intros H; right; exact H|]. intros [H|H]; [injection H as -> ->; congruence | exact H].
Qed.
Lemma named_brings v x : NoDup (mkeys v) -> named x (filter (fun nt => negb (str_eqb (fst nt) (t_parse (snd nt)))) v) = brings v x.
Proof.
  induction v as [|[k t] v IH]; [reflexivity|]. cbn [mkeys map fst]. intros N. inversion N as [|? ? NI N']; subst. unfold brings. cbn [filter mget fst snd].
  assert (NOT : x = k -> named x (filter (fun nt => negb (str_eqb (fst nt) (t_parse (snd nt)))) v) = []).
  { intros ->. unfold named. clear - NI. induction v as [|[k' t'] v IH]; [reflexivity|]. cbn [filter fst snd mkeys map In] in *. destruct (negb (str_eqb k' (t_parse t'))); [|apply IH; tauto]. cbn [filter fst]. destruct (eq_str k' k) as [->|_]; [exfalso; apply NI; left; reflexivity | apply IH; tauto]. }
  destruct (str_eqb_spec x k) as [->|NE].
  - destruct (str_eqb_spec k (t_parse t)) as [EQ|NQ]; cbn [negb].
    + rewrite (NOT eq_refl). destruct (eq_str k (t_parse t)); [reflexivity|contradiction].
    + unfold named in *. cbn [filter fst]. destruct (eq_str k k); [|contradiction]. cbn [map snd]. rewrite (NOT eq_refl). destruct (eq_str k (t_parse t)); [contradiction|reflexivity].
  - fold (brings v x). destruct (negb (str_eqb k (t_parse t))); [|apply IH, N']. unfold named in *. cbn [filter fst]. destruct (eq_str k x); [congruence|]. apply IH, N'.
Qed.
Lemma import_body v m x : NoDup (mkeys v) -> body (import_templates v m) x = picks (brings v x) (body m x).
Proof. intros N. unfold ExtModel.import_templates. rewrite fold_body, named_brings by exact N. reflexivity. Qed.
Lemma import_nodup v m : NoDup (mkeys m) -> NoDup (mkeys (import_templates v m)).
Proof. apply fold_nodup. Qed.

(** ** Contexts *)
Lemma trees_named f x : named x (trees_of f) = map snd (filter (fun nt => if eq_str (fst nt) x then true else false) (f_trees f)).
Proof. unfold named, trees_of. induction (f_trees f) as [|[k t] l IH]; [reflexivity|]. cbn [map filter fst snd]. destruct (eq_str k x); cbn [map snd t_body]; rewrite IH; reflexivity. Qed.
Lemma context_step main c f d : get_context empty main d (process_file main c f) = if eq_str (path_dir (f_path f)) d then fold_left register (trees_of f) (get_context empty main d c) else get_context empty main d c.
Proof.
  unfold get_context at 1. unfold ExtModel.process_file. cbv zeta. destruct (eq_str (path_dir (f_path f)) d) as [<-|N]; [rewrite mget_mset_eq; reflexivity|]. rewrite mget_mset_ne by exact N. reflexivity.
Qed.
Lemma context_body main files d x : NoDup (mkeys main) -> body (get_context empty main d (process_files main files)) x = picks (brings main x ++ defs_in d x files) None.
Proof.
  intros N. unfold ExtModel.process_files. induction files as [|f files IH] using rev_ind.
  - cbn [fold_left]. unfold get_context. cbn [mget defs_in flat_map]. rewrite import_body by exact N. rewrite app_nil_r. reflexivity.
  - rewrite fold_left_app. cbn [fold_left]. rewrite context_step. unfold defs_in. rewrite flat_map_app. fold (defs_in d x files). cbn [flat_map]. destruct (eq_str (path_dir (f_path f)) d); [|rewrite app_nil_r; exact IH].
    rewrite fold_body, IH, trees_named, app_nil_r. unfold picks. rewrite app_assoc, (fold_left_app pick (brings main x ++ _)). reflexivity.
Qed.
Lemma context_parse main files d x t : mget (get_context empty main d (process_files main files)) x = Some t -> In (x, t) main /\ x <> t_parse t \/ exists f, In f files /\ t_parse t = f_path f.
Proof.
  revert t. unfold ExtModel.process_files. induction files as [|f files IH] using rev_ind; intros t H.
  - cbn [fold_left] in H. unfold get_context in H. cbn [mget] in H. left. unfold ExtModel.import_templates in H. apply fold_get in H. destruct H as [H|H]; [discriminate H|]. apply filter_In in H. destruct H as (I & B). split; [exact I|]. cbn [fst snd] in B. destruct (str_eqb_spec x (t_parse t)); [discriminate B|assumption].
  - rewrite fold_left_app in H. cbn [fold_left] in H. rewrite context_step in H.
    assert (K : In (x, t) main /\ x <> t_parse t \/ (exists f0, In f0 files /\ t_parse t = f_path f0) -> In (x, t) main /\ x <> t_parse t \/ (exists f0, In f0 (files ++ [f]) /\ t_parse t = f_path f0)).
    { intros [A|(f0 & I & P)]; [left; exact A|right; exists f0; split; [apply in_or_app; left; exact I|exact P]]. }
    destruct (eq_str (path_dir (f_path f)) d); [|apply K, IH, H]. destruct (fold_get _ _ _ _ H) as [G|I]; [apply K, IH, G|]. right. exists f. split; [apply in_or_app; right; left; reflexivity|]. unfold trees_of in I. apply in_map_iff in I. destruct I as ([k b] & Q & _). injection Q as <- <-. reflexivity.
Qed.
Lemma contexts_nodup main files : NoDup (mkeys main) -> NoDup (mkeys (process_files main files)) /\ forall d t, mget (process_files main files) d = Some t -> NoDup (mkeys t) /\ exists f, In f files /\ path_dir (f_path f) = d.
Proof.
  intros N. unfold ExtModel.process_files. induction files as [|f files (IH1 & IH2)] using rev_ind; [split; [constructor | intros d t H; discriminate H]|]. rewrite fold_left_app. cbn [fold_left]. split; [apply NoDup_mset, IH1|].
  intros d t. unfold ExtModel.process_file at 1. cbv zeta. rewrite mget_mset. destruct (str_eqb_spec d (path_dir (f_path f))) as [->|NE].
  - intros H. injection H as <-. split; [|exists f; split; [apply in_or_app; right; left; reflexivity|reflexivity]]. apply fold_nodup. unfold get_context. destruct (mget (fold_left (process_file main) files []) (path_dir (f_path f))) as [t|] eqn:G; [apply (IH2 _ _ G) | apply import_nodup; constructor].
  - intros H. destruct (IH2 d t H) as (A & g & I & E). split; [exact A|]. exists g. split; [apply in_or_app; left; exact I | exact E].
Qed.
Lemma contexts_all main files f : In f files -> exists t, mget (process_files main files) (path_dir (f_path f)) = Some t.
Proof.
  unfold ExtModel.process_files. induction files as [|g files IH] using rev_ind; intros I; [destruct I|]. rewrite fold_left_app. cbn [fold_left]. unfold ExtModel.process_file at 1. cbv zeta. rewrite mget_mset. destruct (str_eqb_spec (path_dir (f_path f)) (path_dir (f_path g))); [eexists; reflexivity|].
  apply in_app_or in I. destruct I as [I|[E|[]]]; [apply IH, I | subst; congruence].
Qed.

(** ** Extensions *)
Lemma load_body nothing visits x : x <> main_name -> Forall (fun v => NoDup (mkeys v)) visits -> body (load_extensions empty nothing visits) x = picks (flat_map (fun v => brings v x) visits) None.
Proof.
  intros NX F. unfold load_extensions. assert (B : body [(main_name, Tree main_name nothing)] x = None). { unfold body. cbn [mget]. destruct (str_eqb_spec x main_name); [contradiction|reflexivity]. } revert B. generalize [(main_name, Tree main_name nothing)]. generalize (@None T).
  induction F as [|v visits N F IH]; intros o m B; [exact B|]. cbn [fold_left flat_map]. unfold picks. rewrite fold_left_app. apply IH. rewrite import_body by exact N. rewrite B. reflexivity.
Qed.
Lemma brings_perm (v v' : @table T) x : NoDup (mkeys v) -> Permutation v v' -> brings v x = brings v' x /\ NoDup (mkeys v').
Proof.
  intros N P. assert (N' : NoDup (mkeys v')) by (eapply Permutation_NoDup; [|exact N]; unfold mkeys; apply Permutation_map; exact P). split; [|exact N'].
  unfold brings. destruct (mget v x) as [t|] eqn:G.
  - apply get_in in G; [|exact N]. apply (Permutation_in _ P) in G. apply (get_in v' x t N') in G. rewrite G. reflexivity.
  - destruct (mget v' x) as [t|] eqn:G'; [|reflexivity]. apply get_in in G'; [|exact N']. apply (Permutation_in _ (Permutation_sym P)) in G'. apply (get_in v x t N) in G'. congruence.
Qed.
Lemma visits_brings files visits x : orders (process_files [] files) visits ->
  Forall (fun v => NoDup (mkeys v)) visits /\ (forall b, In b (flat_map (fun v => brings v x) visits) <-> exists d t, mget (process_files [] files) d = Some t /\ In b (brings t x)).
Proof.
  intros (l & P & F2). destruct (contexts_nodup [] files (NoDup_nil _)) as (ND & TD).
  assert (FL : Forall (fun v => NoDup (mkeys v)) l). { apply Forall_forall. intros v I. apply (Permutation_in _ (Permutation_sym P)) in I. apply in_map_iff in I. destruct I as ([d t] & <- & I). apply (get_in _ _ _ ND) in I. apply (TD d t I). }
  assert (Q : Forall (fun v => NoDup (mkeys v)) visits /\ flat_map (fun v => brings v x) visits = flat_map (fun v => brings v x) l).
  { clear P. induction F2 as [|a b l visits PM F2 IH]; [split; [constructor|reflexivity]|]. inversion FL as [|? ? NA FL']; subst. destruct (IH FL') as (A & B). destruct (brings_perm a b x NA PM) as (E & NB). split; [constructor; assumption|]. cbn [flat_map]. rewrite B, E. reflexivity. }
  destruct Q as (Q1 & ->). split; [exact Q1|]. intros b. rewrite in_flat_map. split.
  - intros (v & I & B). apply (Permutation_in _ (Permutation_sym P)) in I. apply in_map_iff in I. destruct I as ([d t] & <- & I). apply (get_in _ _ _ ND) in I. exists d, t. split; assumption.
  - intros (d & t & G & B). exists t. split; [|exact B]. apply (Permutation_in _ P). apply in_map_iff. exists (d, t). split; [reflexivity|]. apply (get_in _ _ _ ND), G.
Qed.
Lemma child_brings files d t x : (forall f, In f files -> f_path f <> x) -> mget (process_files [] files) d = Some t -> picks (defs_in d x files) None = match brings t x with b :: _ => Some b | [] => None end /\ (forall b c, brings t x = b :: c -> c = []).
Proof.
  intros NP G. pose proof (context_body [] files d x (NoDup_nil _)) as B. unfold get_context in B. rewrite G in B. change (brings [] x) with (@nil T) in B. cbn [app] in B. rewrite <- B. unfold body, brings. destruct (mget t x) as [e|] eqn:GT; [|split; [reflexivity|discriminate]].
  destruct (context_parse [] files d x e) as [([] & _)|(f & I & PF)]; [unfold get_context; rewrite G; exact GT|]. destruct (eq_str x (t_parse e)) as [EQ|_]; [exfalso; apply (NP f I); congruence|]. split; [reflexivity|]. intros b c H. injection H as _ <-. reflexivity.
Qed.
Lemma no_files files d x : (forall f, In f files -> path_dir (f_path f) <> d) -> @defs_in T d x files = [].
Proof. induction files as [|f files IH]; intros N; [reflexivity|]. unfold defs_in in *. cbn [flat_map]. destruct (eq_str (path_dir (f_path f)) d) as [E|_]; [exfalso; apply (N f (or_introl eq_refl) E)|]. apply IH. intros g I. apply N. right. exact I. Qed.
Lemma has_files files d x : @defs_in T d x files <> [] -> exists t, mget (process_files [] files) d = Some t.
Proof.
  intros N. destruct (mget (process_files [] files) d) as [t|] eqn:G; [exists t; reflexivity|]. exfalso. apply N, no_files. intros f I E. destruct (contexts_all [] files f I) as (t & H). rewrite E in H. congruence.
Qed.
Lemma loaded_some nothing files visits x t : (forall f, In f files -> f_path f <> x) -> x <> main_name -> orders (process_files [] files) visits ->
  mget (load_extensions empty nothing visits) x = Some t -> exists d, chosen (defs_in d x files) (t_body t).
Proof.
  intros NP NX O G. destruct (visits_brings files visits x O) as (F & VB). pose proof (load_body nothing visits x NX F) as B. unfold body in B. rewrite G in B. cbn [option_map] in B. symmetry in B. apply picks_chosen, chosen_in, VB in B. destruct B as (d & c & GC & I). exists d. apply picks_chosen. destruct (child_brings files d c x NP GC) as (P & S). rewrite P. destruct (brings c x) as [|b l]; [destruct I|]. rewrite (S b l eq_refl) in I. destruct I as [I|[]]. rewrite I. reflexivity.
Qed.
Lemma loaded_none nothing files visits x : (forall f, In f files -> f_path f <> x) -> x <> main_name -> orders (process_files [] files) visits ->
  mget (load_extensions empty nothing visits) x = None <-> forall d, defs_in d x files = [].
Proof.
  intros NP NX O. destruct (visits_brings files visits x O) as (F & VB). pose proof (load_body nothing visits x NX F) as B. unfold body in B. split.
  - intros G d. rewrite G in B. symmetry in B. apply picks_none in B. destruct (defs_in d x files) as [|y l] eqn:D; [reflexivity|]. exfalso. destruct (has_files files d x) as (t & GT); [rewrite D; discriminate|]. destruct (child_brings files d t x NP GT) as (P & _). destruct (brings t x) as [|b c] eqn:BR.
    + apply picks_none in P. congruence.
    + assert (I : In b (flat_map (fun v => brings v x) visits)) by (apply VB; exists d, t; split; [exact GT | rewrite BR; left; reflexivity]). rewrite B in I. destruct I.
  - intros D. destruct (mget (load_extensions empty nothing visits) x) as [t|] eqn:G; [|reflexivity]. exfalso. destruct (loaded_some nothing files visits x t NP NX O G) as (d & C). rewrite D in C. apply chosen_in in C. destruct C.
Qed.
Lemma loaded_any nothing files x d b : (forall f, In f files -> f_path f <> x) -> x <> main_name -> chosen (defs_in d x files) b -> empty b = false ->
  exists visits t, orders (process_files [] files) visits /\ mget (load_extensions empty nothing visits) x = Some t /\ t_body t = b.
Proof.
  intros NP NX C E. destruct (has_files files d x) as (t & G); [intros Z; rewrite Z in C; apply chosen_in in C; destruct C|]. destruct (contexts_nodup [] files (NoDup_nil _)) as (ND & TD). destruct (child_brings files d t x NP G) as (P & S).
  assert (BR : brings t x = [b]). { destruct (brings t x) as [|y l]; [apply picks_none in P; rewrite P in C; apply chosen_in in C; destruct C|]. rewrite (S y l eq_refl). apply picks_chosen in P. rewrite (chosen_fun _ _ _ C P). reflexivity. }
  apply (get_in _ _ _ ND) in G. destruct (in_split _ _ G) as (l1 & l2 & SP).
  assert (O : orders (process_files [] files) (map snd (l1 ++ l2) ++ [t])).
  { exists (map snd (l1 ++ l2) ++ [t]). split.
    - rewrite SP, !map_app. cbn [map snd]. rewrite <- app_assoc. apply Permutation_app_head. apply Permutation_cons_append.
    - generalize (map snd (l1 ++ l2) ++ [t]). induction l as [|v l IH]; constructor; [apply Permutation_refl | exact IH]. }
  destruct (visits_brings files _ x O) as (F & _). pose proof (load_body nothing _ x NX F) as B. rewrite flat_map_app in B. cbn [flat_map] in B. rewrite BR in B. cbn [app] in B. unfold picks in B. rewrite fold_left_app in B. cbn [fold_left] in B.
  assert (PB : forall o, pick o b = Some b) by (intros [a|]; cbn [pick]; [rewrite E|]; reflexivity). rewrite PB in B. unfold body in B. destruct (mget (load_extensions empty nothing (map snd (l1 ++ l2) ++ [t])) x) as [e|] eqn:GE; [|discriminate B]. injection B as B. exists (map snd (l1 ++ l2) ++ [t]), e. split; [exact O|]. split; assumption.
Qed.
End Ext.
