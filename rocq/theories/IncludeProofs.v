(** Proofs about running templates from templates. *)
From Coq Require Import String Ascii List ZArith NArith Bool Permutation Lia.
From Verif Require Import GoStr GoStrFacts ValueModel ValueFacts ListModel DictModel HeapModel HeapSpec HeapProofs HeapTree PathModel IncludeModel IncludeSpec.
Import ListNotations.

(** ** Cyclic data *)
Lemma walks_reach h v p : leads_to h v p -> forall n, walks n h v = true -> exists m i, m <= n /\ walks m h (HDict i p) = true.
Proof.
  induction 1 as [i p|i p k v q I L IH|i s v q I L IH]; intros n W; [exists n, i; auto| |].
  - destruct n as [|n]; [discriminate|]. cbn [walks] in W. rewrite forallb_forall in W. destruct (IH n (W _ I)) as (m & j & A & B). exists m, j. split; [lia|exact B].
  - destruct n as [|n]; [discriminate|]. cbn [walks] in W. rewrite forallb_forall in W. destruct (IH n (W _ I)) as (m & j & A & B). exists m, j. split; [lia|exact B].
Qed.
Lemma walks_loop h p k w : In (k, w) (map_at h p) -> leads_to h w p -> forall n i, walks n h (HDict i p) = false.
Proof.
  intros I L n. induction n as [n IH] using lt_wf_ind. intro i. destruct n as [|n]; [reflexivity|]. destruct (walks (S n) h (HDict i p)) eqn:W; [|reflexivity]. cbn [walks] in W. rewrite forallb_forall in W.
  destruct (walks_reach h w p L n (W _ I)) as (m & j & A & B). rewrite IH in B by lia. discriminate.
Qed.
Lemma walks_cyclic h v : cyclic h v -> forall n, walks n h v = false.
Proof.
  intros (p & k & w & A & I & L) n. destruct (walks n h v) eqn:W; [|reflexivity]. destruct (walks_reach h v p A n W) as (m & i & _ & B). rewrite (walks_loop h p k w I L) in B. discriminate.
Qed.
Lemma map_at_in h p kv : In kv (map_at h p) -> p < length h.
Proof. unfold map_at, hget. destruct (nth_error h p) eqn:N; [|intros []]. intros _. apply nth_error_Some. congruence. Qed.
Lemma contents_in h s v : In v (contents h s) -> s_arr s < length h.
Proof.
  unfold contents, cells_at, hget. destruct (nth_error h (s_arr s)) eqn:N; [intros _; apply nth_error_Some; congruence|]. rewrite skipn_nil, firstn_nil. intros [].
Qed.
Lemma map_at_keeps h h' p : keeps h h' -> p < length h -> map_at h' p = map_at h p.
Proof. intros K L. unfold map_at. rewrite K by exact L. reflexivity. Qed.
Lemma leads_keeps h h' v p : keeps h h' -> leads_to h v p -> leads_to h' v p.
Proof.
  intros K. induction 1 as [i p|i p k v q I L IH|i s v q I L IH]; [constructor| |].
  - apply (lt_dict h' i p k v q); [|exact IH]. rewrite (map_at_keeps h h' p K); [exact I|apply map_at_in in I; exact I].
  - apply (lt_list h' i s v q); [|exact IH]. rewrite (contents_frame h h' s); [exact I|apply K, (contents_in _ _ _ I)].
Qed.
Lemma cyclic_keeps h h' v : keeps h h' -> cyclic h v -> cyclic h' v.
Proof.
  intros K (p & k & w & A & I & L). exists p, k, w. split; [apply (leads_keeps h); assumption|]. split; [rewrite (map_at_keeps h h' p K); [exact I|apply map_at_in in I; exact I]|apply (leads_keeps h); assumption].
Qed.
Lemma keeps_app h o : keeps h (h ++ o).
Proof. intros x L. apply hget_app_old, L. Qed.
Lemma keeps_trans a b c : keeps a b -> length a <= length b -> keeps b c -> keeps a c.
Proof. intros A L B x X. rewrite B by lia. apply A, X. Qed.
Lemma keeps_set h h' n k v : keeps h h' -> length h <= n -> keeps h (h_dict_set h' n k v).
Proof. intros K L x X. unfold h_dict_set. rewrite hget_hput_ne by lia. apply K, X. Qed.
Lemma set_length h n k v : length (h_dict_set h n k v) = length h.
Proof. apply hput_length. Qed.
Lemma map_set_eq h n k v : n < length h -> map_at (h_dict_set h n k v) n = mset (map_at h n) k v.
Proof. intro L. unfold map_at at 1, h_dict_set. rewrite hget_hput_eq by exact L. reflexivity. Qed.
Lemma map_set_ne h n k v x : x <> n -> map_at (h_dict_set h n k v) x = map_at h x.
Proof. intro N. unfold map_at, h_dict_set. rewrite hget_hput_ne by exact N. reflexivity. Qed.

Section Include.
Context {E : Engine}.
Variable grow : nat -> nat -> nat.
Variable d : impl.
Variable constants : list str.
Variable folder : str.
Variable accept_no_value : bool.
Notation run := (run grow d constants folder accept_no_value).
Notation setup := (setup grow d constants).

(** ** The context is restored *)
Lemma find_context st s : s_context (fst (find_template folder st s)) = s_context st /\ s_error (fst (find_template folder st s)) = s_error st /\ s_heap (fst (find_template folder st s)) = s_heap st.
Proof.
  unfold find_template. destruct (mget _ _); [auto|]. destruct (contains _ _); [destruct (parse _) as [[t df]|]; auto|]. destruct (read_file _); try destruct (parse _) as [[t df]|]; auto.
Qed.
Lemma run_restores fuel clone source args st st' o : run fuel clone source args st = Some (st', o) -> s_context st' = s_context st.
Proof.
  destruct fuel as [|f]; [discriminate|]. cbn [IncludeModel.run]. destruct source as [|c source]; [intro H; inversion H; reflexivity|]. destruct (setup f clone args st) as [[st1 data]|]; [|discriminate].
  destruct (find_template folder st1 (c :: source)) as [st2 [t src fname|fname e]]; [|intro H; inversion H; reflexivity].
  destruct (interpret _ _ _) as [[st3 o3]|]; [|discriminate]. destruct o3 as [[out [e|]]|]; destruct clone; try (intro H; inversion H; reflexivity).
  destruct (run f true src args _) as [[st4 o4]|]; [|discriminate]. intro H; inversion H; reflexivity.
Qed.
Definition option_kept (st st' : state) : Prop := s_error st' = s_error st \/ s_error st' = false.
Lemma run_option : forall fuel clone source args st st' o, run fuel clone source args st = Some (st', o) -> option_kept st st'.
Proof.
  intros fuel clone source args st st' o. destruct fuel as [|f]; [discriminate|]. cbn [IncludeModel.run]. destruct source as [|c source]; [intro H; inversion H; left; reflexivity|]. unfold setup.
  destruct (new_context _ _ _ _ _ _ _) as [[[h1 i] n]|]; [|discriminate]. destruct (with_arguments _ _ _ _ _ _) as [[h2 data]|]; [|discriminate].
  match goal with |- context [find_template folder ?x ?y] => pose proof (find_context x y) as FC; destruct (find_template folder x y) as [st2 [t src fname|fname e]] end; cbn [fst] in FC; destruct FC as (_ & FE & _).
  - destruct (interpret _ _ _) as [[st3 o3]|] eqn:I; [|discriminate].
    assert (T : clone = true -> s_error st3 = false).
    { intros ->. assert (X : forall p st0 r, interpret (run f false) p st0 = Some r -> s_error st0 = false -> s_error (fst r) = false).
      { clear. induction p as [out e| |g k IH|k IH|s a k IH]; intros st0 r H Z; cbn [interpret] in H; try (inversion H; exact Z).
        - apply (IH _ _ H Z).
        - apply (IH _ _ _ _ _ H Z).
        - destruct (run f false s a st0) as [[st1 o1]|] eqn:R; [|discriminate]. apply (IH _ _ _ H). revert R Z. clear. revert s a st0 st1 o1. induction f as [|f IHf]; intros s a st0 st1 o1 R Z; [discriminate|]. cbn [IncludeModel.run] in R. destruct s as [|c s]; [inversion R; subst; exact Z|].
          unfold setup in R. destruct (new_context _ _ _ _ _ _ _) as [[[h1 i] n]|]; [|discriminate]. destruct (with_arguments _ _ _ _ _ _) as [[h2 data]|]; [|discriminate].
          match type of R with context [find_template folder ?x ?y] => pose proof (find_context x y) as FC; destruct (find_template folder x y) as [st2 [t src fname|fname e]] end; cbn [fst] in FC; destruct FC as (_ & FE & _); [|inversion R; subst; cbn; rewrite FE; exact Z].
          destruct (interpret _ _ _) as [[st3 o3]|]; [|discriminate]. destruct o3 as [[out [e|]]|]; try (inversion R; reflexivity). destruct (run f true src a _) as [[st4 o4]|]; [|discriminate]. inversion R; reflexivity. }
      exact (X _ _ _ I eq_refl). }
    destruct o3 as [[out [e|]]|]; destruct clone; try (intro H; inversion H; subst; right; first [reflexivity|exact (T eq_refl)]).
    destruct (run f true src args _) as [[st4 o4]|]; [|discriminate]. intro H; inversion H; right; reflexivity.
  - intro H; inversion H; subst. left. cbn. exact FE.
Qed.

(** ** Cycles *)
Lemma copy_keeps f c p : forall ks h h', copy_constants f h c p ks = Some h' -> length h' = length h /\ forall h0, keeps h0 h -> length h0 <= p -> keeps h0 h'.
Proof.
  induction ks as [|k ks IH]; intros h h' H; [inversion H; subst; auto|]. cbn [copy_constants] in H. destruct (context_get f h c k) as [v|]; [|discriminate]. unfold set_key in H. destruct (walks f h v); [|discriminate].
  destruct (IH _ _ H) as [A B]. rewrite set_length in A. split; [exact A|]. intros h0 K L. apply B; [apply keeps_set; assumption|exact L].
Qed.
Lemma run_cyclic fuel clone source args st : source <> [] -> cyclic (s_heap st) (s_context st) -> run fuel clone source args st = None.
Proof.
  intros NS C. destruct fuel as [|f]; [reflexivity|]. cbn [IncludeModel.run]. destruct source as [|c source]; [contradiction|].
  assert (N : setup f clone args st = None); [|rewrite N; reflexivity]. unfold setup.
  assert (X : new_context grow d constants f clone (s_heap st) (s_context st) = None); [|rewrite X; reflexivity]. unfold new_context. pose proof (walks_cyclic _ _ C f) as W.
  destruct clone.
  - destruct (s_context st) as [|sc|i s|i p] eqn:SC; try (rewrite W; reflexivity).
    + exfalso. destruct C as (q & k & w & A & _). inversion A.
    + exfalso. destruct C as (q & k & w & A & _). inversion A.
    + unfold set_key. rewrite walks_cyclic; [reflexivity|]. apply (cyclic_keeps (s_heap st)); [apply keeps_app|exact C].
  - destruct (copy_constants f _ _ _ constants) as [h1|] eqn:CC; [|reflexivity]. unfold set_key. rewrite walks_cyclic; [reflexivity|].
    destruct (copy_keeps _ _ _ _ _ _ CC) as [_ K]. apply (cyclic_keeps (s_heap st)); [apply K; [apply keeps_app|lia]|exact C].
Qed.

(** ** What the template sees *)
Definition looked (h : heap) (c : hval) (k : str) : hval := match c with HDict _ p => match mget (map_at h p) k with Some v => v | None => HNil end | _ => HNil end.
Lemma get_looked f h c k v : context_get f h c k = Some v -> v = looked h c k.
Proof. unfold context_get, looked. destruct c; try (intro H; inversion H; reflexivity). destruct (walks _ _ _); [|discriminate]. intro H; inversion H. reflexivity. Qed.
Lemma looked_keeps h h' c k : keeps h h' -> (forall i p, c = HDict i p -> p < length h) -> looked h' c k = looked h c k.
Proof. intros K L. unfold looked. destruct c; try reflexivity. rewrite (map_at_keeps h h') by eauto. reflexivity. Qed.
Lemma copy_map f c p : forall ks h h', p < length h -> (forall i q, c = HDict i q -> q <> p) -> copy_constants f h c p ks = Some h' ->
  forall k, mget (map_at h' p) k = if mem_str k ks then Some (looked h c k) else mget (map_at h p) k.
Proof.
  induction ks as [|k0 ks IH]; intros h h' L NE H k; [inversion H; subst; reflexivity|]. cbn [copy_constants] in H. destruct (context_get f h c k0) as [v|] eqn:G; [|discriminate]. unfold set_key in H. destruct (walks f h v); [|discriminate].
  apply get_looked in G. subst v. rewrite (IH _ _ ltac:(rewrite set_length; exact L) NE H k). cbn [mem_str].
  assert (LK : looked (h_dict_set h p k0 (looked h c k0)) c k = looked h c k).
  { unfold looked at 1. destruct c as [| | |i q]; try reflexivity. rewrite map_set_ne by (exact (NE i q eq_refl)). reflexivity. }
  rewrite LK. rewrite map_set_eq by exact L. rewrite mget_mset. destruct (str_eqb_spec k k0) as [->|_]; destruct (mem_str _ ks); reflexivity.
Qed.
Definition context_entry (h : heap) (parent : hval) (k : str) : option hval :=
  if str_eqb k $"_" then Some parent else if mem_str k constants then Some (looked h parent k) else None.
Lemma new_context_first f h parent h1 i n : (forall i p, parent = HDict i p -> p < length h) -> new_context grow d constants f false h parent = Some (h1, i, n) ->
  i = d /\ n = length h /\ length h1 = S (length h) /\ keeps h h1 /\ forall k, mget (map_at h1 n) k = context_entry h parent k.
Proof.
  intros PL H. unfold new_context in H. destruct (copy_constants f _ _ _ constants) as [h0|] eqn:CC; [|discriminate]. unfold set_key in H. destruct (walks f h0 parent); [|discriminate]. inversion H; subst. clear H.
  destruct (copy_keeps _ _ _ _ _ _ CC) as [LN K]. rewrite app_length in LN. cbn [length] in LN. split; [reflexivity|]. split; [reflexivity|]. rewrite set_length. split; [lia|].
  split; [apply keeps_set; [apply K; [apply keeps_app|lia]|lia]|]. intro k. rewrite map_set_eq by lia. rewrite mget_mset. unfold context_entry. change $"_" with ["_"%char]. destruct (str_eqb k ["_"%char]); [reflexivity|].
  assert (L1 : length h < length (h ++ [OMap []])) by (rewrite app_length; cbn; lia). assert (NE : forall i q, parent = HDict i q -> q <> length h) by (intros i0 q EQ; pose proof (PL i0 q EQ); lia).
  rewrite (copy_map f parent (length h) constants _ _ L1 NE CC k).
  rewrite (looked_keeps h (h ++ [OMap []]) parent k (keeps_app h _) PL). unfold map_at at 1. rewrite hget_app_new. reflexivity.
Qed.
Lemma entry_given h parent k : given constants h parent k (context_entry h parent k).
Proof.
  unfold context_entry. destruct (str_eqb_spec k $"_") as [->|N]; [apply given_parent; reflexivity|]. destruct (mem_str k constants) eqn:M.
  - apply given_constant; [exact N|apply mem_str_In, M| |].
    + intros i p ->. cbn [looked]. split; [intros w ->; reflexivity|intros ->; reflexivity].
    + destruct parent; cbn [is_dict looked]; congruence.
  - apply given_nothing; [exact N|]. intro I. apply mem_str_In in I. congruence.
Qed.
(** A merge without nested dictionaries on both sides. *)
Lemma flat_loop rec p q : p <> q -> forall ks h, p < length h -> (forall k i a j b, In k ks -> mget (map_at h p) k = Some (HDict i a) -> mget (map_at h q) k = Some (HDict j b) -> False) ->
  NoDup ks ->
  exists h', fold_left (merge_step rec p q) ks (Some h) = Some h' /\ length h' = length h /\ (forall x, x <> p -> hget h' x = hget h x) /\
    forall k, mget (map_at h' p) k = match mget (map_at h p) k with Some v => Some v | None => if mem_str k ks then mget (map_at h q) k else None end.
Proof.
  intros NE. induction ks as [|k0 ks IH]; intros h L ND NK.
  - exists h. cbn [fold_left]. repeat split; auto. intro k. cbn [mem_str]. destruct (mget (map_at h p) k); reflexivity.
  - cbn [fold_left]. inversion NK as [|? ? NI NK']; subst.
    assert (ST : merge_step rec p q (Some h) k0 = Some (match mget (map_at h q) k0, mget (map_at h p) k0 with Some sv, None => h_dict_set h p k0 sv | _, _ => h end)).
    { cbn [merge_step]. destruct (mget (map_at h q) k0) as [sv|] eqn:Q; [|reflexivity]. destruct (mget (map_at h p) k0) as [tv|] eqn:P; [|reflexivity]. destruct tv as [| | |i a]; try reflexivity. destruct sv as [| | |j b]; try reflexivity. destruct (ND k0 i a j b (or_introl eq_refl) P Q). }
    rewrite ST. assert (SAME : (mget (map_at h q) k0 = None \/ mget (map_at h p) k0 <> None) -> exists h', fold_left (merge_step rec p q) ks (Some h) = Some h' /\ length h' = length h /\ (forall x, x <> p -> hget h' x = hget h x) /\
      forall k, mget (map_at h' p) k = match mget (map_at h p) k with Some v => Some v | None => if mem_str k (k0 :: ks) then mget (map_at h q) k else None end).
    { intro C. destruct (IH h L ltac:(intros; eapply ND; [right|..]; eassumption) NK') as (h' & A & B & C' & D). exists h'. repeat split; auto. intro k. rewrite D. cbn [mem_str]. destruct (str_eqb_spec k k0) as [->|_]; [|reflexivity].
      destruct (mget (map_at h p) k0); [reflexivity|]. destruct C as [->|C]; [cbn [orb]; destruct (mem_str k0 ks); reflexivity|congruence]. }
    destruct (mget (map_at h q) k0) as [sv|] eqn:Q; [|apply SAME; auto]. destruct (mget (map_at h p) k0) as [tv|] eqn:P; [apply SAME; right; discriminate|]. clear SAME.
    destruct (IH (h_dict_set h p k0 sv)) as (h' & A & B & C & D).
    + rewrite set_length. exact L.
    + rewrite (map_set_ne h p k0 sv q) by congruence. rewrite map_set_eq by exact L. intros k i a j b I X Y. rewrite mget_mset in X. destruct (str_eqb_spec k k0) as [->|_]; [contradiction|]. eapply ND; [right|..]; eassumption.
    + exact NK'.
    + exists h'. split; [exact A|]. rewrite set_length in B. split; [exact B|]. split.
      * intros x N. rewrite C by exact N. unfold h_dict_set. apply hget_hput_ne, N.
      * intro k. rewrite D. rewrite map_set_eq by exact L. rewrite (map_set_ne h p k0 sv q) by congruence. rewrite mget_mset. cbn [mem_str]. destruct (str_eqb_spec k k0) as [->|_]; [rewrite P; cbn [orb]; congruence|reflexivity].
Qed.
Lemma setup_argument f i a st st' data m : hget (s_heap st) a = Some (OMap m) -> (forall j p, s_context st = HDict j p -> p < length (s_heap st)) ->
  (forall k v w, mget m k = Some v -> given constants (s_heap st) (s_context st) k (Some w) -> is_dict v = true -> is_dict w = true -> False) ->
  setup f false [HDict i a] st = Some (st', data) ->
  data = HDict i a /\ s_error st' = s_error st /\ s_templates st' = s_templates st /\ only a (s_heap st) (s_heap st') /\
  exists n, s_context st' = HDict d n /\ length (s_heap st) <= n /\
    (forall k, given constants (s_heap st) (s_context st) k (mget (map_at (s_heap st') n) k)) /\
    (forall k v, mget m k = Some v -> mget (map_at (s_heap st') a) k = Some v) /\
    (forall k, mget m k = None -> given constants (s_heap st) (s_context st) k (mget (map_at (s_heap st') a) k)).
Proof.
  intros A PL ND H. unfold IncludeModel.setup in H. destruct (new_context grow d constants f false (s_heap st) (s_context st)) as [[[h1 j] n]|] eqn:NC; [|discriminate H].
  destruct (new_context_first _ _ _ _ _ _ PL NC) as (-> & -> & LN & K & EN). unfold with_arguments in H. cbn [as_arguments] in H. destruct (walks f h1 (HDict i a)); [|discriminate H].
  match type of H with context [h_merge f h1 a ?l] => destruct (h_merge f h1 a l) as [h2|] eqn:M end; [|discriminate H]. inversion H; subst; clear H.
  assert (LA : a < length (s_heap st)) by (apply hget_lt in A; exact A). assert (MA : map_at h1 a = m) by (unfold map_at; rewrite K, A by exact LA; reflexivity).
  cbn [h_merge] in M. destruct (h_deep_merge f h1 a (length (s_heap st))) as [h3|] eqn:DM; [|discriminate M]. inversion M; subst h3; clear M. destruct f as [|f]; [discriminate|]. cbn [h_deep_merge] in DM.
  assert (NK : forall ks h, fold_left (merge_step (h_deep_merge f) a (length (s_heap st))) ks (Some h) = fold_left (merge_step (h_deep_merge f) a (length (s_heap st))) ks (Some h)) by reflexivity. clear NK.
  assert (NDK : NoDup (mkeys (map_at h1 (length (s_heap st))))).
  { unfold new_context in NC. destruct (copy_constants _ _ _ _ constants) as [h0|] eqn:CC; [|discriminate]. unfold set_key in NC. destruct (walks _ _ _); [|discriminate]. inversion NC; subst.
    rewrite map_set_eq by (destruct (copy_keeps _ _ _ _ _ _ CC) as [-> _]; rewrite app_length; cbn; lia). apply NoDup_mset.
    assert (G : forall ks h h', copy_constants (S f) h (s_context st) (length (s_heap st)) ks = Some h' -> length (s_heap st) < length h -> NoDup (mkeys (map_at h (length (s_heap st)))) -> NoDup (mkeys (map_at h' (length (s_heap st))))).
    { induction ks as [|k ks IHk]; intros h h' C L0 N0; [inversion C; subst; exact N0|]. cbn [copy_constants] in C. destruct (context_get _ _ _ _) as [v|]; [|discriminate]. unfold set_key in C. destruct (walks _ _ _); [|discriminate].
      apply (IHk _ _ C); [rewrite set_length; exact L0|]. rewrite map_set_eq by exact L0. apply NoDup_mset, N0. }
    apply (G _ _ _ CC); [rewrite app_length; cbn; lia|]. unfold map_at. rewrite hget_app_new. constructor. }
  destruct (flat_loop (h_deep_merge f) a (length (s_heap st)) ltac:(lia) (mkeys (map_at h1 (length (s_heap st)))) h1 ltac:(lia)) as (h' & FL & LH & FR & MG); [| |].
  { intros k i1 a1 j1 b1 _ X Y. rewrite MA in X. rewrite EN in Y. apply (ND k _ (HDict j1 b1) X); [|reflexivity|reflexivity]. rewrite <- Y. apply entry_given. }
  { exact NDK. }
  pose proof (eq_trans (eq_sym DM) FL) as EQ. inversion EQ; subst h'. clear EQ. cbn [s_heap s_context s_error s_templates with_context with_heap]. split; [reflexivity|]. split; [reflexivity|]. split; [reflexivity|]. split.
  { intros x LX NX. rewrite FR by exact NX. apply K, LX. }
  exists (length (s_heap st)). split; [reflexivity|]. split; [lia|]. split; [|split].
  - intro k. assert (MN : map_at h2 (length (s_heap st)) = map_at h1 (length (s_heap st))) by (unfold map_at; rewrite FR by lia; reflexivity). rewrite MN, EN. apply entry_given.
  - intros k v X. rewrite MG, MA, X. reflexivity.
  - intros k X. rewrite MG, MA, X. destruct (mem_str k (mkeys (map_at h1 (length (s_heap st))))) eqn:MS.
    + rewrite EN. apply entry_given.
    + assert (Y : mget (map_at h1 (length (s_heap st))) k = None).
      { destruct (mget (map_at h1 (length (s_heap st))) k) eqn:Y; [|reflexivity]. exfalso. assert (I : In k (mkeys (map_at h1 (length (s_heap st))))) by (apply mget_keys; eauto). apply mem_str_In in I. congruence. }
      rewrite <- Y. rewrite EN. apply entry_given.
Qed.
Lemma setup_other f args st st' data : (forall j p, s_context st = HDict j p -> p < length (s_heap st)) -> (forall i a, args <> [HDict i a]) -> args <> [HNil] ->
  setup f false args st = Some (st', data) ->
  keeps (s_heap st) (s_heap st') /\ s_error st' = s_error st /\ s_templates st' = s_templates st /\
  exists n s, data = HDict d n /\ s_context st' = HDict d n /\ length (s_heap st) <= n /\ mget (map_at (s_heap st') n) $"ARGS" = Some (HList d s) /\ contents (s_heap st') s = args /\
    (forall k, k <> $"ARGS" -> given constants (s_heap st) (s_context st) k (mget (map_at (s_heap st') n) k)).
Proof.
  intros PL NA NN H. unfold IncludeModel.setup in H. destruct (new_context grow d constants f false (s_heap st) (s_context st)) as [[[h1 j] n]|] eqn:NC; [|discriminate H].
  destruct (new_context_first _ _ _ _ _ _ PL NC) as (-> & -> & LN & K & EN). assert (AA : as_arguments d h1 args = None).
  { unfold as_arguments. destruct args as [|[| | |i a] [|? ?]]; try reflexivity; [contradiction|destruct (NA i a eq_refl)]. }
  unfold with_arguments in H. rewrite AA in H. unfold new_args, halloc in H. unfold set_key in H. match type of H with context [walks f ?h ?v] => destruct (walks f h v) end; [|discriminate]. inversion H; subst; clear H.
  cbn [s_heap s_context s_error s_templates with_context with_heap]. split; [apply keeps_set; [|lia]; apply (keeps_trans _ h1); [exact K|lia|apply keeps_app]|]. split; [reflexivity|]. split; [reflexivity|].
  exists (length (s_heap st)), (Slice (length h1) 0 (length args) (length args)). split; [reflexivity|]. split; [reflexivity|]. split; [lia|].
  assert (L1 : length (s_heap st) < length (h1 ++ [OArr args])) by (rewrite app_length; cbn; lia).
  rewrite map_set_eq by exact L1. rewrite mget_mset_eq. split; [reflexivity|]. split.
  - unfold contents, cells_at. cbn [s_arr s_off s_len]. unfold h_dict_set. rewrite hget_hput_ne by lia. rewrite hget_app_new. cbn [skipn]. apply firstn_all.
  - intros k NK. rewrite mget_mset_ne by (intro X0; apply NK; symmetry; exact X0). assert (MN : map_at (h1 ++ [OArr args]) (length (s_heap st)) = map_at h1 (length (s_heap st))) by (unfold map_at; rewrite hget_app_old by lia; reflexivity). rewrite MN, EN. apply entry_given.
Qed.

(** ** Entries are only added *)
Lemma grows_refl h : grows h h. Proof. split; auto. Qed.
Lemma grows_trans a b c : grows a b -> grows b c -> grows a c.
Proof. intros [A B] [C D]. split; [lia|auto]. Qed.
Lemma map_at_out h p : length h <= p -> map_at h p = [].
Proof. intro L. unfold map_at, hget. rewrite (proj2 (nth_error_None h p) L). reflexivity. Qed.
Lemma grows_set h p k v : (mget (map_at h p) k = None \/ mget (map_at h p) k = Some v) -> grows h (h_dict_set h p k v).
Proof.
  intro C. split; [rewrite set_length; lia|]. intros x k' w I. destruct (Nat.eq_dec x p) as [->|N]; [|rewrite map_set_ne by exact N; exact I].
  destruct (Nat.lt_ge_cases p (length h)) as [L|L]; [|rewrite map_at_out in I by exact L; discriminate].
  rewrite map_set_eq by exact L. rewrite mget_mset. destruct (str_eqb_spec k' k) as [->|_]; [|exact I]. destruct C; congruence.
Qed.
Lemma grows_keeps h h' : keeps h h' -> length h <= length h' -> grows h h'.
Proof.
  intros K L. split; [exact L|]. intros x k v I. rewrite (map_at_keeps h h' x K); [exact I|]. destruct (Nat.lt_ge_cases x (length h)) as [X|X]; [exact X|]. rewrite map_at_out in I by exact X. discriminate.
Qed.
Lemma step_grows rec p q h k h' : (forall h a b h', rec h a b = Some h' -> grows h h') -> merge_step rec p q (Some h) k = Some h' -> grows h h' /\ (p < length h -> mget (map_at h q) k <> None -> mget (map_at h' p) k <> None).
Proof.
  intros R ST. cbn [merge_step] in ST. destruct (mget (map_at h q) k) as [sv|] eqn:Q; [|inversion ST; subst; split; [apply grows_refl|congruence]].
  destruct (mget (map_at h p) k) as [tv|] eqn:P; [|inversion ST; subst; split; [apply grows_set; auto|intros L _; rewrite map_set_eq by exact L; rewrite mget_mset_eq; discriminate]].
  assert (X : grows h h').
  { destruct tv as [| | |i a]; try (inversion ST; subst; apply grows_refl). destruct sv as [| | |j b]; try (inversion ST; subst; apply grows_refl). destruct (rec h a b) as [h3|] eqn:RC; [|discriminate]. inversion ST; subst.
    pose proof (R _ _ _ _ RC) as G3. apply (grows_trans _ h3); [exact G3|]. apply grows_set. right. apply G3, P. }
  split; [exact X|]. intros _ _. rewrite (proj2 X _ _ _ P). discriminate.
Qed.
Lemma none_loop rec p q ks : fold_left (merge_step rec p q) ks None = None.
Proof. induction ks; [reflexivity|exact IHks]. Qed.
Lemma loop_grows rec p q : (forall h a b h', rec h a b = Some h' -> grows h h') -> forall ks h h', fold_left (merge_step rec p q) ks (Some h) = Some h' ->
  grows h h' /\ (p < length h -> forall k, In k ks -> mget (map_at h q) k <> None -> mget (map_at h' p) k <> None).
Proof.
  intros R. induction ks as [|k0 ks IH]; intros h h' H; [inversion H; subst; split; [apply grows_refl|intros _ ? []]|]. cbn [fold_left] in H.
  destruct (merge_step rec p q (Some h) k0) as [h1|] eqn:ST; [|rewrite none_loop in H; discriminate]. destruct (step_grows _ _ _ _ _ _ R ST) as [G1 P1]. destruct (IH _ _ H) as [G2 P2].
  split; [apply (grows_trans _ h1); assumption|]. intros L k [->|I] Q.
  - specialize (P1 L Q). destruct (mget (map_at h1 p) k) as [v|] eqn:V; [|congruence]. rewrite (proj2 G2 _ _ _ V). discriminate.
  - apply P2; [destruct G1; lia|exact I|]. destruct (mget (map_at h q) k) as [v|] eqn:V; [|congruence]. rewrite (proj2 G1 _ _ _ V). discriminate.
Qed.
Lemma merge_grows : forall f h p q h', h_deep_merge f h p q = Some h' -> grows h h'.
Proof. induction f as [|f IH]; intros h p q h' H; [discriminate|]. cbn [h_deep_merge] in H. exact (proj1 (loop_grows _ p q (fun h a b h' => IH h a b h') _ _ _ H)). Qed.
Lemma merge_gets f h p q h' : p < length h -> h_deep_merge f h p q = Some h' -> forall k, mget (map_at h q) k <> None -> mget (map_at h' p) k <> None.
Proof.
  intros L H k Q. destruct f as [|f]; [discriminate|]. cbn [h_deep_merge] in H. apply (proj2 (loop_grows _ p q (merge_grows f) _ _ _ H) L k); [|exact Q].
  apply mget_keys. destruct (mget (map_at h q) k); [eauto|congruence].
Qed.
Lemma arguments_grow f h i n args h' data : n < length h -> with_arguments d f h i n args = Some (h', data) -> forall h0, grows h0 h -> length h0 <= n -> grows h0 h'.
Proof.
  intros LN H h0 G0 L0. unfold with_arguments in H. destruct (as_arguments d h args) as [[[h1 j] a]|] eqn:AA.
  - assert (G1 : grows h h1).
    { unfold as_arguments in AA. destruct args as [|[| | |i0 a0] [|? ?]]; try discriminate; inversion AA; subst; [|apply grows_refl]. apply grows_keeps; [apply keeps_app|rewrite app_length; lia]. }
    destruct (walks f h1 (HDict j a)); [|discriminate H]. cbn [h_merge] in H. destruct (h_deep_merge f h1 a n) as [h2|] eqn:M; [|discriminate H]. inversion H; subst. apply (grows_trans _ h); [exact G0|]. apply (grows_trans _ h1); [exact G1|apply (merge_grows _ _ _ _ _ M)].
  - unfold new_args, halloc, set_key in H. match type of H with context [walks f ?h ?v] => destruct (walks f h v) end; [|discriminate H]. inversion H; subst. split; [rewrite set_length, app_length; destruct G0; lia|].
    intros x k v X. destruct (Nat.lt_ge_cases x (length h0)) as [LX|LX]; [|rewrite map_at_out in X by exact LX; discriminate]. rewrite map_set_ne by lia. rewrite (map_at_keeps h (h ++ [OArr args]) x (keeps_app h _)) by (destruct G0; lia). apply G0, X.
Qed.
Lemma setup_grows f args st st' data : (forall j p, s_context st = HDict j p -> p < length (s_heap st)) -> setup f false args st = Some (st', data) -> grows (s_heap st) (s_heap st').
Proof.
  intros PL H. unfold IncludeModel.setup in H. destruct (new_context grow d constants f false (s_heap st) (s_context st)) as [[[h1 j] n]|] eqn:NC; [|discriminate H].
  destruct (new_context_first _ _ _ _ _ _ PL NC) as (-> & -> & LN & K & EN). destruct (with_arguments d f h1 d _ args) as [[h2 dt]|] eqn:WA; [|discriminate H]. inversion H; subst. cbn [s_heap with_context with_heap].
  apply (arguments_grow f h1 d (length (s_heap st)) args h2 data ltac:(lia) WA); [|lia]. apply grows_keeps; [exact K|lia].
Qed.

(** ** The second attempt *)
Lemma setup_retry {V : Env} f i a st st' data j p w L : s_context st = HDict j p -> reads (s_heap st) (HDict j p) (VDict j w) L -> ddepth (VDict j w) <= f -> a < length (s_heap st) ->
  setup f true [HDict i a] st = Some (st', data) ->
  data = HDict i a /\ grows (s_heap st) (s_heap st') /\
  (forall k, k = $"_" \/ In k (mkeys (map_at (s_heap st) p)) -> mget (map_at (s_heap st') a) k <> None) /\
  exists n, s_context st' = HDict j n /\ length (s_heap st) <= n /\ mget (map_at (s_heap st') n) $"_" = Some (HDict j p) /\
    forall k, In k (mkeys (map_at (s_heap st) p)) -> mget (map_at (s_heap st') n) k <> None.
Proof.
  intros SC R DD LA H. unfold IncludeModel.setup in H. rewrite SC in H. unfold new_context in H. destruct (walks f (s_heap st) (HDict j p)); [|discriminate H].
  destruct (clone_ok_all grow f (s_heap st) p j j w L R DD) as (h1 & w' & L' & CL & LN & K & R' & Q & _). rewrite CL in H. unfold set_key in H.
  match type of H with context [walks f ?h ?v] => destruct (walks f h v) end; [|discriminate H]. unfold with_arguments in H. cbn [as_arguments] in H.
  match type of H with context [walks f ?h ?v] => destruct (walks f h v) end; [|discriminate H]. cbn [h_merge] in H.
  match type of H with context [h_deep_merge f ?h a ?n] => destruct (h_deep_merge f h a n) as [h3|] eqn:M end; [|discriminate H]. inversion H; subst; clear H. cbn [s_heap s_context with_context with_heap].
  set (n := length (s_heap st)) in *. set (h2 := h_dict_set h1 n $"_" (HDict j p)) in *. pose proof (merge_grows _ _ _ _ _ M) as G3.
  assert (KEYS : forall k, In k (mkeys (map_at (s_heap st) p)) -> mget (map_at h1 n) k <> None).
  { intros k I. inversion R as [| | |? ? m ? ? HG NM RM]; subst. rewrite (map_at_get _ _ _ HG) in I. rewrite <- (reads_map_keys _ _ _ _ RM) in I.
    inversion R' as [| | |? ? m' ? ? HG' NM' RM']; subst. rewrite (map_at_get _ _ _ HG'). assert (IW : In k (mkeys w')).
    { cbn [clone_conv] in Q. inversion Q as [| | | | | |? ? m1 ? PM F2|]; subst. apply (Permutation_in _ (Permutation_sym (Permutation_map fst PM))). clear -F2 I. revert w I F2. induction m1 as [|[k1 v1] m1 IH]; intros w I F2; destruct w as [|[k2 v2] w]; inversion F2 as [|? ? ? ? [EK _] F2']; subst; [destruct I|].
      cbn in EK. subst. destruct I as [I|I]; [left; exact I|right; exact (IH _ I F2')]. }
    rewrite (reads_map_keys _ _ _ _ RM') in IW. apply mget_keys in IW. destruct IW as (v & IW). congruence. }
  assert (N2 : n < length h1) by lia. assert (K2 : forall k, k = $"_" \/ In k (mkeys (map_at (s_heap st) p)) -> mget (map_at h2 n) k <> None).
  { intros k C. unfold h2. rewrite map_set_eq by exact N2. rewrite mget_mset. destruct (str_eqb_spec k $"_") as [->|NE]; [discriminate|]. destruct C as [C|C]; [contradiction|apply KEYS, C]. }
  assert (L2 : length h2 = length h1) by apply set_length. split; [reflexivity|]. split; [|split].
  - apply (grows_trans _ h2); [|exact G3]. apply grows_keeps; [|lia]. apply keeps_set; [exact K|unfold n; lia].
  - intros k C. assert (LA2 : a < length h2) by lia. apply (merge_gets f h2 a n h3 LA2 M), K2, C.
  - exists n. split; [reflexivity|]. split; [unfold n; lia|]. split.
    + apply (proj2 G3). unfold h2. rewrite map_set_eq by exact N2. apply mget_mset_eq.
    + intros k C. specialize (K2 k (or_intror C)). destruct (mget (map_at h2 n) k) as [v|] eqn:X; [|congruence]. rewrite (proj2 G3 _ _ _ X). discriminate.
Qed.
End Include.
