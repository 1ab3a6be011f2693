(** Proofs about the table of functions. *)
From Coq Require Import String Ascii List ZArith NArith Bool Permutation Sorting.Sorted Lia.
From Verif Require Import GoStr GoStrFacts ValueModel ValueFacts FuncsModel FuncsSpec.
Import ListNotations.

Section WithFunctions.
Context {F : Type}.
Notation table := (table F).
Notation info := (info F).
Notation entry := (entry F).

Lemma mem_str_in x l : mem_str x l = true <-> In x l.
Proof.
  induction l as [|y l IH]; cbn [mem_str In]; [split; [discriminate|intros []]|]. destruct (str_eqb_spec x y) as [->|N]; [cbn; tauto|]. cbn [orb]. rewrite IH. split; [auto|]. intros [H|H]; [congruence|exact H].
Qed.
Lemma mem_str_not x l : mem_str x l = false <-> ~ In x l.
Proof. rewrite <- mem_str_in. destruct (mem_str x l); split; congruence. Qed.
Lemma get_aliases (i : info) : forall as_ (m : table) x, mget (fold_left (fun m a => mset m a (Alias a i)) as_ m) x = if mem_str x as_ then Some (Alias x i) else mget m x.
Proof.
  induction as_ as [|a as_ IH]; intros m x; [reflexivity|]. cbn [fold_left mem_str]. rewrite IH. rewrite mget_mset. destruct (str_eqb_spec x a) as [->|_]; destruct (mem_str _ as_); reflexivity.
Qed.
Lemma get_set_entry k (e : entry) (m : table) x : mget (set_entry k e m) x =
  match e with
  | Own i => if mem_str x (i_aliases i) then Some (Alias x (rename k i)) else if str_eqb x k then Some (named k e) else mget m x
  | Alias _ _ => if str_eqb x k then Some (named k e) else mget m x
  end.
Proof. unfold set_entry. destruct e as [i|n i]; [unfold set_aliases; rewrite get_aliases; cbn [i_aliases rename]|]; rewrite mget_mset; reflexivity. Qed.
Lemma nodup_set_entry k (e : entry) (m : table) : NoDup (mkeys m) -> NoDup (mkeys (set_entry k e m)).
Proof.
  intro N. unfold set_entry. destruct e as [i|n i]; [|apply NoDup_mset, N]. unfold set_aliases. assert (K : NoDup (mkeys (mset m k (named k (Own i))))) by (apply NoDup_mset, N). revert K.
  generalize (mset m k (named k (Own i))). generalize (i_aliases (rename k i)). induction l as [|a l IH]; intros m' K; [exact K|]. cbn [fold_left]. apply IH, NoDup_mset, K.
Qed.

Section Table.
Variable fm0 tf0 : table.
Hypothesis ND : NoDup (map fst fm0).
Hypothesis AS : alias_sound fm0.

Fixpoint owner_in (m : table) (vis : list str) (x : str) : option (str * info) :=
  match m with
  | [] => None
  | (f, Own i) :: r => if mem_str f vis && mem_str x (i_aliases i) then Some (f, i) else owner_in r vis x
  | _ :: r => owner_in r vis x
  end.
Definition owner := owner_in fm0.
Lemma owner_some m vis x f i : owner_in m vis x = Some (f, i) -> In (f, Own i) m /\ In x (i_aliases i) /\ In f vis.
Proof.
  induction m as [|[g e] m IH]; [discriminate|]. cbn [owner_in]. destruct e as [j|n j]; [destruct (mem_str g vis && mem_str x (i_aliases j)) eqn:C|].
  - apply andb_prop in C. destruct C as [A B]. intro H. inversion H; subst. split; [left; reflexivity|]. split; apply mem_str_in; assumption.
  - intro H. destruct (IH H) as (A & B & C'). split; [right; exact A|auto].
  - intro H. destruct (IH H) as (A & B & C'). split; [right; exact A|auto].
Qed.
Lemma owner_none m vis x : owner_in m vis x = None -> forall f i, In (f, Own i) m -> In x (i_aliases i) -> ~ In f vis.
Proof.
  induction m as [|[g e] m IH]; intros H f i I J; [destruct I|]. cbn [owner_in] in H. destruct I as [I|I].
  - inversion I; subst. destruct (mem_str f vis) eqn:V; [|apply mem_str_not, V]. destruct (mem_str x (i_aliases i)) eqn:X; [discriminate H|]. apply mem_str_not in X. contradiction.
  - destruct e as [j|n j]; [destruct (mem_str g vis && mem_str x (i_aliases j)); [discriminate|]|]; eapply IH; eassumption.
Qed.
Lemma own_unique k (a b : entry) : In (k, a) fm0 -> In (k, b) fm0 -> a = b.
Proof. intros A B. apply mget_In_NoDup in A; [|exact ND]. apply mget_In_NoDup in B; [|exact ND]. congruence. Qed.
Lemma owner_is vis x f i : alias_of fm0 x f i -> In f vis -> owner vis x = Some (f, i).
Proof.
  intros [A B] V. destruct (owner vis x) as [[g j]|] eqn:O.
  - apply owner_some in O. destruct O as (A' & B' & _). assert (f = g) by (eapply (proj1 AS); split; eassumption). subst g. pose proof (own_unique _ _ _ A A') as E. inversion E. reflexivity.
  - exfalso. exact (owner_none _ _ _ O f i A B V).
Qed.
Lemma owner_cons_same vis k x : (forall i, In (k, Own i) fm0 -> ~ In x (i_aliases i)) -> owner (k :: vis) x = owner vis x.
Proof.
  intro N. destruct (owner vis x) as [[f i]|] eqn:O.
  - apply owner_some in O. destruct O as (A & B & V). apply owner_is; [split; assumption|right; exact V].
  - destruct (owner (k :: vis) x) as [[f i]|] eqn:O'; [|reflexivity]. exfalso. apply owner_some in O'. destruct O' as (A & B & [->|V]); [exact (N i A B)|]. exact (owner_none _ _ _ O f i A B V).
Qed.

Definition state (old : table) (vis : list str) (x : str) : option entry :=
  match owner vis x with
  | Some (f, i) => Some (Alias x (rename f i))
  | None => if mem_str x vis then option_map (named x) (mget fm0 x) else mget old x
  end.
Lemma visit_state old vis k e (m : table) : ~ In k vis -> state fm0 vis k = Some e -> (forall x, mget m x = state old vis x) -> forall x, mget (set_entry k e m) x = state old (k :: vis) x.
Proof.
  intros NV ST M x. rewrite get_set_entry. unfold state in ST. destruct (owner vis k) as [[f i]|] eqn:O.
  - inversion ST; subst e. apply owner_some in O. destruct O as (A & B & V). assert (AK : alias_of fm0 k f i) by (split; assumption).
    assert (SAME : owner (k :: vis) x = owner vis x) by (apply owner_cons_same; intros j J; rewrite (proj2 AS k f i j AK J); intros []).
    unfold state. rewrite SAME. rewrite M. unfold state. cbn [mem_str]. destruct (str_eqb_spec x k) as [->|NE]; [|cbn [orb]; reflexivity].
    rewrite (owner_is vis k f i AK V). reflexivity.
  - rewrite (proj2 (mem_str_not k vis) NV) in ST. destruct e as [i|n i].
    + assert (AK : In (k, Own i) fm0) by (apply mget_In, ST). destruct (mem_str x (i_aliases i)) eqn:X.
      * apply mem_str_in in X. unfold state. rewrite (owner_is (k :: vis) x k i); [reflexivity|split; assumption|left; reflexivity].
      * apply mem_str_not in X. assert (SAME : owner (k :: vis) x = owner vis x) by (apply owner_cons_same; intros j J; pose proof (own_unique _ _ _ J AK) as E; inversion E; subst; exact X).
        unfold state. rewrite SAME, M. unfold state. cbn [mem_str]. destruct (str_eqb_spec x k) as [->|NE]; [|reflexivity]. rewrite O. cbn [orb]. rewrite ST. reflexivity.
    + assert (AK : In (k, Alias n i) fm0) by (apply mget_In, ST).
      assert (SAME : owner (k :: vis) x = owner vis x) by (apply owner_cons_same; intros j J; pose proof (own_unique _ _ _ J AK) as E; discriminate E).
      unfold state. rewrite SAME, M. unfold state. cbn [mem_str]. destruct (str_eqb_spec x k) as [->|NE]; [|reflexivity]. rewrite O. cbn [orb]. rewrite ST. reflexivity.
Qed.
Lemma loop_state : forall sched vis fm tf r, NoDup sched -> (forall k, In k sched -> ~ In k vis) ->
  (forall x, mget fm x = state fm0 vis x) -> (forall x, mget tf x = state tf0 vis x) -> add_loop sched (fm, tf) = Some r ->
  (forall x, mget (fst r) x = state fm0 (rev sched ++ vis) x) /\ (forall x, mget (snd r) x = state tf0 (rev sched ++ vis) x).
Proof.
  induction sched as [|k sched IH]; intros vis fm tf r N D A B H; [inversion H; subst; cbn; auto|]. cbn [add_loop visit_key] in H. destruct (mget fm k) as [e|] eqn:G; [|discriminate].
  inversion N as [|? ? NK N']; subst. cbn [rev]. rewrite <- app_assoc. cbn [app]. rewrite A in G. assert (NV : ~ In k vis) by (apply D; left; reflexivity).
  eapply IH; [exact N'| | | |exact H].
  - intros j J [E|V]; [subst; contradiction|]. apply (D j); [right; exact J|exact V].
  - apply visit_state; assumption.
  - apply visit_state; assumption.
Qed.

Lemma state_final old vis x : incl (map fst fm0) vis ->
  match state old vis x with
  | Some e => registered fm0 x e \/ ~ known fm0 x /\ mem_str x vis = false /\ mget old x = Some e
  | None => ~ known fm0 x /\ (mem_str x vis = true \/ mget old x = None)
  end.
Proof.
  intro I. unfold state. destruct (owner vis x) as [[f i]|] eqn:O.
  - apply owner_some in O. destruct O as (A & B & V). left. apply (Reg_alias fm0 x f i); [split; assumption|repeat split].
  - assert (NA : forall f i, ~ alias_of fm0 x f i).
    { intros f i [A B]. apply (owner_none _ _ _ O f i A B). apply I. change f with (fst (f, Own i)). apply in_map, A. }
    destruct (mem_str x vis) eqn:V.
    + destruct (mget fm0 x) as [e|] eqn:G.
      * left. apply mget_In in G. destruct e as [i|n i]; cbn [option_map named]; [apply (Reg_own fm0 x i); [exact NA|exact G|repeat split]|apply (Reg_old fm0 x n i); [exact NA|exact G]].
      * split; [|auto]. intros [K|(f & i & K)]; [|exact (NA f i K)]. apply mget_keys in K. destruct K as (v & K). congruence.
    + assert (NK : ~ known fm0 x).
      { intros [K|(f & i & K)]; [|exact (NA f i K)]. apply I in K. apply mem_str_in in K. congruence. }
      destruct (mget old x) as [e|] eqn:G; [right; auto|auto].
Qed.
Lemma reg_known x e : registered fm0 x e -> known fm0 x.
Proof.
  intros [f i j A _|i j _ A _|n i _ A]; [right; eauto|left|left]; change x with (fst (x, Own i)) at 1 || idtac.
  - apply (in_map fst) in A. exact A.
  - apply (in_map fst) in A. exact A.
Qed.
Lemma same_info_rename k (i j : info) : same_info k i j -> j = rename k i.
Proof. intros (A & B & C & D & E' & G'). destruct j as [n f g al ar de]. cbn in *. subst. reflexivity. Qed.
Lemma reg_unique x a b : registered fm0 x a -> registered fm0 x b -> a = b.
Proof.
  intros [f i j A S1|i j N A S1|n i N A] [g i' j' A' S2|i' j' N' A' S2|n' i' N' A']; try (exfalso; eapply N; eassumption); try (exfalso; eapply N'; eassumption).
  - assert (f = g) by (eapply (proj1 AS); eassumption). subst g. destruct A as [A _], A' as [A' _]. pose proof (own_unique _ _ _ A A') as E. inversion E; subst. rewrite (same_info_rename _ _ _ S1), (same_info_rename _ _ _ S2). reflexivity.
  - pose proof (own_unique _ _ _ A A') as E. inversion E; subst. rewrite (same_info_rename _ _ _ S1), (same_info_rename _ _ _ S2). reflexivity.
  - pose proof (own_unique _ _ _ A A') as E. discriminate E.
  - pose proof (own_unique _ _ _ A A') as E. discriminate E.
  - pose proof (own_unique _ _ _ A A') as E. inversion E; subst. reflexivity.
Qed.

Lemma loop_known : forall sched vis fm tf r, (forall x, mget fm x = state fm0 vis x) -> incl vis sched \/ True -> NoDup sched -> (forall k, In k sched -> ~ In k vis) -> (forall k, In k vis -> known fm0 k) ->
  add_loop sched (fm, tf) = Some r -> forall k, In k sched -> known fm0 k.
Proof.
  induction sched as [|k sched IH]; intros vis fm tf r A _ N D KV H j J; [destruct J|]. cbn [add_loop visit_key] in H. destruct (mget fm k) as [e|] eqn:G; [|discriminate].
  inversion N as [|? ? NK N']; subst. assert (NV : ~ In k vis) by (apply D; left; reflexivity). rewrite A in G. assert (KK : known fm0 k).
  { unfold state in G. destruct (owner vis k) as [[f i]|] eqn:O.
    - apply owner_some in O. destruct O as (X & Y & _). right. exists f, i. split; assumption.
    - rewrite (proj2 (mem_str_not k vis) NV) in G. left. apply mget_keys. eauto. }
  destruct J as [->|J]; [exact KK|]. eapply IH; [|right; exact I|exact N'| | |exact H|exact J].
  - apply visit_state; eassumption.
  - intros x X [E|V]; [subst; contradiction|]. apply (D x); [right; exact X|exact V].
  - intros x [<-|V]; [exact KK|apply KV, V].
Qed.
Lemma state_nil old x : state old [] x = mget old x.
Proof.
  unfold state. destruct (owner [] x) as [[f i]|] eqn:O; [|reflexivity]. apply owner_some in O. destruct O as (_ & _ & []).
Qed.
Lemma nodup_loop : forall sched (fm tf : table) r, NoDup (mkeys fm) -> NoDup (mkeys tf) -> add_loop sched (fm, tf) = Some r -> NoDup (mkeys (fst r)) /\ NoDup (mkeys (snd r)).
Proof.
  induction sched as [|k sched IH]; intros fm tf r A B H; [inversion H; auto|]. cbn [add_loop visit_key] in H. destruct (mget fm k); [|discriminate]. eapply IH; [| |exact H]; apply nodup_set_entry; assumption.
Qed.
Lemma get_convert (m : table) k : NoDup (mkeys m) -> mget (convert m) k = match mget m k with Some e => e_function e | None => None end.
Proof.
  induction m as [|[j e] m IH]; intro N; [reflexivity|]. cbn [mkeys map fst] in N. inversion N as [|? ? NJ N']; subst. cbn [convert mget]. specialize (IH N').
  destruct (e_function e) as [f|] eqn:EF; cbn [mget]; destruct (str_eqb_spec k j) as [->|NE]; try assumption; try congruence.
  rewrite IH. rewrite EF. destruct (mget m j) as [e'|] eqn:G; [|reflexivity]. exfalso. apply NJ. apply mget_keys. eauto.
Qed.

Lemma loop_first : forall sched (fm tf tf2 : table) r, add_loop sched (fm, tf) = Some r -> exists q, add_loop sched (fm, tf2) = Some (fst r, q).
Proof.
  induction sched as [|k sched IH]; intros fm tf tf2 r H; [inversion H; subst; cbn; eauto|]. cbn [add_loop visit_key] in *. destruct (mget fm k); [|discriminate]. eapply IH. exact H.
Qed.
Lemma table_spec sched tf' fs : schedule fm0 sched -> add_functions sched fm0 tf0 = Some (tf', fs) ->
  (forall k, known fm0 k -> exists e, mget tf' k = Some e /\ registered fm0 k e) /\
  (forall k, ~ known fm0 k -> mget tf' k = mget tf0 k) /\
  (forall k f, mget fs k = Some f <-> exists e, registered fm0 k e /\ e_function e = Some f).
Proof.
  intros [NS IS] H. unfold add_functions in H. destruct (add_loop sched (fm0, tf0)) as [[fm1 tf1]|] eqn:L; [|discriminate]. inversion H; subst. clear H.
  destruct (loop_state sched [] fm0 tf0 (fm1, tf') NS ltac:(intros ? ? []) ltac:(intro; symmetry; apply state_nil) ltac:(intro; symmetry; apply state_nil) L) as [A B].
  pose proof (loop_known sched [] fm0 tf0 (fm1, tf') ltac:(intro; symmetry; apply state_nil) (or_intror I) NS ltac:(intros ? ? []) ltac:(intros ? []) L) as KN.
  cbn [fst snd] in A, B. rewrite app_nil_r in A, B. assert (INC : incl (map fst fm0) (rev sched)) by (intros x X; apply in_rev; rewrite rev_involutive; apply IS, X).
  assert (VK : forall x, mem_str x (rev sched) = true -> known fm0 x) by (intros x X; apply mem_str_in, in_rev in X; apply KN, X).
  destruct (loop_first sched fm0 tf0 [] _ L) as (q & L'). assert (N1 : NoDup (mkeys fm1)) by (apply (nodup_loop sched fm0 [] _ ND (NoDup_nil _) L')).
  split; [|split].
  - intros k K. pose proof (state_final tf0 (rev sched) k INC) as S1. rewrite <- B in S1. destruct (mget tf' k) as [e|]; [|destruct S1; contradiction]. exists e. split; [reflexivity|]. destruct S1 as [R|(N & _)]; [exact R|contradiction].
  - intros k K. pose proof (state_final tf0 (rev sched) k INC) as S1. rewrite <- B in S1. destruct (mget tf' k) as [e|].
    + destruct S1 as [R|(_ & _ & G0)]; [apply reg_known in R; contradiction|congruence].
    + destruct S1 as (_ & [V|G0]); [apply VK in V; contradiction|congruence].
  - intros k f. rewrite get_convert by exact N1. pose proof (state_final fm0 (rev sched) k INC) as S1. rewrite <- A in S1. destruct (mget fm1 k) as [e|].
    + destruct S1 as [R|(NK & _ & G0)].
      * split; [intro X; exists e; auto|]. intros (e' & R' & X). rewrite (reg_unique k e e' R R'). exact X.
      * exfalso. apply NK. left. apply mget_keys. eauto.
    + split; [discriminate|]. intros (e' & R' & X). apply reg_known in R'. destruct S1. contradiction.
Qed.
End Table.

(** Every order of the keys is possible. *)
Lemma keys_set_entry k (e : entry) (m : table) x : In x (mkeys m) -> In x (mkeys (set_entry k e m)).
Proof.
  intro H. apply mget_keys in H. destruct H as (v & H). apply mget_keys. rewrite get_set_entry. destruct e as [i|n i].
  - destruct (mem_str x (i_aliases i)); [eauto|]. destruct (str_eqb x k); eauto.
  - destruct (str_eqb x k); eauto.
Qed.
Lemma table_runs : forall sched (fm tf : table), incl sched (mkeys fm) -> exists r, add_functions sched fm tf = Some r.
Proof.
  assert (H : forall sched (fm tf : table), incl sched (mkeys fm) -> exists r, add_loop sched (fm, tf) = Some r).
  { induction sched as [|k sched IH]; intros fm tf H; [eexists; reflexivity|]. cbn [add_loop visit_key]. destruct (proj1 (mget_keys fm k) (H k (or_introl eq_refl))) as (e & ->).
    apply IH. intros x X. apply keys_set_entry, H. right. exact X. }
  intros sched fm tf I. destruct (H sched fm tf I) as ([fm' tf'] & L). unfold add_functions. rewrite L. eauto.
Qed.
Lemma table_order sched sched' (fm tf : table) r r' : NoDup (map fst fm) -> alias_sound fm -> schedule fm sched -> schedule fm sched' ->
  add_functions sched fm tf = Some r -> add_functions sched' fm tf = Some r' ->
  (forall k, mget (fst r) k = mget (fst r') k) /\ (forall k, mget (snd r) k = mget (snd r') k).
Proof.
  intros ND AS S1 S2 H H'. destruct r as [tf1 fs1], r' as [tf2 fs2]. destruct (table_spec fm tf ND AS sched tf1 fs1 S1 H) as (A & B & C). destruct (table_spec fm tf ND AS sched' tf2 fs2 S2 H') as (A' & B' & C').
  cbn [fst snd]. split; intro k.
  - assert (D : known fm k \/ ~ known fm k).
    { destruct (owner_in fm (map fst fm) k) as [[f i]|] eqn:O; [left; right; exists f, i; apply owner_some in O; destruct O as (X & Y & _); split; assumption|].
      destruct (in_dec (list_eq_dec ascii_dec) k (map fst fm)) as [I|N]; [left; left; exact I|right]. intros [I|(f & i & X & Y)]; [contradiction|].
      apply (owner_none _ _ _ O f i X Y). apply (in_map fst) in X. exact X. }
    destruct D as [K|K]; [|rewrite B, B' by exact K; reflexivity]. destruct (A k K) as (e & -> & R). destruct (A' k K) as (e' & -> & R'). rewrite (reg_unique fm ND AS k e e' R R'). reflexivity.
  - destruct (mget fs1 k) as [f|] eqn:G; [symmetry; apply C', C, G|]. destruct (mget fs2 k) as [f|] eqn:G'; [|reflexivity]. apply C' in G'. apply C in G'. congruence.
Qed.

(** ** The table of a sub-template *)
Lemma again_same : forall sched (tf tf' : table), NoDup (mkeys tf) -> consistent tf -> add_again sched tf = Some tf' -> forall k, mget tf' k = mget tf k.
Proof.
  assert (STEP : forall (tf : table) k e, NoDup (mkeys tf) -> consistent tf -> mget tf k = Some e -> forall x, mget (set_entry k e tf) x = mget tf x).
  { intros tf k e N (C1 & C2 & C3) G x. rewrite get_set_entry. pose proof (mget_In _ _ _ G) as I. destruct e as [i|n i].
    - assert (RI : rename k i = i) by (pose proof (C1 _ _ I) as E; destruct i; cbn in *; subst; reflexivity). destruct (mem_str x (i_aliases i)) eqn:M.
      + apply mem_str_in in M. symmetry. rewrite RI. apply mget_In_NoDup; [exact N|]. apply (C3 k i x I M).
      + destruct (str_eqb_spec x k) as [->|_]; [|reflexivity]. cbn [named]. rewrite RI. symmetry. exact G.
    - destruct (str_eqb_spec x k) as [->|_]; [|reflexivity]. cbn [named]. pose proof (C2 _ _ _ I). subst n. symmetry. exact G. }
  assert (H : forall sched (tf0 tf tf' : table), NoDup (mkeys tf0) -> consistent tf0 -> NoDup (mkeys tf) -> (forall k, mget tf k = mget tf0 k) -> add_again sched tf = Some tf' -> forall k, mget tf' k = mget tf0 k).
  { induction sched as [|j sched IH]; intros tf0 tf tf' N0 C0 N E H k; [inversion H; subst; apply E|]. cbn [add_again] in H. destruct (mget tf j) as [e|] eqn:G; [|discriminate].
    eapply IH; [exact N0|exact C0| | |exact H]; [apply nodup_set_entry, N|]. intro x. assert (C : consistent tf).
    { assert (B : forall k e, In (k, e) tf <-> In (k, e) tf0).
      { intros k0 e0. split; intro X; apply mget_In; [rewrite <- E|rewrite E]; apply mget_In_NoDup; assumption. }
      destruct C0 as (C1 & C2 & C3). split; [intros ? ? X; apply (C1 _ _), B, X|]. split; [intros ? ? ? X; eapply C2, B, X|]. intros f i a X Y. apply B, (C3 f i a); [apply B, X|exact Y]. }
    rewrite (STEP tf j e N C G). apply E. }
  intros sched tf tf' N C. apply H; auto.
Qed.
Lemma fresh_consistent sched (fm tf' : table) fs : NoDup (map fst fm) -> alias_sound fm -> (forall k n i, ~ In (k, Alias n i) fm) -> schedule fm sched ->
  add_functions sched fm [] = Some (tf', fs) -> consistent tf'.
Proof.
  intros ND AS NA S1 H. destruct (table_spec fm [] ND AS sched tf' fs S1 H) as (A & B & _).
  assert (N' : NoDup (mkeys tf')).
  { unfold add_functions in H. match type of H with context [add_loop ?s ?p] => destruct (add_loop s p) as [[fm1 tf1]|] eqn:L end; [|discriminate H]. inversion H; subst. apply (nodup_loop sched fm [] _ ND (NoDup_nil _) L). }
  assert (R : forall k e, In (k, e) tf' -> registered fm k e).
  { intros k e I. apply mget_In_NoDup in I; [|exact N'].
    assert (D : known fm k \/ ~ known fm k).
    { destruct (owner_in fm (map fst fm) k) as [[f i]|] eqn:O; [left; right; exists f, i; apply owner_some in O; destruct O as (X & Y & _); split; assumption|].
      destruct (in_dec (list_eq_dec ascii_dec) k (map fst fm)) as [J|N]; [left; left; exact J|right]. intros [J|(f & i & X & Y)]; [contradiction|].
      apply (owner_none _ _ _ O f i X Y). apply (in_map fst) in X. exact X. }
    destruct D as [K|K]; [|rewrite (B k K) in I; discriminate]. destruct (A k K) as (e' & G & R). congruence. }
  split; [|split].
  - intros k i I. apply R in I. inversion I as [| ? ? _ _ S2|]; subst. apply S2.
  - intros k n i I. apply R in I. inversion I; subst; reflexivity.
  - intros f i a I J. apply R in I. inversion I as [|i0 ? _ X S2|]; subst. assert (AO : alias_of fm a f i0) by (split; [exact X|]; destruct S2 as (_ & _ & _ & E & _); rewrite <- E; exact J).
    destruct (A a) as (e & G & RA); [right; eauto|]. apply mget_In. rewrite G. f_equal. eapply (reg_unique fm ND AS); [exact RA|]. apply (Reg_alias fm a f i0 i AO S2).
Qed.

(** ** AddFunctions *)
Lemma sget_in {A} (zero : A) m k v : In (k, v) m -> NoDup (map fst m) -> sget zero m k = v.
Proof. intros I N. unfold sget. rewrite (mget_In_NoDup _ _ _ N I). reflexivity. Qed.
Lemma make_spec (funcs : list (str * F)) group help aliases arguments groups : NoDup (map fst funcs) ->
  (forall f, In f (map fst (make_table funcs group help aliases arguments groups)) <-> In f (map fst funcs)) /\
  forall k f, In (k, f) funcs -> exists i, In (k, Own i) (make_table funcs group help aliases arguments groups) /\ i_function i = Some f /\
    (group <> [] -> i_group i = group) /\ (group = [] -> forall g, In (k, g) groups -> NoDup (map fst groups) -> i_group i = g) /\
    (forall l, In (k, l) aliases -> NoDup (map fst aliases) -> i_aliases i = l) /\ (~ In k (map fst aliases) -> i_aliases i = []) /\
    (forall l, In (k, l) arguments -> NoDup (map fst arguments) -> i_arguments i = l) /\
    (forall t, In (k, t) help -> NoDup (map fst help) -> i_description i = t).
Proof.
  intro N. unfold make_table. split.
  - intro f. rewrite map_map. erewrite map_ext; [reflexivity|]. intros [k g]. reflexivity.
  - intros k f I. eexists. split; [apply in_map_iff; exists (k, f); split; [reflexivity|exact I]|]. cbn [i_function i_group i_aliases i_arguments i_description]. split; [reflexivity|].
    split; [destruct group; [congruence|reflexivity]|]. split; [intros ->; intros g J M; apply sget_in; assumption|]. split; [intros; apply sget_in; assumption|].
    split; [|split; intros; apply sget_in; assumption]. intro NI. unfold sget. destruct (mget aliases k) eqn:G; [|reflexivity]. exfalso. apply NI. apply mget_keys. eauto.
Qed.
Fixpoint nodup_b (l : list str) : bool := match l with [] => true | x :: r => negb (mem_str x r) && nodup_b r end.
Lemma nodup_decide l : nodup_b l = true -> NoDup l.
Proof.
  induction l as [|x l IH]; [constructor|]. cbn [nodup_b]. intro H. apply andb_prop in H. destruct H as [A B]. constructor; [|apply IH, B]. apply mem_str_not. destruct (mem_str x l); [discriminate A|reflexivity].
Qed.

(** ** The list of the functions *)
Lemma list_spec (tf : table) original alias : NoDup (mkeys tf) ->
  Sorted (fun a b => str_leb a b = true) (get_functions tf original alias) /\
  forall k, In k (get_functions tf original alias) <-> exists e, mget tf k = Some e /\ (if e_is_alias e then alias else original) = true.
Proof.
  intro N. split; [apply sort_strings_sorted|]. intro k. unfold get_functions. split.
  - intro H. apply (Permutation_in _ (sort_strings_perm _)) in H. apply in_map_iff in H. destruct H as ([k' e] & <- & H). apply filter_In in H. destruct H as [I C]. exists e. cbn [fst snd] in *. split; [apply mget_In_NoDup; assumption|exact C].
  - intros (e & G & C). apply (Permutation_in _ (Permutation_sym (sort_strings_perm _))). apply in_map_iff. exists (k, e). split; [reflexivity|]. apply filter_In. split; [apply mget_In, G|exact C].
Qed.
Lemma filter_perm {A} (p : A -> bool) (l l' : list A) : Permutation l l' -> Permutation (filter p l) (filter p l').
Proof.
  intro H. induction H; cbn [filter]; [constructor|destruct (p x); [constructor; exact IHPermutation|exact IHPermutation]|destruct (p y), (p x); try apply perm_swap; apply Permutation_refl|eapply Permutation_trans; eassumption].
Qed.
Lemma list_order (tf tf' : table) original alias : Permutation tf tf' -> get_functions tf original alias = get_functions tf' original alias.
Proof. intro P. unfold get_functions. apply sort_strings_unique, Permutation_map, filter_perm, P. Qed.

(** ** Sprig *)
Lemma alias_inner (key : str) : forall l (m : list (str * str)) x, mget (fold_left (fun m a => mset m a key) l m) x = if mem_str x l then Some key else mget m x.
Proof.
  induction l as [|a l IH]; intros m x; [reflexivity|]. cbn [fold_left mem_str]. rewrite IH, mget_mset. destruct (str_eqb_spec x a) as [->|_]; destruct (mem_str _ l); reflexivity.
Qed.
Lemma alias_map_spec refs x K : (forall K K' r r' a, In (K, r) refs -> In (K', r') refs -> In a (r_aliases r) -> In a (r_aliases r') -> K = K') ->
  (mget (alias_map refs) x = Some K <-> exists r, In (K, r) refs /\ In x (r_aliases r)).
Proof.
  intro U. unfold alias_map. assert (H : forall l m, (forall y, In y l -> In y refs) -> (forall K', mget m x = Some K' -> exists r, In (K', r) refs /\ In x (r_aliases r)) ->
    (mget (fold_left (fun m '(key, r) => fold_left (fun m a => mset m a key) (r_aliases r) m) l m) x = Some K <-> (exists r, In (K, r) l /\ In x (r_aliases r)) \/ mget m x = Some K)).
  { induction l as [|[k r] l IH]; intros m SUB M; [split; [auto|intros [(? & [] & _)|H]; exact H]|]. cbn [fold_left]. rewrite IH.
    - rewrite alias_inner. split.
      + intros [(r' & I & J)|H]; [left; exists r'; split; [right; exact I|exact J]|]. destruct (mem_str x (r_aliases r)) eqn:X; [|right; exact H]. inversion H; subst. left. exists r. split; [left; reflexivity|apply mem_str_in, X].
      + intros [(r' & [I|I] & J)|H]; [inversion I; subst; right; rewrite (proj2 (mem_str_in x _) J); reflexivity|left; eauto|].
        destruct (mem_str x (r_aliases r)) eqn:X; [|right; exact H]. apply mem_str_in in X. destruct (M K H) as (r' & I & J). right. f_equal. eapply U; [apply SUB; left; reflexivity|exact I|exact X|exact J].
    - intros y I. apply SUB. right. exact I.
    - intros K' H. rewrite alias_inner in H. destruct (mem_str x (r_aliases r)) eqn:X; [|apply M, H]. inversion H; subst. exists r. split; [apply SUB; left; reflexivity|apply mem_str_in, X]. }
  rewrite H; [|auto|discriminate]. split; [intros [X|X]; [exact X|discriminate]|auto].
Qed.
Definition of_ref (f : F) (r : ref) : entry := Own (Info [] (Some f) (r_group r) (r_aliases r) (r_arguments r) (r_description r)).
Lemma sprig_entry_spec refs k f K e : NoDup (map fst refs) -> (forall K K' r r' a, In (K, r) refs -> In (K', r') refs -> In a (r_aliases r) -> In a (r_aliases r') -> K = K') ->
  (sprig_entry refs (alias_map refs) k f = Some (K, e) <-> gives_name refs K k /\ exists r, In (K, r) refs /\ e = of_ref f r).
Proof.
  intros ND U. unfold sprig_entry, sget, gives_name. destruct (mget refs k) as [r|] eqn:G.
  - pose proof (mget_In _ _ _ G) as I. destruct (r_group r) as [|c g] eqn:RG.
    + destruct (has_prefix $"must" k) eqn:HP.
      { split; [intro X0; discriminate X0|]. intros ([(-> & r' & I' & NG)|(_ & X & _)] & _); [|congruence]. apply mget_In_NoDup in I'; [|exact ND]. rewrite G in I'. inversion I'; subst. contradiction. }
      lazymatch goal with |- context [@mget ?A (alias_map refs) k] => destruct (@mget A (alias_map refs) k) as [K'|] eqn:AM end.
      * change (mget (alias_map refs) k = Some K') in AM. apply (alias_map_spec refs k K' U) in AM. destruct AM as (ra & IA & JA). destruct K' as [|c K'].
        { split; [intro X0; discriminate X0|]. intros ([(-> & r' & I' & NG)|(_ & _ & NK & r' & I' & J')] & _); [apply mget_In_NoDup in I'; [|exact ND]; rewrite G in I'; inversion I'; subst; contradiction|].
          exfalso. apply NK. exact (U _ _ _ _ _ I' IA J' JA). }
        rewrite (mget_In_NoDup _ _ _ ND IA). split.
        -- intro H. inversion H; subst. split; [right|exists ra; split; [exact IA|reflexivity]]. split; [intros r' I'; apply mget_In_NoDup in I'; [|exact ND]; rewrite G in I'; inversion I' as [E']; rewrite <- E'; exact RG|].
           split; [reflexivity|]. split; [intro X0; discriminate X0|]. exists ra. auto.
        -- intros ([(-> & r' & I' & NG)|(_ & _ & NK & r' & I' & J')] & r2 & I2 & ->); [apply mget_In_NoDup in I'; [|exact ND]; rewrite G in I'; inversion I'; subst; contradiction|].
           assert (c :: K' = K) by exact (U _ _ _ _ _ IA I' JA J'). subst K. apply mget_In_NoDup in IA; [|exact ND]. apply mget_In_NoDup in I2; [|exact ND]. assert (ra = r2) by congruence. subst. reflexivity.
      * split; [intro X0; discriminate X0|]. intros ([(-> & r' & I' & NG)|(_ & _ & NK & r' & I' & J')] & _); [apply mget_In_NoDup in I'; [|exact ND]; rewrite G in I'; inversion I'; subst; contradiction|].
        assert (X : mget (alias_map refs) k = Some K) by (apply alias_map_spec; eauto). pose proof (eq_trans (eq_sym AM) X) as X1. discriminate X1.
    + split.
      * intro H. inversion H; subst. split; [left; split; [reflexivity|]; exists r; split; [exact I|rewrite RG; discriminate]|]. exists r. split; [exact I|]. unfold of_ref. rewrite RG. reflexivity.
      * intros ([(-> & r' & I' & NG)|(X & _)] & r2 & I2 & ->); [|rewrite (X r I) in RG; discriminate]. apply mget_In_NoDup in I2; [|exact ND]. rewrite G in I2. inversion I2; subst. unfold of_ref. rewrite RG. reflexivity.
  - cbn [r_group no_ref]. destruct (has_prefix $"must" k) eqn:HP.
    { split; [intro X0; discriminate X0|]. intros ([(-> & r' & I' & NG)|(_ & X & _)] & _); [|congruence]. apply mget_In_NoDup in I'; [|exact ND]. congruence. }
    lazymatch goal with |- context [@mget ?A (alias_map refs) k] => destruct (@mget A (alias_map refs) k) as [K'|] eqn:AM end.
    + change (mget (alias_map refs) k = Some K') in AM. apply (alias_map_spec refs k K' U) in AM. destruct AM as (ra & IA & JA). destruct K' as [|c K'].
      { split; [intro X0; discriminate X0|]. intros ([(-> & r' & I' & NG)|(_ & _ & NK & r' & I' & J')] & _); [apply mget_In_NoDup in I'; [|exact ND]; congruence|]. exfalso. apply NK. exact (U _ _ _ _ _ I' IA J' JA). }
      rewrite (mget_In_NoDup _ _ _ ND IA). split.
      * intro H. inversion H; subst. split; [right|exists ra; split; [exact IA|reflexivity]]. split; [intros r' I'; apply mget_In_NoDup in I'; [|exact ND]; congruence|].
        split; [reflexivity|]. split; [intro X0; discriminate X0|]. exists ra. auto.
      * intros ([(-> & r' & I' & NG)|(_ & _ & NK & r' & I' & J')] & r2 & I2 & ->); [apply mget_In_NoDup in I'; [|exact ND]; congruence|].
        assert (c :: K' = K) by exact (U _ _ _ _ _ IA I' JA J'). subst K. apply mget_In_NoDup in IA; [|exact ND]. apply mget_In_NoDup in I2; [|exact ND]. assert (ra = r2) by congruence. subst. reflexivity.
    + split; [intro X0; discriminate X0|]. intros ([(-> & r' & I' & NG)|(_ & _ & NK & r' & I' & J')] & _); [apply mget_In_NoDup in I'; [|exact ND]; congruence|].
      assert (X : mget (alias_map refs) k = Some K) by (apply alias_map_spec; eauto). pose proof (eq_trans (eq_sym AM) X) as X1. discriminate X1.
Qed.
Lemma sprig_spec refs (lib : list (str * F)) : NoDup (map fst refs) ->
  (forall K K' r r' a, In (K, r) refs -> In (K', r') refs -> In a (r_aliases r) -> In a (r_aliases r') -> K = K') ->
  (forall K k k' f f', gives_name refs K k -> gives_name refs K k' -> In (k, f) lib -> In (k', f') lib -> f = f') ->
  forall K e, mget (sprig_table refs lib) K = Some e <-> exists k f r, gives_name refs K k /\ In (k, f) lib /\ In (K, r) refs /\ e = Own (Info [] (Some f) (r_group r) (r_aliases r) (r_arguments r) (r_description r)).
Proof.
  intros ND U FU K e. unfold sprig_table.
  assert (H : forall l m, (forall y, In y l -> In y lib) -> (forall e', mget m K = Some e' -> exists k f r, gives_name refs K k /\ In (k, f) lib /\ In (K, r) refs /\ e' = of_ref f r) ->
    (mget (fold_left (fun m '(key, f) => match sprig_entry refs (alias_map refs) key f with Some (k, e) => mset m k e | None => m end) l m) K = Some e <->
     (exists k f r, gives_name refs K k /\ In (k, f) l /\ In (K, r) refs /\ e = of_ref f r) \/ mget m K = Some e)).
  { induction l as [|[k f] l IH]; intros m SUB M; [split; [auto|intros [(? & ? & ? & _ & [] & _)|X]; exact X]|]. cbn [fold_left].
    assert (INL : In (k, f) lib) by (apply SUB; left; reflexivity). assert (SUB' : forall y, In y l -> In y lib) by (intros y Y; apply SUB; right; exact Y).
    destruct (sprig_entry refs (alias_map refs) k f) as [[K' e']|] eqn:SE.
    - pose proof SE as SE'. apply sprig_entry_spec in SE'; [|exact ND|exact U]. destruct SE' as (GN & r' & I' & ->).
      rewrite IH; [|exact SUB'|].
      + rewrite mget_mset. split.
        * intros [(k2 & f2 & r2 & A & B & C)|X]; [left; exists k2, f2, r2; split; [exact A|split; [right; exact B|exact C]]|]. destruct (str_eqb_spec K K') as [->|NE]; [|right; exact X]. inversion X; subst.
          left. exists k, f, r'. repeat split; auto. left. reflexivity.
        * intros [(k2 & f2 & r2 & A & [B|B] & C & ->)|X].
          -- inversion B; subst. right. assert (SE2 : sprig_entry refs (alias_map refs) k2 f2 = Some (K, of_ref f2 r2)) by (apply sprig_entry_spec; eauto). rewrite SE in SE2. assert (K' = K) by congruence. subst K'. rewrite str_eqb_refl. congruence.
          -- left. exists k2, f2, r2. auto.
          -- destruct (str_eqb_spec K K') as [->|NE]; [|right; exact X]. right. destruct (M e X) as (k2 & f2 & r2 & A & B & C & ->). f_equal. assert (f = f2) by (eapply FU; [exact GN|exact A|exact INL|exact B]). subst.
             apply mget_In_NoDup in C; [|exact ND]. apply mget_In_NoDup in I'; [|exact ND]. assert (r2 = r') by congruence. subst. reflexivity.
      + intros e'. rewrite mget_mset. destruct (str_eqb_spec K K') as [->|NE]; [|apply M]. intro X. inversion X; subst. exists k, f, r'. auto.
    - rewrite IH; [|exact SUB'|exact M]. split.
      + intros [(k2 & f2 & r2 & A & B & C)|X]; [left; exists k2, f2, r2; split; [exact A|split; [right; exact B|exact C]]|auto].
      + intros [(k2 & f2 & r2 & A & [B|B] & C & ->)|X]; [|left; exists k2, f2, r2; auto|auto]. inversion B; subst. assert (SE2 : sprig_entry refs (alias_map refs) k2 f2 = Some (K, of_ref f2 r2)) by (apply sprig_entry_spec; eauto). congruence. }
  rewrite H; [|auto|discriminate]. split; [intros [X|X]; [exact X|discriminate]|auto].
Qed.
End WithFunctions.
