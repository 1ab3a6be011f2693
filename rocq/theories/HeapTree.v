(** Proofs about merge and clone of shared dictionaries. *)
From Coq Require Import String Ascii List ZArith NArith Bool PeanoNat Lia Permutation.
From Verif Require Import GoStr GoStrFacts ValueModel ValueFacts CollSpec ListModel ListProofs DictModel DictProofs
  HeapModel HeapSpec HeapProofs.
Import ListNotations.

Scheme reads_ind3 := Minimality for reads Sort Prop
  with reads_all_ind3 := Minimality for reads_all Sort Prop
  with reads_map_ind3 := Minimality for reads_map Sort Prop.
Combined Scheme reads_mut from reads_ind3, reads_all_ind3, reads_map_ind3.

Lemma reads_frame_mut h h' :
  (forall v w L, reads h v w L -> (forall p, In p L -> hget h' p = hget h p) -> reads h' v w L) /\
  (forall v w L, reads_all h v w L -> (forall p, In p L -> hget h' p = hget h p) -> reads_all h' v w L) /\
  (forall v w L, reads_map h v w L -> (forall p, In p L -> hget h' p = hget h p) -> reads_map h' v w L).
Proof.
  apply reads_mut; try (intros; constructor; fail).
  - intros i s l L V R IH F. constructor.
    + eapply valid_slice_frame; [|exact V]. apply F. left. reflexivity.
    + rewrite (contents_frame h h' s) by (apply F; left; reflexivity). apply IH. intros. apply F. right. assumption.
  - intros i p m w L G N R IH F. econstructor; eauto.
    + rewrite F by (left; reflexivity). exact G.
    + apply IH. intros. apply F. right. assumption.
  - intros v w L vs ws Ls R IH Rs IHs F. constructor.
    + apply IH. intros. apply F. apply in_or_app. auto.
    + apply IHs. intros. apply F. apply in_or_app. auto.
  - intros k v w L m wm Ls R IH Rs IHs F. constructor.
    + apply IH. intros. apply F. apply in_or_app. auto.
    + apply IHs. intros. apply F. apply in_or_app. auto.
Qed.

Lemma reads_frame h h' v w L : reads h v w L -> (forall p, In p L -> hget h' p = hget h p) -> reads h' v w L.
Proof. apply reads_frame_mut. Qed.
Lemma reads_all_frame h h' v w L : reads_all h v w L -> (forall p, In p L -> hget h' p = hget h p) -> reads_all h' v w L.
Proof. apply reads_frame_mut. Qed.
Lemma reads_map_frame h h' v w L : reads_map h v w L -> (forall p, In p L -> hget h' p = hget h p) -> reads_map h' v w L.
Proof. apply reads_frame_mut. Qed.

Lemma reads_fun_mut h :
  (forall v w L, reads h v w L -> forall w' L', reads h v w' L' -> w' = w /\ L' = L) /\
  (forall v w L, reads_all h v w L -> forall w' L', reads_all h v w' L' -> w' = w /\ L' = L) /\
  (forall v w L, reads_map h v w L -> forall w' L', reads_map h v w' L' -> w' = w /\ L' = L).
Proof.
  apply reads_mut.
  - intros w' L' R. inversion R; auto.
  - intros s w' L' R. inversion R; auto.
  - intros i s l L V R IH w' L' R'. inversion R'; subst.
    match goal with H : reads_all _ _ _ _ |- _ => destruct (IH _ _ H) end. subst; auto.
  - intros i p m w L G N R IH w' L' R'. inversion R' as [| | |? ? m2 ? ? G2 ? R2]; subst.
    assert (m2 = m) by congruence. subst m2. destruct (IH _ _ R2). subst; auto.
  - intros w' L' R. inversion R; auto.
  - intros v w L vs ws Ls R IH Rs IHs w' L' R'. inversion R' as [|? ? ? ? ? ? Ra Rb]; subst.
    destruct (IH _ _ Ra), (IHs _ _ Rb). subst; auto.
  - intros w' L' R. inversion R; auto.
  - intros k v w L m wm Ls R IH Rs IHs w' L' R'. inversion R' as [|? ? ? ? ? ? ? Ra Rb]; subst.
    destruct (IH _ _ Ra), (IHs _ _ Rb). subst; auto.
Qed.
Lemma reads_fun h v w L w' L' : reads h v w L -> reads h v w' L' -> w' = w /\ L' = L.
Proof. intros R. apply (proj1 (reads_fun_mut h) _ _ _ R). Qed.

Lemma reads_lt_mut h :
  (forall v w L, reads h v w L -> forall p, In p L -> p < length h) /\
  (forall v w L, reads_all h v w L -> forall p, In p L -> p < length h) /\
  (forall v w L, reads_map h v w L -> forall p, In p L -> p < length h).
Proof.
  apply reads_mut; simpl; try tauto.
  - intros i s l L V R IH p [<-|Hp]; auto. apply valid_slice_lt. assumption.
  - intros i p m w L G N R IH x [<-|Hx]; auto. eapply hget_lt; eauto.
  - intros v w L vs ws Ls R IH Rs IHs p Hp. apply in_app_or in Hp. destruct Hp; auto.
  - intros k v w L m wm Ls R IH Rs IHs p Hp. apply in_app_or in Hp. destruct Hp; auto.
Qed.
Lemma reads_lt h v w L p : reads h v w L -> In p L -> p < length h.
Proof. intros R. apply (proj1 (reads_lt_mut h) _ _ _ R). Qed.

Lemma reads_converted_mut h :
  (forall v w L, reads h v w L -> converted w) /\
  (forall v w L, reads_all h v w L -> Forall converted w) /\
  (forall v w L, reads_map h v w L -> Forall (fun kv => converted (snd kv)) w).
Proof. apply reads_mut; intros; constructor; auto. Qed.

Lemma reads_map_keys h m w L : reads_map h m w L -> mkeys w = mkeys m.
Proof. intros R. induction R; simpl; congruence. Qed.

Lemma reads_map_app h m1 m2 w1 w2 L1 L2 : reads_map h m1 w1 L1 -> reads_map h m2 w2 L2 ->
  reads_map h (m1 ++ m2) (w1 ++ w2) (L1 ++ L2).
Proof.
  intros R1 R2. induction R1; simpl; auto. rewrite <- app_assoc. constructor; auto.
Qed.

(** The entry of a key, in context. *)
Lemma reads_map_split h m w L k v : reads_map h m w L -> mget m k = Some v ->
  exists m1 m2 w1 w2 x L1 Lk L2,
    m = m1 ++ (k, v) :: m2 /\ w = w1 ++ (k, x) :: w2 /\ L = L1 ++ Lk ++ L2 /\
    ~ In k (mkeys m1) /\ ~ In k (mkeys w1) /\
    reads_map h m1 w1 L1 /\ reads h v x Lk /\ reads_map h m2 w2 L2.
Proof.
  intros R. induction R as [|k0 v0 w0 L0 m wm Ls R0 Rm IH]; intros G; [discriminate|].
  cbn [mget] in G. destruct (str_eqb_spec k k0) as [E|E].
  - subst k0. injection G as <-. exists [], m, [], wm, w0, [], L0, Ls. simpl. repeat split; auto. constructor.
  - destruct (IH G) as (m1 & m2 & w1 & w2 & x & L1 & Lk & L2 & E1 & E2 & E3 & N1 & N2 & R1 & Rk & R2). subst.
    exists ((k0, v0) :: m1), m2, ((k0, w0) :: w1), w2, x, (L0 ++ L1), Lk, L2. simpl.
    rewrite <- app_assoc. repeat split; auto.
    + intros [F|F]; [congruence|auto].
    + intros [F|F]; [congruence|auto].
    + constructor; auto.
Qed.

Lemma mget_split {A} (m1 m2 : list (str * A)) k v : ~ In k (mkeys m1) -> mget (m1 ++ (k, v) :: m2) k = Some v.
Proof.
  induction m1 as [|[k0 v0] m1 IH]; intros N; cbn [app mget].
  - rewrite str_eqb_refl. reflexivity.
  - destruct (str_eqb_spec k k0); [subst; exfalso; apply N; left; reflexivity|].
    apply IH. intros F. apply N. right. exact F.
Qed.

Lemma mset_split {A} (m1 m2 : list (str * A)) k v v' : ~ In k (mkeys m1) ->
  mset (m1 ++ (k, v) :: m2) k v' = m1 ++ (k, v') :: m2.
Proof.
  induction m1 as [|[k0 v0] m1 IH]; intros N; cbn [app mset].
  - rewrite str_eqb_refl. reflexivity.
  - destruct (str_eqb_spec k k0); [subst; exfalso; apply N; left; reflexivity|].
    f_equal. apply IH. intros F. apply N. right. exact F.
Qed.

Lemma reads_map_get_none h m w L k : reads_map h m w L -> mget m k = None -> mget w k = None.
Proof.
  intros R G. apply mget_None. rewrite (reads_map_keys _ _ _ _ R). apply mget_None. assumption.
Qed.

Lemma deep_merge_app t s1 s2 : deep_merge t (s1 ++ s2) = deep_merge (deep_merge t s1) s2.
Proof. revert t; induction s1 as [|[k v] s1 IH]; intros t; cbn [app deep_merge]; auto. Qed.

Lemma ddepth_get i m k v : mget m k = Some v -> ddepth v < ddepth (VDict i m).
Proof.
  intros G. apply mget_In in G. cbn [ddepth]. induction m as [|[k0 v0] m IH]; [destruct G|].
  cbn [fold_right snd]. destruct G as [E|G].
  - injection E as -> ->. lia.
  - specialize (IH G). lia.
Qed.

Lemma NoDup_app_inv {A} (a b : list A) : NoDup (a ++ b) ->
  NoDup a /\ NoDup b /\ (forall x, In x a -> ~ In x b).
Proof.
  induction a as [|x a IH]; simpl; intros N.
  - split; [constructor|]. split; auto.
  - inversion N as [|? ? N1 N2]; subst. destruct (IH N2) as (Na & Nb & D). split; [|split; auto].
    + constructor; auto. intros F. apply N1. apply in_or_app. auto.
    + intros y [<-|Hy] F; [apply N1; apply in_or_app; auto|]. apply (D y); auto.
Qed.

Lemma NoDup_app_intro {A} (a b : list A) : NoDup a -> NoDup b -> (forall x, In x a -> ~ In x b) -> NoDup (a ++ b).
Proof.
  induction a as [|x a IH]; simpl; intros Na Nb D; auto. inversion Na; subst. constructor.
  - intros F. apply in_app_or in F. destruct F; [contradiction|]. apply (D x); auto.
  - apply IH; auto.
Qed.

Lemma map_at_frame h h' p : hget h' p = hget h p -> map_at h' p = map_at h p.
Proof. unfold map_at. intros ->. reflexivity. Qed.

(** Target (footprint L) without internal sharing, disjoint from the source (footprint F). *)
Definition merge_ok (f : nat) : Prop := forall h p q i j tm sm L F,
  reads h (HDict i p) (VDict i tm) L -> reads h (HDict j q) (VDict j sm) F -> NoDup (L ++ F) ->
  ddepth (VDict i tm) <= f ->
  exists h' L', h_deep_merge f h p q = Some h' /\
    reads h' (HDict i p) (VDict i (deep_merge tm sm)) L' /\ NoDup L' /\ incl L' (L ++ F) /\
    (forall x, ~ In x L -> hget h' x = hget h x).

(** What a step of the loop does to the target. *)
Lemma merge_step_ok f (IHf : merge_ok f) h p q k sv sw Fk m tm Lm L :
  hget h p = Some (OMap m) -> NoDup (mkeys m) -> reads_map h m tm Lm -> NoDup (p :: Lm) ->
  mget (map_at h q) k = Some sv -> reads h sv sw Fk -> NoDup Fk -> q <> p ->
  (forall x, In x Fk -> ~ In x (p :: Lm)) ->
  (forall v w Lk, mget m k = Some v -> reads h v w Lk -> incl Lk L) -> In p L ->
  (forall w, mget tm k = Some w -> ddepth w <= f) ->
  exists h' m' Lm', merge_step (h_deep_merge f) p q (Some h) k = Some h' /\
    hget h' p = Some (OMap m') /\ NoDup (mkeys m') /\
    reads_map h' m' (deep_merge tm [(k, sw)]) Lm' /\ NoDup (p :: Lm') /\ incl Lm' (Lm ++ Fk) /\
    (forall x, ~ In x L -> hget h' x = hget h x) /\
    (forall x, ~ In x (p :: Lm) -> hget h' x = hget h x) /\
    (forall k', k' <> k -> mget m' k' = mget m k') /\
    (forall k' v w Lk, k' <> k -> mget m k' = Some v -> reads h v w Lk -> reads h' v w Lk).
Proof.
  intros G Nm R N Gs Rs NF Hqp D HL HpL Hd.
  assert (Np : ~ In p Lm /\ NoDup Lm) by (inversion N; auto). destruct Np as [Np NLm].
  assert (Lt : p < length h) by (eapply hget_lt; eauto).
  assert (Other : forall k' v w Lk, mget m k' = Some v -> reads h v w Lk -> incl Lk Lm).
  { intros k' v w Lk G' R'. destruct (reads_map_split _ _ _ _ _ _ R G') as (m1 & m2 & w1 & w2 & x & L1 & Lk' & L2 & _ & _ & E & _ & _ & _ & Rk & _).
    destruct (reads_fun _ _ _ _ _ _ Rk R') as [_ ->]. subst Lm. intros y Hy. apply in_or_app. right. apply in_or_app. auto. }
  unfold merge_step. rewrite Gs, (map_at_get _ _ _ G). cbn [deep_merge].
  destruct (mget m k) as [tv|] eqn:Gt.
  - destruct (reads_map_split _ _ _ _ _ _ R Gt) as (m1 & m2 & w1 & w2 & tw & L1 & Lk & L2 & Em & Ew & EL & N1 & N2 & R1 & Rk & R2).
    assert (Gtm : mget tm k = Some tw) by (rewrite Ew; apply mget_split; assumption).
    rewrite Gtm.
    assert (Keep : merge_val tw sw = tw ->
      exists h' m' Lm', Some h = Some h' /\
      hget h' p = Some (OMap m') /\ NoDup (mkeys m') /\
      reads_map h' m' (mset tm k (merge_val tw sw)) Lm' /\ NoDup (p :: Lm') /\ incl Lm' (Lm ++ Fk) /\
      (forall x, ~ In x L -> hget h' x = hget h x) /\
      (forall x, ~ In x (p :: Lm) -> hget h' x = hget h x) /\
      (forall k', k' <> k -> mget m' k' = mget m k') /\
      (forall k' v w Lk, k' <> k -> mget m k' = Some v -> reads h v w Lk -> reads h' v w Lk)).
    { intros Em'. rewrite Em'. rewrite mset_same by exact Gtm. exists h, m, Lm. repeat split; auto.
      apply incl_appl. apply incl_refl. }
    destruct tv as [|ts|ti tsl|i0 p'];
      try (inversion Rk; subst; apply Keep; destruct sw; reflexivity).
    destruct sv as [|ss|si ssl|i1 q'];
      try (inversion Rs; subst; apply Keep; inversion Rk; reflexivity).
    assert (Etw : exists tm', tw = VDict i0 tm') by (inversion Rk; eauto). destruct Etw as [tm' ->].
    assert (Esw : exists sm', sw = VDict i1 sm') by (inversion Rs; eauto). destruct Esw as [sm' ->].
    rewrite merge_val_dict.
    assert (DLk : forall x, In x Lk -> ~ In x (p :: L1 ++ L2)).
    { intros x Hx [F|F].
      - subst x. apply Np. rewrite EL. apply in_or_app. right. apply in_or_app. auto.
      - rewrite EL in NLm. apply NoDup_app_inv in NLm. destruct NLm as (_ & NL' & D1).
        apply NoDup_app_inv in NL'. destruct NL' as (_ & _ & D2). apply in_app_or in F. destruct F as [F|F].
        + apply (D1 x F). apply in_or_app. auto.
        + apply (D2 x Hx F). }
    assert (NLk : NoDup Lk).
    { rewrite EL in NLm. apply NoDup_app_inv in NLm. destruct NLm as (_ & NL' & _).
      apply NoDup_app_inv in NL'. tauto. }
    assert (ILk : incl Lk Lm).
    { rewrite EL. intros x Hx. apply in_or_app. right. apply in_or_app. auto. }
    destruct (IHf h p' q' i0 i1 tm' sm' Lk Fk) as (h1 & Lr & E1 & Rr & NLr & ILr & Fr).
    { exact Rk. }
    { exact Rs. }
    { apply NoDup_app_intro; auto. intros x Hx Hf. apply (D x Hf). right. apply ILk. exact Hx. }
    { apply (Hd _ Gtm). }
    rewrite E1.
    assert (Gp1 : hget h1 p = Some (OMap m)).
    { rewrite Fr; [exact G|]. intros F. apply (DLk p F). left. reflexivity. }
    unfold h_dict_set. rewrite (map_at_get _ _ _ Gp1). rewrite mset_same by exact Gt.
    assert (Eh : hput h1 p (OMap m) = h1) by (unfold hput; apply upd_id; exact Gp1).
    rewrite Eh.
    assert (DLr : forall x, In x Lr -> ~ In x (p :: L1 ++ L2)).
    { intros x Hx F. apply ILr in Hx. apply in_app_or in Hx. destruct Hx as [Hx|Hx].
      - apply (DLk x Hx F).
      - apply (D x Hx). destruct F as [F|F]; [left; exact F|right]. rewrite EL.
        apply in_app_or in F. apply in_or_app. destruct F; [left|right; apply in_or_app]; auto. }
    assert (NL12 : NoDup (L1 ++ L2) /\ NoDup L1 /\ NoDup L2).
    { rewrite EL in NLm. apply NoDup_app_inv in NLm. destruct NLm as (NL1 & NL' & D1).
      apply NoDup_app_inv in NL'. destruct NL' as (_ & NL2 & D2). split; [|split]; auto.
      apply NoDup_app_intro; auto. intros x Hx F. apply (D1 x Hx). apply in_or_app. auto. }
    destruct NL12 as (NL12 & NL1 & NL2).
    exists h1, m, (L1 ++ Lr ++ L2).
    split; [reflexivity|]. split; [exact Gp1|]. split; [exact Nm|].
    split; [|split; [|split; [|split; [|split; [|split]]]]].
    + rewrite Ew, mset_split by assumption. rewrite Em.
      assert (FR : forall x, In x (L1 ++ L2) -> hget h1 x = hget h x).
      { intros x Hx. apply Fr. intros F. apply (DLk x F). right. exact Hx. }
      apply reads_map_app.
      * eapply reads_map_frame; [exact R1|]. intros x Hx. apply FR. apply in_or_app. auto.
      * constructor; [exact Rr|]. eapply reads_map_frame; [exact R2|].
        intros x Hx. apply FR. apply in_or_app. auto.
    + constructor.
      * intros F. apply in_app_or in F. destruct F as [F|F].
        -- apply Np. rewrite EL. apply in_or_app. auto.
        -- apply in_app_or in F. destruct F as [F|F].
           ++ apply (DLr p F). left. reflexivity.
           ++ apply Np. rewrite EL. apply in_or_app. right. apply in_or_app. auto.
      * apply NoDup_app_inv in NL12. destruct NL12 as (_ & _ & D12).
        apply NoDup_app_intro; auto.
        -- apply NoDup_app_intro; auto. intros x Hx F. apply (DLr x Hx). right. apply in_or_app. auto.
        -- intros x Hx F. apply in_app_or in F. destruct F as [F|F].
           ++ apply (DLr x F). right. apply in_or_app. auto.
           ++ apply (D12 x Hx F).
    + intros x Hx. apply in_app_or in Hx. destruct Hx as [Hx|Hx].
      * apply in_or_app. left. rewrite EL. apply in_or_app. auto.
      * apply in_app_or in Hx. destruct Hx as [Hx|Hx].
        -- apply ILr in Hx. apply in_app_or in Hx. apply in_or_app. destruct Hx; auto.
        -- apply in_or_app. left. rewrite EL. apply in_or_app. right. apply in_or_app. auto.
    + intros x Hx. apply Fr. intros F. apply Hx. eapply HL; eauto.
    + intros x Hx. apply Fr. intros F. apply Hx. right. apply ILk. exact F.
    + auto.
    + intros k' v w Lk2 Hk G' R'. eapply reads_frame; [exact R'|]. intros x Hx. apply Fr. intros F.
      (* entries at different keys have disjoint footprints *)
      rewrite Em in G'.
      assert (In x (L1 ++ L2)).
      { clear - G' R' Hk R1 R2 Hx N1.
        assert (Gd : mget (m1 ++ m2) k' = Some v).
        { clear - G' Hk. induction m1 as [|[k0 v0] m1 IH]; cbn [app mget] in *.
          - destruct (str_eqb_spec k' k); [congruence|assumption].
          - destruct (str_eqb k' k0); auto. }
        pose proof (reads_map_app _ _ _ _ _ _ _ R1 R2) as R12.
        destruct (reads_map_split _ _ _ _ _ _ R12 Gd) as (n1 & n2 & x1 & x2 & tw' & M1 & Mk & M2 & _ & _ & E & _ & _ & _ & Rk' & _).
        destruct (reads_fun _ _ _ _ _ _ Rk' R') as [_ ->]. rewrite E. apply in_or_app. right. apply in_or_app. auto. }
      apply (DLk x F). right. assumption.
  - rewrite (reads_map_get_none _ _ _ _ _ R Gt).
    unfold h_dict_set. rewrite (map_at_get _ _ _ G). rewrite (mset_new m), (mset_new tm) by (auto; eapply reads_map_get_none; eauto).
    set (h' := hput h p (OMap (m ++ [(k, sv)]))).
    assert (F' : forall x, x <> p -> hget h' x = hget h x) by (intros; apply hget_hput_ne; auto).
    assert (Dp : ~ In p Fk) by (intros F; apply (D p F); left; reflexivity).
    exists h', (m ++ [(k, sv)]), (Lm ++ Fk).
    split; [reflexivity|]. split; [apply hget_hput_eq; exact Lt|].
    split; [|split; [|split; [|split; [|split; [|split; [|split]]]]]].
    + unfold mkeys. rewrite map_app. apply NoDup_app_single; [exact Nm|]. apply mget_None. assumption.
    + apply reads_map_app.
      * eapply reads_map_frame; [exact R|]. intros x Hx. apply F'. intros ->. contradiction.
      * rewrite <- (app_nil_r Fk). constructor; [|constructor].
        eapply reads_frame; [exact Rs|]. intros x Hx. apply F'. intros ->. contradiction.
    + constructor.
      * intros F. apply in_app_or in F. destruct F; contradiction.
      * apply NoDup_app_intro; auto. intros x Hx F. apply (D x F). right. exact Hx.
    + apply incl_refl.
    + intros x Hx. apply F'. intros ->. contradiction.
    + intros x Hx. apply F'. intros ->. apply Hx. left. reflexivity.
    + intros k' Hk. destruct (mget m k') as [v|] eqn:G'.
      * apply mget_In in G'. apply mget_In_NoDup; [|apply in_or_app; auto].
        unfold mkeys. rewrite map_app. apply NoDup_app_single; [exact Nm|]. apply mget_None. assumption.
      * apply mget_None. intros F. unfold mkeys in F. rewrite map_app in F. apply in_app_or in F.
        destruct F as [F|[F|[]]]; [|simpl in F; congruence].
        apply mget_None in G'. contradiction.
    + intros k' v w Lk Hk G' R'. eapply reads_frame; [exact R'|]. intros x Hx. apply F'. intros ->.
      apply Np. eapply Other; eauto.
Qed.

Lemma merge_loop f (IHf : merge_ok f) p q h0 ms L : forall m2 sm2 F2 h m tm Lm,
  (forall k v, In (k, v) m2 -> mget ms k = Some v) -> NoDup (mkeys m2) ->
  hget h q = Some (OMap ms) -> q <> p -> ~ In q Lm -> ~ In q L ->
  reads_map h m2 sm2 F2 ->
  hget h p = Some (OMap m) -> NoDup (mkeys m) -> reads_map h m tm Lm -> NoDup (p :: Lm) -> NoDup F2 -> ~ In q F2 ->
  (forall x, In x F2 -> ~ In x (p :: Lm)) -> (forall x, In x F2 -> ~ In x L) -> In p L ->
  (forall k v w Lk, In k (mkeys m2) -> mget m k = Some v -> reads h v w Lk -> incl Lk L) ->
  (forall k w, In k (mkeys m2) -> mget tm k = Some w -> ddepth w <= f) ->
  (forall x, ~ In x L -> hget h x = hget h0 x) ->
  exists h' m' Lm', fold_left (merge_step (h_deep_merge f) p q) (mkeys m2) (Some h) = Some h' /\
    hget h' p = Some (OMap m') /\ NoDup (mkeys m') /\
    reads_map h' m' (deep_merge tm sm2) Lm' /\ NoDup (p :: Lm') /\ incl Lm' (Lm ++ F2) /\
    (forall x, ~ In x L -> hget h' x = hget h0 x).
Proof.
  induction m2 as [|[k sv] m2 IH]; intros sm2 F2 h m tm Lm Hm2 Nm2 Gq Hqp HqLm HqL Rm2 G Nm R N NF HqF D DL HpL HL Hd Fr.
  - inversion Rm2; subst. cbn [mkeys map fold_left deep_merge]. exists h, m, Lm. repeat split; auto.
    apply incl_appl. apply incl_refl.
  - inversion Rm2 as [|? ? sw Fk ? sm2' F2' Rk Rm2']; subst.
    cbn [mkeys map fold_left fst]. fold (mkeys m2).
    apply NoDup_app_inv in NF. destruct NF as (NFk & NF2 & DF).
    inversion Nm2 as [|? ? Nk Nm2']; subst.
    destruct (merge_step_ok f IHf h p q k sv sw Fk m tm Lm L) as
      (h1 & m1 & Lm1 & E1 & G1 & N1 & R1 & Nd1 & I1 & Fr1 & Fr1' & Ge1 & Re1); auto.
    { rewrite (map_at_get _ _ _ Gq). apply Hm2. left. reflexivity. }
    { intros x Hx. apply D. apply in_or_app. auto. }
    { intros v w Lk. apply HL. left. reflexivity. }
    { intros w. apply Hd. left. reflexivity. }
    rewrite E1.
    assert (HF2 : forall x, In x F2' -> hget h1 x = hget h x).
    { intros x Hx. apply Fr1. apply DL. apply in_or_app. auto. }
    destruct (IH sm2' F2' h1 m1 (deep_merge tm [(k, sw)]) Lm1) as (h' & m' & Lm' & E' & G' & N' & R' & Nd' & I' & Fr'); auto.
    + intros k' v' Hin. apply Hm2. right. exact Hin.
    + rewrite Fr1; auto.
    + intros Hin. apply I1 in Hin. apply in_app_or in Hin. destruct Hin as [Hin|Hin]; auto.
      apply HqF. apply in_or_app. auto.
    + eapply reads_map_frame; [exact Rm2'|exact HF2].
    + intros F. apply HqF. apply in_or_app. auto.
    + intros x Hx [F|F].
      * apply (D x); [apply in_or_app; auto|left; exact F].
      * apply I1 in F. apply in_app_or in F. destruct F as [F|F].
        -- apply (D x); [apply in_or_app; auto|right; exact F].
        -- apply (DF x F Hx).
    + intros x Hx. apply DL. apply in_or_app. auto.
    + intros k' v w Lk Hk' Gk' Rk'. assert (k' <> k) by (intros ->; contradiction).
      rewrite Ge1 in Gk' by assumption.
      destruct (reads_map_split _ _ _ _ _ _ R Gk') as (? & ? & ? & ? & x & ? & Lk0 & ? & _ & _ & _ & _ & _ & _ & Rk0 & _).
      pose proof (Re1 _ _ _ _ H Gk' Rk0) as Rk1. destruct (reads_fun _ _ _ _ _ _ Rk1 Rk') as [_ ->].
      eapply HL; [right; exact Hk'|exact Gk'|exact Rk0].
    + intros k' w Hk' Gk'. assert (Hne : k' <> k) by (intros ->; contradiction).
      apply (Hd k'); [right; exact Hk'|]. cbn [deep_merge] in Gk'.
      destruct (mget tm k); rewrite mget_mset_ne in Gk'; auto.
    + intros x Hx. rewrite Fr1; auto.
    + exists h', m', Lm'. split; [exact E'|]. split; [exact G'|]. split; [exact N'|].
      split; [|split; [exact Nd'|split; [|exact Fr']]].
      * change ((k, sw) :: sm2') with ([(k, sw)] ++ sm2'). rewrite deep_merge_app. exact R'.
      * intros x Hx. apply I' in Hx. apply in_app_or in Hx. destruct Hx as [Hx|Hx].
        -- apply I1 in Hx. apply in_app_or in Hx. apply in_or_app. destruct Hx; auto. right. apply in_or_app. auto.
        -- apply in_or_app. right. apply in_or_app. auto.
Qed.

Lemma merge_ok_all f : merge_ok f.
Proof.
  induction f as [|f IHf]; intros h p q i j tm sm L F RT RS N Hd.
  - cbn [ddepth] in Hd. lia.
  - inversion RT as [| | |? ? m ? Lm G Nm R]; subst. inversion RS as [| | |? ? ms ? Fm Gq Nms Rs]; subst.
    cbn [h_deep_merge]. rewrite (map_at_get _ _ _ Gq).
    apply NoDup_app_inv in N. destruct N as (NL & NF & D).
    inversion NF as [|? ? NqF NFm]; subst.
    destruct (merge_loop f IHf p q h ms (p :: Lm) ms sm Fm h m tm Lm) as
      (h' & m' & Lm' & E' & G' & N' & R' & Nd' & I' & Fr'); auto.
    + intros k v Hin. apply mget_In_NoDup; auto.
    + intros ->. apply (D p); left; reflexivity.
    + intros F. apply (D q); [right; exact F|left; reflexivity].
    + intros F. apply (D q); [exact F|left; reflexivity].
    + intros x Hx F. apply (D x F). right. exact Hx.
    + intros x Hx F. apply (D x F). right. exact Hx.
    + left. reflexivity.
    + intros k v w Lk _ Gk Rk. intros x Hx. right.
      destruct (reads_map_split _ _ _ _ _ _ R Gk) as (? & ? & ? & ? & y & L1 & Lk0 & L2 & _ & _ & E & _ & _ & _ & Rk0 & _).
      destruct (reads_fun _ _ _ _ _ _ Rk0 Rk) as [_ ->]. rewrite E. apply in_or_app. right. apply in_or_app. auto.
    + intros k w _ Gk. pose proof (ddepth_get i tm k w Gk). lia.
    + exists h', (p :: Lm'). split; [exact E'|]. split; [econstructor; eauto|]. split; [exact Nd'|]. split; [|exact Fr'].
      intros x [Hx|Hx]; [left; exact Hx|]. apply I' in Hx. right. apply in_app_or in Hx. apply in_or_app.
      destruct Hx; auto. right. right. assumption.
Qed.

(** ** Several sources *)

Definition mdepth (m : list (str * value)) : nat := fold_right (fun kv n => Nat.max (ddepth (snd kv)) n) 0 m.

Lemma mdepth_mset m k v : mdepth (mset m k v) <= Nat.max (mdepth m) (ddepth v).
Proof.
  unfold mdepth. induction m as [|[k0 v0] m IH]; cbn [mset fold_right snd]; [lia|].
  destruct (str_eqb k k0); cbn [fold_right snd]; lia.
Qed.

Lemma mdepth_get m k v : mget m k = Some v -> ddepth v <= mdepth m.
Proof. intros G. pose proof (ddepth_get Base m k v G) as H. cbn [ddepth] in H. unfold mdepth. lia. Qed.

Lemma ddepth_deep_merge_aux s :
  Forall (fun kv => forall t, ddepth (merge_val t (snd kv)) <= Nat.max (ddepth t) (ddepth (snd kv))) s ->
  forall t, mdepth (deep_merge t s) <= Nat.max (mdepth t) (mdepth s).
Proof.
  intros F. induction F as [|[k v] s Hv F IH]; intros t; cbn [deep_merge]; [lia|].
  change (mdepth ((k, v) :: s)) with (Nat.max (ddepth v) (mdepth s)). simpl in Hv.
  destruct (mget t k) as [tv|] eqn:G; eapply Nat.le_trans; try apply IH.
  - pose proof (mdepth_mset t k (merge_val tv v)). pose proof (Hv tv). pose proof (mdepth_get _ _ _ G). lia.
  - pose proof (mdepth_mset t k v). lia.
Qed.

Lemma ddepth_merge_val s : forall t, ddepth (merge_val t s) <= Nat.max (ddepth t) (ddepth s).
Proof.
  induction s using value_ind'; intros t0; destruct t0; try (simpl; lia).
  rewrite merge_val_dict. cbn [ddepth]. fold (mdepth m0). fold (mdepth m). fold (mdepth (deep_merge m0 m)).
  pose proof (ddepth_deep_merge_aux m H m0). lia.
Qed.

Lemma mdepth_deep_merge t s : mdepth (deep_merge t s) <= Nat.max (mdepth t) (mdepth s).
Proof. apply ddepth_deep_merge_aux. apply Forall_forall. intros kv _ t0. apply ddepth_merge_val. Qed.

Lemma reads_sources_frame h h' qs sms Fs : reads_sources h qs sms Fs ->
  (forall p, In p (concat Fs) -> hget h' p = hget h p) -> reads_sources h' qs sms Fs.
Proof.
  intros R. induction R; intros Fr; econstructor; eauto.
  - eapply reads_frame; eauto. intros. apply Fr. simpl. apply in_or_app. auto.
  - apply IHR. intros. apply Fr. simpl. apply in_or_app. auto.
Qed.

Lemma merge_many fuel p i : forall qs sms Fs h tm L,
  reads h (HDict i p) (VDict i tm) L -> reads_sources h qs sms Fs -> NoDup (L ++ concat Fs) ->
  ddepth (VDict i tm) <= fuel -> Forall (fun sm => ddepth (VDict i sm) <= fuel) sms ->
  exists h' L', h_merge fuel h p qs = Some h' /\
    reads h' (HDict i p) (VDict i (fold_left deep_merge sms tm)) L' /\ NoDup L' /\ incl L' (L ++ concat Fs) /\
    (forall x, ~ In x (L ++ concat (removelast Fs)) -> hget h' x = hget h x).
Proof.
  intros qs sms Fs. revert qs sms. induction Fs as [|F Fs IH]; intros qs sms h tm L RT RS N Hd Hs.
  - inversion RS; subst. cbn [h_merge fold_left]. exists h, L. repeat split; auto.
    + apply NoDup_app_inv in N. tauto.
    + apply incl_appl. apply incl_refl.
  - inversion RS as [|q j sm F' qs' sms' Fs' RS1 RS2]; subst. inversion Hs as [|? ? Hs1 Hs2]; subst.
    cbn [h_merge fold_left]. cbn [concat] in N. rewrite app_assoc in N.
    apply NoDup_app_inv in N. destruct N as (N1 & N2 & D12).
    destruct (merge_ok_all fuel h p q i j tm sm L F RT RS1 N1 Hd) as (h1 & L1 & E1 & R1 & NL1 & I1 & Fr1).
    rewrite E1.
    destruct (IH qs' sms' h1 (deep_merge tm sm) L1) as (h' & L' & E' & R' & NL' & I' & Fr'); auto.
    + eapply reads_sources_frame; [exact RS2|]. intros x Hx. apply Fr1. intros HxL.
      apply (D12 x); [apply in_or_app; auto|exact Hx].
    + apply NoDup_app_intro; auto.
    + cbn [ddepth] in *. fold (mdepth (deep_merge tm sm)). fold (mdepth tm) in Hd. fold (mdepth sm) in Hs1.
      pose proof (mdepth_deep_merge tm sm). lia.
    + exists h', L'. split; [exact E'|]. split; [exact R'|]. split; [exact NL'|]. split.
      * intros x Hx. apply I' in Hx. apply in_app_or in Hx. cbn [concat]. rewrite app_assoc. apply in_or_app.
        destruct Hx; auto.
      * intros x Hx.
        assert (HxL : ~ In x L) by (intros F0; apply Hx; apply in_or_app; auto).
        destruct Fs as [|F2 Fs].
        -- inversion RS2; subst. cbn [h_merge] in E'. injection E' as <-. apply Fr1. exact HxL.
        -- rewrite Fr'; [apply Fr1; exact HxL|]. intros F0. apply Hx.
           change (removelast (F :: F2 :: Fs)) with (F :: removelast (F2 :: Fs)). cbn [concat].
           apply in_app_or in F0. destruct F0 as [F0|F0].
           ++ apply I1 in F0. apply in_app_or in F0. apply in_or_app. destruct F0; auto. right. apply in_or_app. auto.
           ++ apply in_or_app. right. apply in_or_app. auto.
Qed.

(** ** Clone *)

Section WithEnv.
Context {E : Env}.
Variable grow : nat -> nat -> nat.

Lemma owned_frame h h' p x : (forall y, owned h p y -> hget h' y = hget h y) -> owned h' p x -> owned h p x.
Proof.
  intros F O. revert F. induction O as [p|p m k i s G Gk|p m k i q x G Gk O IH]; intros F.
  - constructor.
  - eapply owned_list; eauto. rewrite <- F; [exact G|constructor].
  - assert (G0 : hget h p = Some (OMap m)) by (rewrite <- F; [exact G|constructor]).
    eapply owned_dict; eauto. apply IH. intros y Hy. apply F. eapply owned_dict; eauto.
Qed.

Definition clone_ok (f : nat) : Prop := forall h p i j m L,
  reads h (HDict j p) (VDict j m) L -> ddepth (VDict j m) <= f ->
  exists h' w' L', h_clone grow f i h p = Some (h', length h) /\ length h < length h' /\
    (forall x, x < length h -> hget h' x = hget h x) /\
    reads h' (HDict i (length h)) (VDict i w') L' /\
    veq (VDict i w') (clone_conv i (VDict j m)) /\
    (forall x, owned h' (length h) x -> length h <= x) /\
    (forall x, In x L' -> In x L \/ length h <= x).

Lemma reads_all_unrolled h vs l L : reads_all h vs l L ->
  exists L', reads_all h (unrolled h vs) (unroll l) L' /\ incl L' L.
Proof.
  intros R. destruct R as [|v w L vs ws Ls Rv Rs].
  - exists []. split; [constructor|apply incl_refl].
  - destruct Rs as [|v2 w2 L2 vs ws Ls Rv2 Rs].
    + rewrite app_nil_r. inversion Rv; subst; cbn [unrolled unroll].
      * exists ([] ++ []). split; [repeat constructor|apply incl_refl].
      * exists ([] ++ []). split; [repeat constructor|apply incl_refl].
      * eexists. split; [eassumption|]. apply incl_tl. apply incl_refl.
      * rewrite <- (app_nil_r (p :: L0)). eexists. split; [constructor; [exact Rv|constructor]|apply incl_refl].
    + assert (U1 : unrolled h (v :: v2 :: vs) = v :: v2 :: vs) by (destruct v; reflexivity).
      assert (U2 : unroll (w :: w2 :: ws) = w :: w2 :: ws) by (destruct w; reflexivity).
      rewrite U1, U2. eexists. split; [constructor; [exact Rv|constructor; [exact Rv2|exact Rs]]|apply incl_refl].
Qed.

Lemma Forall_unroll l : Forall converted l -> Forall converted (unroll l).
Proof.
  intros F. destruct l as [|v [|v2 l]]; auto.
  - destruct v; auto; inversion F as [|? ? C _]; subst; inversion C; subst; auto.
  - destruct v; auto.
Qed.

(** Adding an entry to the clone under construction. *)
Record building (h0 : heap) (i : impl) (hm : list (str * value)) (ks : list str) (L : list loc) (h : heap) : Prop := {
  b_len : length h0 < length h;
  b_old : forall x, x < length h0 -> hget h x = hget h0 x;
  b_map : exists mc wc Lc, hget h (length h0) = Some (OMap mc) /\ mkeys mc = ks /\
    reads_map h mc wc Lc /\
    (forall x, In x Lc -> x <> length h0 /\ (In x L \/ length h0 <= x)) /\
    (forall k, In k ks -> exists w0 w', mget hm k = Some w0 /\ mget wc k = Some w' /\ veq w' (clone_conv i w0)) /\
    (forall k j s, mget mc k = Some (HList j s) -> length h0 < s_arr s) /\
    (forall k j q, mget mc k = Some (HDict j q) -> forall x, owned h q x -> length h0 < x)
}.

Lemma building_add h0 i hm ks L h h2 k v w0 w' L' :
  building h0 i hm ks L h -> ~ In k ks ->
  length h <= length h2 -> (forall x, x < length h -> hget h2 x = hget h x) ->
  mget hm k = Some w0 -> reads h2 v w' L' -> veq w' (clone_conv i w0) ->
  (forall x, In x L' -> x <> length h0 /\ (In x L \/ length h0 <= x)) ->
  (forall j s, v = HList j s -> length h0 < s_arr s) ->
  (forall j q, v = HDict j q -> forall x, owned h2 q x -> length h0 < x) ->
  building h0 i hm (ks ++ [k]) L (h_dict_set h2 (length h0) k v).
Proof.
  intros [Bl Bo (mc & wc & Lc & G & K & R & HL & HV & HA & HO)] Nk Len Fr Ghm Rv Q HL' HA' HO'.
  assert (G2 : hget h2 (length h0) = Some (OMap mc)) by (rewrite Fr; auto).
  assert (Nmc : mget mc k = None) by (apply mget_None; rewrite K; exact Nk).
  unfold h_dict_set. rewrite (map_at_get _ _ _ G2), mset_new by exact Nmc.
  set (h' := hput h2 (length h0) (OMap (mc ++ [(k, v)]))).
  assert (F' : forall x, x <> length h0 -> hget h' x = hget h2 x) by (intros; apply hget_hput_ne; auto).
  assert (Lt : length h0 < length h2) by lia.
  assert (OwnOld : forall q, (forall x, owned h q x -> length h0 < x) ->
     (forall x, owned h q x -> x < length h) -> forall x, owned h' q x -> length h0 < x).
  { intros q Hq Hlt x Ox. apply Hq. eapply owned_frame; [|exact Ox]. intros y Oy.
    rewrite F' by (pose proof (Hq y Oy); lia). apply Fr. apply Hlt. exact Oy. }
  assert (Gapp : forall k', mget (mc ++ [(k, v)]) k' = if str_eqb k' k then Some v else mget mc k').
  { intros k'. rewrite <- mset_new by exact Nmc. apply mget_mset. }
  split.
  - unfold h'. rewrite hput_length. lia.
  - intros x Hx. rewrite F' by lia. rewrite Fr by lia. apply Bo. exact Hx.
  - exists (mc ++ [(k, v)]), (wc ++ [(k, w')]), (Lc ++ L').
    split; [apply hget_hput_eq; exact Lt|].
    split; [unfold mkeys in *; rewrite map_app, K; reflexivity|].
    split; [|split; [|split; [|split]]].
    + apply reads_map_app.
      * eapply reads_map_frame; [exact R|]. intros x Hx. rewrite F' by (apply HL; exact Hx).
        apply Fr. eapply (proj2 (proj2 (reads_lt_mut h))); eauto.
      * rewrite <- (app_nil_r L'). constructor; [|constructor]. eapply reads_frame; [exact Rv|].
        intros x Hx. apply F'. apply HL'. exact Hx.
    + intros x Hx. apply in_app_or in Hx. destruct Hx; auto.
    + assert (Nwc : mget wc k = None) by (eapply reads_map_get_none; eauto).
      intros k' Hk'. rewrite <- mset_new by exact Nwc. rewrite mget_mset.
      destruct (str_eqb_spec k' k) as [Ek|Ek].
      * subst k'. exists w0, w'. auto.
      * apply HV. apply in_app_or in Hk'. destruct Hk' as [Hk'|[Hk'|[]]]; [exact Hk'|congruence].
    + intros k' j s. rewrite Gapp. destruct (str_eqb k' k); [|apply HA]. intros Es. injection Es as ->. eapply HA'; eauto.
    + intros k' j q. rewrite Gapp. destruct (str_eqb k' k).
      * intros Es. injection Es as ->. intros x Ox. eapply HO'; [reflexivity|].
        eapply owned_frame; [|exact Ox]. intros y Oy. apply F'. pose proof (HO' j q eq_refl y Oy). lia.
      * intros Gq. apply OwnOld; [eapply HO; eauto|].
        (* owned locations are in the heap *)
        destruct (reads_map_split _ _ _ _ _ _ R Gq) as (? & ? & ? & ? & w9 & ? & L9 & ? & _ & _ & _ & _ & _ & _ & R9 & _).
        clear - R9. intros x Ox. revert w9 j L9 R9.
        induction Ox as [p|p m k i s G Gk|p m k i q x G Gk O IH]; intros w9 j L9 R9;
          inversion R9 as [| | |? ? m2 ? ? G2 ? R2]; subst.
        -- eapply hget_lt; eauto.
        -- assert (m2 = m) by congruence. subst m2.
           destruct (reads_map_split _ _ _ _ _ _ R2 Gk) as (? & ? & ? & ? & ? & ? & ? & ? & _ & _ & _ & _ & _ & _ & R3 & _).
           inversion R3; subst. apply valid_slice_lt. assumption.
        -- assert (m2 = m) by congruence. subst m2.
           destruct (reads_map_split _ _ _ _ _ _ R2 Gk) as (? & ? & ? & ? & ? & ? & ? & ? & _ & _ & _ & _ & _ & _ & R3 & _).
           eapply IH; eauto.
Qed.

Lemma clone_loop f (IHf : clone_ok f) h0 p i m hmap L :
  hget h0 p = Some (OMap hmap) -> NoDup (mkeys hmap) -> reads_map h0 hmap m L ->
  (forall k w, mget m k = Some w -> ddepth w <= f) ->
  forall ks done h, NoDup (done ++ ks) -> (forall k, In k ks -> In k (mkeys hmap)) ->
  building h0 i m done (p :: L) h ->
  exists h', fold_left (clone_step grow (h_clone grow f i) i p (length h0)) ks (Some h) = Some h' /\ building h0 i m (done ++ ks) (p :: L) h'.
Proof.
  intros G Nm R Hd. induction ks as [|k ks IH]; intros done h N Hin B.
  - cbn [fold_left]. rewrite app_nil_r. eauto.
  - cbn [fold_left].
    assert (Lp : p < length h0) by (eapply hget_lt; eauto).
    assert (Gp : map_at h p = hmap) by (apply map_at_get; rewrite (b_old _ _ _ _ _ _ B) by exact Lp; exact G).
    assert (Nk : ~ In k done).
    { intros F. apply NoDup_app_inv in N. destruct N as (_ & _ & D). apply (D k F). left. reflexivity. }
    assert (St : exists h1, clone_step grow (h_clone grow f i) i p (length h0) (Some h) k = Some h1 /\ building h0 i m (done ++ [k]) (p :: L) h1).
    { unfold clone_step. rewrite Gp. specialize (Hin k (or_introl eq_refl)). apply mget_keys in Hin.
      destruct Hin as [v Gv]. rewrite Gv.
      destruct (reads_map_split _ _ _ _ _ _ R Gv) as (m1 & m2 & w1 & w2 & w0 & L1 & Lk & L2 & Em & Ew & EL & N1 & N2 & R1 & Rk & R2).
      assert (Gw : mget m k = Some w0) by (rewrite Ew; apply mget_split; assumption).
      assert (Ilk : forall x, In x Lk -> In x L) by (intros x Hx; rewrite EL; apply in_or_app; right; apply in_or_app; auto).
      assert (Ltk : forall x, In x Lk -> x < length h0) by (intros x Hx; eapply reads_lt; eauto).
      assert (Rk' : reads h v w0 Lk).
      { eapply reads_frame; [exact Rk|]. intros x Hx. apply (b_old _ _ _ _ _ _ B). apply Ltk. exact Hx. }
      destruct v as [|sc|j0 s|j0 q].
      - assert (w0 = VNil /\ Lk = []) as [-> ->] by (inversion Rk; auto).
        eexists. split; [reflexivity|].
        eapply building_add with (h := h); eauto; try (simpl; intros; congruence).
        + apply veq_refl.
        + simpl. tauto.
      - assert (w0 = VScal sc /\ Lk = []) as [-> ->] by (inversion Rk; auto).
        eexists. split; [reflexivity|].
        eapply building_add with (h := h); eauto; try (simpl; intros; congruence).
        + apply veq_refl.
        + simpl. tauto.
      - assert (exists l Ls, w0 = VList j0 l /\ Lk = s_arr s :: Ls /\ reads_all h (contents h s) l Ls) as (l & Ls & -> & -> & RA)
          by (inversion Rk'; eauto 6).
        unfold h_clone_list. pose proof (new_list_spec grow h (contents h s)) as NL.
        destruct (h_new_list grow h (contents h s)) as [h2 s2]. destruct NL as (V2 & C2 & A2 & Ln2 & F2).
        eexists. split; [reflexivity|].
        destruct (reads_all_unrolled _ _ _ _ RA) as (L' & RU & IU).
        assert (Cl : Forall converted l) by (apply (proj1 (proj2 (reads_converted_mut h))) in RA; exact RA).
        pose proof (b_len _ _ _ _ _ _ B) as Bl.
        assert (RA2 : reads h2 (HList i s2) (VList i (unroll l)) (s_arr s2 :: L')).
        { constructor; [exact V2|]. rewrite C2. eapply reads_all_frame; [exact RU|].
          intros x Hx. apply F2. eapply (proj1 (proj2 (reads_lt_mut h))); eauto. }
        eapply building_add with (h := h) (w' := VList i (unroll l)); eauto.
        + cbn [clone_conv]. unfold list_clone. rewrite new_list_eq, map_conv_converted by (apply Forall_unroll; exact Cl).
          apply veq_refl.
        + intros x [Hx|Hx].
          * subst x. split; [lia|]. right. lia.
          * apply IU in Hx. assert (In x (s_arr s :: Ls)) by (right; exact Hx).
            split; [specialize (Ltk x H); lia|]. left. right. apply Ilk. assumption.
        + intros j1 s1 Es. injection Es as _ <-. lia.
        + intros j1 q1 Es. discriminate.
      - assert (exists md Ls, w0 = VDict j0 md /\ Lk = q :: Ls) as (md & Ls & -> & ->) by (inversion Rk; eauto).
        destruct (IHf h q i j0 md _ Rk' (Hd _ _ Gw)) as (h2 & w' & L' & E2 & Ln2 & F2 & R' & Q' & O' & I').
        rewrite E2. eexists. split; [reflexivity|].
        pose proof (b_len _ _ _ _ _ _ B) as Bl.
        eapply building_add with (h := h); eauto.
        + lia.
        + intros x Hx. apply I' in Hx. destruct Hx as [Hx|Hx].
          * split; [specialize (Ltk x Hx); lia|]. left. right. apply Ilk. exact Hx.
          * split; [lia|]. right. lia.
        + intros j1 s1 Es. discriminate.
        + intros j1 q1 Es x Ox. injection Es as _ <-. specialize (O' x Ox). lia. }
    destruct St as (h1 & E1 & B1). rewrite E1.
    change (k :: ks) with ([k] ++ ks) in *. rewrite app_assoc in *. apply IH; auto.
    intros k' Hk'. apply Hin. apply in_or_app. auto.
Qed.

Lemma clone_ok_all f : clone_ok f.
Proof.
  induction f as [|f IHf]; intros h p i j m L RT Hd.
  - cbn [ddepth] in Hd. lia.
  - inversion RT as [| | |? ? hmap ? Lm G Nm R]; subst.
    cbn [h_clone halloc].
    assert (Lp : p < length h) by (eapply hget_lt; eauto).
    assert (Gm : map_at (h ++ [OMap []]) p = hmap) by (apply map_at_get; rewrite hget_app_old; auto).
    rewrite Gm. pose proof (sort_strings_perm (mkeys hmap)) as SP.
    destruct (clone_loop f IHf h p i m hmap Lm G Nm R) with (ks := sort_strings (mkeys hmap)) (done := @nil str)
      (h := h ++ [OMap []]) as (h' & E' & B').
    + intros k w Gk. pose proof (ddepth_get j m k w Gk). lia.
    + simpl. eapply Permutation_NoDup; [apply Permutation_sym; exact SP|exact Nm].
    + intros k Hk. eapply Permutation_in; eauto.
    + split.
      * rewrite app_length. simpl. lia.
      * intros x Hx. apply hget_app_old. exact Hx.
      * exists [], [], []. rewrite hget_app_new. split; [reflexivity|]. split; [reflexivity|]. split; [constructor|].
        split; [intros x []|]. split; [intros k []|]. split; intros; discriminate.
    + match goal with |- context [fold_left ?a ?b ?c] => replace (fold_left a b c) with (Some h') by (symmetry; exact E') end.
      cbn [app] in B'. destruct B' as [Bl Bo (mc & wc & Lc & Gc & K & Rc & HL & HV & HA & HO)].
      exists h', wc, (length h :: Lc). split; [reflexivity|]. split; [exact Bl|]. split; [exact Bo|].
      assert (Nmc : NoDup (mkeys mc)).
      { rewrite K. eapply Permutation_NoDup; [apply Permutation_sym; exact SP|exact Nm]. }
      split; [econstructor; eauto|]. split; [|split].
      * cbn [clone_conv]. apply veq_dict_ext.
        -- rewrite (reads_map_keys _ _ _ _ Rc). exact Nmc.
        -- rewrite mkeys_map, (reads_map_keys _ _ _ _ R). exact Nm.
        -- intros k. rewrite mget_map. destruct (mget m k) as [w0|] eqn:Gk.
           ++ assert (Hk : In k (sort_strings (mkeys hmap))).
              { eapply Permutation_in; [apply Permutation_sym; exact SP|].
                rewrite <- (reads_map_keys _ _ _ _ R). apply mget_keys. eauto. }
              destruct (HV k Hk) as (w1 & w' & G1 & G2 & Q). rewrite G2. simpl. assert (w1 = w0) by congruence. subst; exact Q.
           ++ assert (Gn : mget wc k = None).
              { apply mget_None. rewrite (reads_map_keys _ _ _ _ Rc), K. intros F.
                apply (Permutation_in _ SP) in F. rewrite <- (reads_map_keys _ _ _ _ R) in F.
                apply mget_None in Gk. contradiction. }
              rewrite Gn. exact I.
      * intros x Ox. inversion Ox as [|? m9 k9 i9 s9 G9 Gk9|? m9 k9 i9 q9 x9 G9 Gk9 O9]; subst.
        -- lia.
        -- assert (m9 = mc) by congruence. subst. specialize (HA _ _ _ Gk9). lia.
        -- assert (m9 = mc) by congruence. subst. specialize (HO _ _ _ Gk9 _ O9). lia.
      * intros x [Hx|Hx]; [right; lia|]. apply HL in Hx. tauto.
Qed.

End WithEnv.

(** ** Statements *)

Lemma reads_wf_mut h :
  (forall v w L, reads h v w L -> wf w) /\
  (forall v w L, reads_all h v w L -> Forall wf w) /\
  (forall v w L, reads_map h v w L -> Forall (fun kv => wf (snd kv)) w).
Proof.
  apply reads_mut; try (intros; constructor; auto; fail).
  intros i p m w L G N R IH. constructor; [|exact IH]. rewrite (reads_map_keys _ _ _ _ R). exact N.
Qed.

Lemma merge_one_source fuel h p q i j tm sm L F :
  reads h (HDict i p) (VDict i tm) L -> reads h (HDict j q) (VDict j sm) F -> NoDup (L ++ F) ->
  ddepth (VDict i tm) <= fuel ->
  exists h' r L', h_deep_merge fuel h p q = Some h' /\
    reads h' (HDict i p) (VDict i r) L' /\ merges (VDict i tm) (VDict j sm) (VDict i r) /\
    reads h' (HDict j q) (VDict j sm) F /\
    (forall x, ~ In x L -> hget h' x = hget h x).
Proof.
  intros RT RS N Hd. destruct (merge_ok_all fuel h p q i j tm sm L F RT RS N Hd) as (h' & L' & E' & R' & _ & _ & Fr).
  exists h', (deep_merge tm sm), L'. split; [exact E'|]. split; [exact R'|]. split; [|split; [|exact Fr]].
  - apply deep_merge_spec; [apply (proj1 (reads_wf_mut h) _ _ _ RT)|apply (proj1 (reads_wf_mut h) _ _ _ RS)].
  - eapply reads_frame; [exact RS|]. intros x Hx. apply Fr. intros HL. apply NoDup_app_inv in N.
    destruct N as (_ & _ & D). apply (D x HL Hx).
Qed.

Lemma wf_dict_impl i j m : wf (VDict i m) -> wf (VDict j m).
Proof. intros W. inversion W; subst. constructor; assumption. Qed.

Lemma merge_sources_heap fuel h p i qs sms Fs tm L :
  reads h (HDict i p) (VDict i tm) L -> reads_sources h qs sms Fs -> NoDup (L ++ concat Fs) ->
  ddepth (VDict i tm) <= fuel -> Forall (fun sm => ddepth (VDict i sm) <= fuel) sms ->
  exists h' r L', h_merge fuel h p qs = Some h' /\
    reads h' (HDict i p) (VDict i r) L' /\ NoDup L' /\
    (forall k, merged_values (mget tm k :: map (fun sm => mget sm k) sms) (mget r k)) /\
    (forall x, ~ In x (L ++ concat (removelast Fs)) -> hget h' x = hget h x).
Proof.
  intros RT RS N Hd Hs.
  destruct (merge_many fuel p i qs sms Fs h tm L RT RS N Hd Hs) as (h' & L' & E' & R' & NL' & _ & Fr).
  exists h', (fold_left deep_merge sms tm), L'. split; [exact E'|]. split; [exact R'|]. split; [exact NL'|].
  split; [|exact Fr]. intros k.
  pose proof (merge_sources tm (map Some sms)) as MS. unfold dict_merge in MS.
  assert (FE : forall (l : list (list (str * value))) t, fold_left (fun t s => match s with Some s0 => deep_merge t s0 | None => t end)
             (map Some l) t = fold_left deep_merge l t)
    by (induction l as [|x l IH]; intros t; simpl; auto).
  assert (ME : map (fun s => match s with Some m => mget m k | None => None end) (map Some sms) = map (fun sm => mget sm k) sms)
    by (rewrite map_map; reflexivity).
  rewrite <- ME, <- FE. apply MS.
  - eapply wf_dict_impl. apply (proj1 (reads_wf_mut h) _ _ _ RT).
  - clear - RS. apply Forall_forall. intros s Hs. apply in_map_iff in Hs. destruct Hs as (m & <- & Hm).
    induction RS; [destruct Hm|]. destruct Hm as [<-|Hm]; auto.
    eapply wf_dict_impl. apply (proj1 (reads_wf_mut h) _ _ _ H).
Qed.

Lemma clone_isolated {E : Env} grow fuel h p i j m L :
  reads h (HDict j p) (VDict j m) L -> ddepth (VDict j m) <= fuel ->
  exists h' c w L', h_clone grow fuel i h p = Some (h', c) /\
    reads h' (HDict i c) (VDict i w) L' /\
    (forall x, x < length h -> hget h' x = hget h x) /\
    (forall x, owned h' c x -> length h <= x) /\
    (forall h'', (forall x, x < length h -> hget h'' x = hget h' x) -> reads h'' (HDict j p) (VDict j m) L).
Proof.
  intros R Hd. destruct (clone_ok_all grow fuel h p i j m L R Hd) as (h' & w & L' & E' & _ & Fr & R' & _ & O & _).
  exists h', (length h), w, L'. split; [exact E'|]. split; [exact R'|]. split; [exact Fr|]. split; [exact O|].
  intros h'' F. eapply reads_frame; [exact R|]. intros x Hx.
  assert (x < length h) by (eapply reads_lt; eauto). rewrite F, Fr; auto.
Qed.

Lemma clone_same {E : Env} grow fuel h p i j m L :
  reads h (HDict j p) (VDict j m) L -> ddepth (VDict j m) <= fuel -> no_nested_singleton (VDict j m) ->
  exists h' c w w0 L', h_clone grow fuel i h p = Some (h', c) /\
    reads h' (HDict i c) w L' /\ veq w w0 /\ same_data (VDict j m) w0.
Proof.
  intros R Hd N. destruct (clone_ok_all grow fuel h p i j m L R Hd) as (h' & w & L' & E' & _ & _ & R' & Q & _).
  exists h', (length h), (VDict i w), (clone_conv i (VDict j m)), L'. repeat split; auto.
  apply clone_conv_same; auto. apply (proj1 (reads_converted_mut h) _ _ _ R).
Qed.

Lemma prepend_args_isolated grow h l vs : valid_slice h l ->
  let '(h', r) := h_prepend_args grow h l vs in
  valid_slice h' r /\ contents h' r = vs ++ contents h l /\
  (forall t, valid_slice h t -> contents h' t = contents h t).
Proof.
  intros W. unfold h_prepend_args. pose proof (new_args_spec h vs) as NA. destruct (new_args h vs) as [h1 objs].
  destruct NA as (V1 & C1 & _ & A1 & F1 & _). unfold h_prepend.
  assert (W1 : valid_slice h1 l) by (eapply valid_slice_frame; [apply F1; apply valid_slice_lt; exact W|exact W]).
  pose proof (append_result grow h1 objs l V1 W1) as AR. unfold h_append in AR.
  destruct (go_append grow h1 objs (contents h1 l)) as [h' r]. destruct AR as (B1 & B2 & B3).
  assert (K : forall t, valid_slice h t -> contents h1 t = contents h t).
  { intros t Wt. apply contents_frame. apply F1. apply valid_slice_lt. exact Wt. }
  split; [exact B1|]. split; [rewrite B2, C1, K; auto|].
  intros t Wt. pose proof (valid_slice_lt _ _ Wt). rewrite B3, K; auto.
  - eapply valid_slice_frame; [apply F1; exact H|exact Wt].
  - intros Et. rewrite Et, A1 in H. lia.
Qed.

Lemma append_args_full grow h l vs : valid_slice h l ->
  let '(h', r) := h_append_args grow h l vs in
  valid_slice h' r /\ contents h' r = contents h l ++ vs /\
  (s_len l = s_cap l -> forall t, valid_slice h t -> contents h' t = contents h t).
Proof.
  intros W. pose proof (append_args_spec grow h l vs W) as A. destruct (h_append_args grow h l vs) as [h' r].
  destruct A as (A1 & A2 & A3 & A4 & _). split; [exact A1|]. split; [exact A2|]. intros Hc t Wt. apply A4; auto.
  destruct vs as [|v vs]; [left; intros _ j Hj; simpl; lia|]. right. simpl. lia.
Qed.

Lemma new_list_fresh grow h items :
  let '(h', s) := h_new_list grow h items in
  valid_slice h' s /\ contents h' s = match items with [HList _ s0] => contents h s0 | _ => items end /\
  (forall t, valid_slice h t -> contents h' t = contents h t) /\
  (forall t, valid_slice h t -> s_arr t <> s_arr s).
Proof.
  pose proof (new_list_spec grow h items) as N. destruct (h_new_list grow h items) as [h' s].
  destruct N as (N1 & N2 & N3 & N4 & N5). split; [exact N1|]. split; [exact N2|]. split; intros t Wt.
  - apply contents_frame. apply N5. apply valid_slice_lt. exact Wt.
  - pose proof (valid_slice_lt _ _ Wt). lia.
Qed.
