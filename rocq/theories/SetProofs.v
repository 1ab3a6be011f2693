(** Lemmas on set and unset. *)
From Coq Require Import String Ascii List ZArith NArith Bool PeanoNat Lia.
From Verif Require Import GoStr GoStrFacts ValueModel ValueFacts ListModel HeapModel SetModel SetSpec.
Import ListNotations.

Scheme denotes_mind := Induction for denotes Sort Prop with denotes_all_mind := Induction for denotes_all Sort Prop.

Lemma unchanged_refl : forall h, unchanged h h.
Proof. intros h p _. reflexivity. Qed.
Lemma unchanged_length : forall h h', unchanged h h' -> length h <= length h'.
Proof.
  intros h h' U. destruct (Nat.le_gt_cases (length h) (length h')) as [|L]; [assumption|]. specialize (U _ L). rewrite (proj2 (nth_error_None h' _) (le_n _)) in U. symmetry in U.
  apply nth_error_None in U. lia.
Qed.
Lemma unchanged_trans : forall a b c, unchanged a b -> unchanged b c -> unchanged a c.
Proof. intros a b c U V p L. rewrite (V p); [exact (U p L)|]. pose proof (unchanged_length _ _ U). lia. Qed.
Lemma unchanged_app : forall h x, unchanged h (h ++ x).
Proof. intros h x p L. apply nth_error_app1. exact L. Qed.
Lemma unchanged_entries : forall h h' p, unchanged h h' -> p < length h -> entries h' p = entries h p.
Proof. intros h h' p U L. unfold entries. rewrite (U p L). reflexivity. Qed.

Lemma denotes_later : forall h h' v t, unchanged h h' -> denotes h v t -> denotes h' v t.
Proof.
  intros h h' v t U D. pose proof (unchanged_length _ _ U) as LL.
  apply (denotes_mind h (fun v t _ => denotes h' v t) (fun l ts _ => denotes_all h' l ts)) with (g := v) (t := t); try exact D; intros; try (constructor; assumption);
    rewrite <- (unchanged_entries h h' p U) in * by assumption; constructor; try assumption; lia.
Qed.
Lemma denotes_all_later : forall h h' l ts, unchanged h h' -> denotes_all h l ts -> denotes_all h' l ts.
Proof. intros h h' l ts U D. induction D; constructor; [exact (denotes_later h h' _ _ U H) | exact IHD]. Qed.
Lemma denotes_in : forall h l ts v, denotes_all h l ts -> In v l -> exists t, In t ts /\ denotes h v t.
Proof.
  intros h l ts v D. induction D as [|v0 t l ts D1 D2 IH]; [intros []|]. intros [->|I]; [exists t; split; [left; reflexivity | exact D1]|].
  destruct (IH I) as (t' & I' & D'). exists t'. split; [right; exact I' | exact D'].
Qed.
Lemma denotes_len : forall h l ts, denotes_all h l ts -> length l = length ts.
Proof. intros h l ts D. induction D; [reflexivity|]. cbn [length]. congruence. Qed.

Lemma within_later : forall h h' v x, unchanged h h' -> within h' v x -> forall t, denotes h v t -> within h v x.
Proof.
  intros h h' v x U W. induction W as [v|i p k v x I W IH|i l v x I W IH]; intros t D.
  - apply wi_self.
  - inversion D as [| |i' p' ts L N DA| | | |]; subst. rewrite (unchanged_entries h h' p U L) in I. destruct (denotes_in _ _ _ v DA) as (t' & _ & D'); [exact (in_map snd _ _ I)|].
    apply wi_dict with (k := k) (v := v); [exact I | exact (IH _ D')].
  - inversion D as [| | | | |i' l' ts DA|]; subst. destruct (denotes_in _ _ _ v DA I) as (t' & _ & D'). apply wi_list with (v := v); [exact I | exact (IH _ D')].
Qed.
Lemma converted_later : forall h h' v t, unchanged h h' -> denotes h v t -> converted h v -> converted h' v.
Proof. intros h h' v t U D C x W. exact (C x (within_later h h' v x U W t D)). Qed.
Lemma converted_list : forall h i l, Forall (converted h) l <-> converted h (GList i l).
Proof.
  intros h i l. split.
  - intros F x W. inversion W as [| |i' l' v y I W']; subst; [intros []|]. rewrite Forall_forall in F. exact (F v I x W').
  - intros C. apply Forall_forall. intros v I x W. apply (C x). apply wi_list with (v := v); assumption.
Qed.
Lemma converted_dict : forall h i p, Forall (converted h) (map snd (entries h p)) <-> converted h (GDict i p).
Proof.
  intros h i p. split.
  - intros F x W. inversion W as [|i' p' k v y I W'|]; subst; [intros []|]. rewrite Forall_forall in F. exact (F v (in_map snd _ _ I) x W').
  - intros C. apply Forall_forall. intros v I x W. apply in_map_iff in I. destruct I as ((k & v') & E & I). cbn [snd] in E. subst v'. apply (C x). apply wi_dict with (k := k) (v := v); assumption.
Qed.

Definition below (f : nat) (ts : list tree) : Prop := Forall (fun t => height t < f) ts.
Lemma below_list : forall f ts, height (TList ts) < S f -> below f ts.
Proof.
  intros f ts H. cbn [height] in H. apply Forall_forall. intros t I. assert (height t <= fold_right (fun t n => Nat.max (height t) n) 0 ts); [|lia].
  clear H. induction ts as [|x ts IH]; [destruct I|]. cbn [fold_right]. destruct I as [->|I]; [lia|]. specialize (IH I). lia.
Qed.
Lemma below_map : forall f (ks : list str) ts, length ks = length ts -> height (TMap (combine ks ts)) < S f -> below f ts.
Proof.
  intros f ks ts E H. apply below_list. cbn [height] in *. replace (fold_right (fun t n => Nat.max (height t) n) 0 ts) with (fold_right (fun kt n => Nat.max (height (snd kt)) n) 0 (combine ks ts)); [exact H|].
  clear H. revert ts E. induction ks as [|k ks IH]; intros [|t ts] E; try discriminate E; [reflexivity|]. cbn [combine fold_right snd]. rewrite (IH ts); [reflexivity|]. injection E as E. exact E.
Qed.

Lemma any_need_ok : forall f h, (forall v t, denotes h v t -> height t < f -> exists b, need f h v = Some b /\ (b = false <-> converted h v)) ->
  forall l ts, denotes_all h l ts -> below f ts -> exists b, any_need (need f h) l = Some b /\ (b = false <-> Forall (converted h) l).
Proof.
  intros f h IH l ts D. induction D as [|v t l ts D1 D2 IHD]; intros B.
  - exists false. split; [reflexivity|]. split; [constructor | reflexivity].
  - inversion B as [|? ? B1 B2]; subst. destruct (IH v t D1 B1) as (b & E & Q). destruct (IHD B2) as (b' & E' & Q'). cbn [any_need]. rewrite E. destruct b.
    + exists true. split; [reflexivity|]. split; [discriminate|]. intros F. inversion F; subst. apply Q. assumption.
    + exists b'. split; [exact E'|]. rewrite Q'. split; [intros F; constructor; [apply Q; reflexivity | exact F] | intros F; inversion F; assumption].
Qed.
Lemma any_need_map : forall {A B} (f : B -> option bool) (g : A -> B) l, any_need (fun x => f (g x)) l = any_need f (map g l).
Proof. induction l as [|x l IH]; [reflexivity|]. cbn [any_need map]. rewrite IH. reflexivity. Qed.
Lemma need_ok : forall f h v t, denotes h v t -> height t < f -> exists b, need f h v = Some b /\ (b = false <-> converted h v).
Proof.
  induction f as [|f IH]; intros h v t D H; [lia|]. assert (X : forall v, native v -> ~ converted h v) by (intros w N C; exact (C w (wi_self h w) N)).
  assert (Y : forall v, ~ native v -> (forall x, within h v x -> x = v) -> converted h v) by (intros w N W x Wx; rewrite (W x Wx); exact N).
  destruct D as [|s|i p ts L N D|p ts L N D|p ts L N D|i l ts D|l ts D]; cbn [need].
  - exists false. split; [reflexivity|]. split; [intros _|reflexivity]. apply Y; [intros []|]. intros x W. inversion W. reflexivity.
  - exists false. split; [reflexivity|]. split; [intros _|reflexivity]. apply Y; [intros []|]. intros x W. inversion W. reflexivity.
  - rewrite any_need_map. assert (E : length (map fst (entries h p)) = length ts) by (rewrite <- (denotes_len _ _ _ D), !map_length; reflexivity).
    destruct (any_need_ok f h (IH h) _ _ D (below_map f _ ts E H)) as (b & Eb & Q). exists b. split; [exact Eb|]. rewrite Q. apply converted_dict.
  - exists true. split; [reflexivity|]. split; [discriminate|]. intros C. destruct (X (GNative p) I C).
  - exists true. split; [reflexivity|]. split; [discriminate|]. intros C. destruct (X (GTyped p) I C).
  - destruct (any_need_ok f h (IH h) _ _ D (below_list f ts H)) as (b & Eb & Q). exists b. split; [exact Eb|]. rewrite Q. apply converted_list.
  - exists true. split; [reflexivity|]. split; [discriminate|]. intros C. destruct (X (GSlice l) I C).
Qed.

Definition good (rec : maps -> gval -> option (maps * gval)) (f : nat) : Prop := forall h v t, denotes h v t -> height t < f ->
  exists h' w, rec h v = Some (h', w) /\ unchanged h h' /\ denotes h' w t /\ converted h' w /\ (converted h v -> h' = h /\ w = v).
Lemma convert_all_ok : forall rec f, good rec f -> forall l h ts, denotes_all h l ts -> below f ts ->
  exists h' ws, convert_all rec h l = Some (h', ws) /\ unchanged h h' /\ denotes_all h' ws ts /\ Forall (converted h') ws.
Proof.
  intros rec f R l. induction l as [|v l IH]; intros h ts D B; inversion D as [|v0 t l0 ts0 D1 D2]; subst.
  - exists h, []. split; [reflexivity|]. split; [apply unchanged_refl|]. split; constructor.
  - inversion B as [|? ? B1 B2]; subst. destruct (R h v t D1 B1) as (h1 & w & E1 & U1 & DW & CW & _). destruct (IH h1 ts0 (denotes_all_later _ _ _ _ U1 D2) B2) as (h2 & ws & E2 & U2 & DWs & CWs).
    exists h2, (w :: ws). cbn [convert_all]. rewrite E1, E2. split; [reflexivity|]. split; [exact (unchanged_trans _ _ _ U1 U2)|]. split.
    + constructor; [exact (denotes_later _ _ _ _ U2 DW) | exact DWs].
    + constructor; [exact (converted_later _ _ _ _ U2 DW CW) | exact CWs].
Qed.
Lemma mset_new : forall {A} (m : list (str * A)) k v, ~ In k (map fst m) -> mset m k v = m ++ [(k, v)].
Proof.
  induction m as [|(k' & v') m IH]; intros k v N; [reflexivity|]. cbn [mset app]. destruct (str_eqb k k') eqn:E; [apply str_eqb_eq in E; subst; destruct N; left; reflexivity|].
  rewrite IH; [reflexivity|]. intros I. apply N. right. exact I.
Qed.
Lemma msets_new : forall {A} (l acc : list (str * A)), NoDup (map fst (acc ++ l)) -> fold_left (fun acc kw => mset acc (fst kw) (snd kw)) l acc = acc ++ l.
Proof.
  induction l as [|(k & v) l IH]; intros acc N; [rewrite app_nil_r; reflexivity|]. cbn [fold_left fst snd]. rewrite mset_new.
  - rewrite IH; rewrite <- app_assoc; [reflexivity | exact N].
  - rewrite map_app in N. cbn [map fst] in N. apply NoDup_remove_2 in N. intros I. apply N. apply in_or_app. left. exact I.
Qed.
Lemma fst_combine : forall {A B} (l : list A) (r : list B), length l = length r -> map fst (combine l r) = l.
Proof. induction l as [|x l IH]; intros [|y r] E; try discriminate E; [reflexivity|]. cbn [combine map fst]. rewrite IH; [reflexivity|]. injection E as E. exact E. Qed.
Lemma snd_combine : forall {A B} (l : list A) (r : list B), length l = length r -> map snd (combine l r) = r.
Proof. induction l as [|x l IH]; intros [|y r] E; try discriminate E; [reflexivity|]. cbn [combine map snd]. rewrite IH; [reflexivity|]. injection E as E. exact E. Qed.
Lemma rebuilt_ok : forall rec f, good rec f -> forall h m ts j, NoDup (map fst m) -> denotes_all h (map snd m) ts -> below f ts ->
  exists h' q, rebuilt rec h m = Some (h', q) /\ unchanged h h' /\ length h <= q /\ denotes h' (GDict j q) (TMap (combine (map fst m) ts)) /\ converted h' (GDict j q) /\ exists m', nth_error h' q = Some (Some m').
Proof.
  intros rec f R h m ts j N D B. destruct (convert_all_ok rec f R (map snd m) h ts D B) as (h1 & ws & E & U & DW & CW). unfold rebuilt. rewrite E.
  assert (LW : length (map fst m) = length ws) by (rewrite (denotes_len _ _ _ DW), <- (denotes_len _ _ _ D), !map_length; reflexivity).
  rewrite (msets_new (combine (map fst m) ws) []) by (cbn [app]; rewrite (fst_combine _ _ LW); exact N). cbn [app]. set (m' := combine (map fst m) ws).
  unfold fresh. exists (h1 ++ [Some m']), (length h1). assert (V : unchanged h1 (h1 ++ [Some m'])) by apply unchanged_app.
  assert (EN : entries (h1 ++ [Some m']) (length h1) = m') by (unfold entries; rewrite nth_error_app2, Nat.sub_diag by apply le_n; reflexivity).
  assert (F1 : map fst m' = map fst m) by (apply fst_combine; exact LW). assert (F2 : map snd m' = ws) by (apply snd_combine; exact LW).
  split; [reflexivity|]. split; [exact (unchanged_trans _ _ _ U V)|]. split; [exact (unchanged_length _ _ U)|]. split.
  - replace (map fst m) with (map fst (entries (h1 ++ [Some m']) (length h1))) by (rewrite EN; exact F1). refine (de_dict (h1 ++ [Some m']) j (length h1) ts _ _ _); [rewrite app_length; cbn [length]; lia | rewrite EN, F1; exact N | rewrite EN, F2; exact (denotes_all_later _ _ _ _ V DW)].
  - split; [|exists m'; rewrite nth_error_app2, Nat.sub_diag by apply le_n; reflexivity]. apply converted_dict. rewrite EN, F2. apply Forall_forall. intros w I. destruct (denotes_in _ _ _ w DW I) as (t & _ & Dt). rewrite Forall_forall in CW. exact (converted_later _ _ _ _ V Dt (CW w I)).
Qed.

(** The outcome of a conversion to a dictionary *)
Lemma dict_known : forall rec f i j h p ts, good rec f -> denotes h (GDict j p) (TMap ts) -> height (TMap ts) < S f ->
  exists b, need (S f) h (GDict j p) = Some b /\ (b = false <-> converted h (GDict j p)) /\
  (b = true -> exists h' q, rebuilt rec h (entries h p) = Some (h', q) /\ unchanged h h' /\ length h <= q /\ denotes h' (GDict i q) (TMap ts) /\ converted h' (GDict i q) /\ exists m', nth_error h' q = Some (Some m')).
Proof.
  intros rec f i j h p ts R D H. destruct (need_ok (S f) h _ _ D H) as (b & E & Q). exists b. split; [exact E|]. split; [exact Q|]. intros _.
  inversion D as [| |j' p' ts' L N DA| | | |]; subst. assert (LE : length (map fst (entries h p)) = length ts') by (rewrite <- (denotes_len _ _ _ DA), !map_length; reflexivity).
  exact (rebuilt_ok rec f R h (entries h p) ts' i N DA (below_map f _ ts' LE H)).
Qed.
Lemma as_dict_ok : forall rec f i h v ts, good rec f -> denotes h v (TMap ts) -> height (TMap ts) < S f ->
  exists h' j p, as_dict rec (need (S f)) i h v = Some (Some (h', j, p)) /\ unchanged h h' /\ denotes h' (GDict j p) (TMap ts) /\ converted h' (GDict j p) /\
  match v with
  | GDict j0 p0 => (converted h v -> h' = h /\ j = j0 /\ p = p0) /\ (~ converted h v -> length h <= p /\ exists m, nth_error h' p = Some (Some m))
  | GNative p0 => (converted h (GDict i p0) -> h' = h /\ j = i /\ p = p0) /\ (~ converted h (GDict i p0) -> length h <= p /\ exists m, nth_error h' p = Some (Some m))
  | _ => length h <= p /\ exists m, nth_error h' p = Some (Some m)
  end.
Proof.
  intros rec f i h v ts R D H. assert (K : forall j p, denotes h (GDict j p) (TMap ts) -> exists h' j' q,
     match need (S f) h (GDict j p) with
      | Some true => match rebuilt rec h (entries h p) with Some (h2, q) => Some (Some (h2, i, q)) | None => None end
      | Some false => Some (Some (h, j, p))
      | None => None
      end = Some (Some (h', j', q)) /\ unchanged h h' /\ denotes h' (GDict j' q) (TMap ts) /\ converted h' (GDict j' q) /\
      (converted h (GDict j p) -> h' = h /\ j' = j /\ q = p) /\ (~ converted h (GDict j p) -> length h <= q /\ exists m, nth_error h' q = Some (Some m))).
  { intros j p Dp. destruct (dict_known rec f i j h p ts R Dp H) as (b & E & Q & T). rewrite E. destruct b.
    - destruct (T eq_refl) as (h' & q & E' & U & LQ & DQ & CQ & M). rewrite E'. exists h', i, q. split; [reflexivity|]. split; [exact U|]. split; [exact DQ|]. split; [exact CQ|]. split; [|intros _; split; assumption].
      intros C. apply Q in C. discriminate C.
    - exists h, j, p. split; [reflexivity|]. split; [apply unchanged_refl|]. split; [exact Dp|]. split; [apply Q; reflexivity|]. split; [intros _; repeat split; reflexivity|]. intros N. destruct N. apply Q. reflexivity. }
  inversion D as [| |j0 p0 ts' L N DA EV|p0 ts' L N DA EV|p0 ts' L N DA EV| |]; subst v ts; unfold as_dict; cbv beta iota zeta.
  - apply K. exact D.
  - apply (K i p0). apply de_dict; assumption.
  - assert (LE : length (map fst (entries h p0)) = length ts') by (rewrite <- (denotes_len _ _ _ DA), !map_length; reflexivity).
    destruct (rebuilt_ok rec f R h (entries h p0) ts' i N DA (below_map f _ ts' LE H)) as (h' & q & E & U & LQ & DQ & CQ & M). rewrite E.
    destruct (dict_known rec f i i h' q _ R DQ H) as (b & E' & Q & _). rewrite E'. rewrite (proj2 Q CQ). exists h', i, q. repeat (split; [first [reflexivity | assumption]|]). exact M.
Qed.
Lemma as_list_ok : forall rec f i j h l ts, good rec f -> denotes_all h l ts -> height (TList ts) < S f ->
  exists h' w, as_list rec (need (S f)) i h j l = Some (h', w) /\ unchanged h h' /\ denotes h' w (TList ts) /\ converted h' w /\ (converted h (GList j l) -> h' = h /\ w = GList j l).
Proof.
  intros rec f i j h l ts R D H. unfold as_list. destruct (need_ok (S f) h (GList j l) (TList ts) (de_list h j l ts D) H) as (b & E & Q). rewrite E. destruct b.
  - destruct (convert_all_ok rec f R l h ts D (below_list f ts H)) as (h' & ws & E' & U & DW & CW). rewrite E'. exists h', (GList i ws). split; [reflexivity|]. split; [exact U|]. split; [apply de_list; exact DW|].
    split; [apply converted_list; exact CW|]. intros C. apply Q in C. discriminate C.
  - exists h, (GList j l). split; [reflexivity|]. split; [apply unchanged_refl|]. split; [apply de_list; exact D|]. split; [apply Q; reflexivity|]. intros _. split; reflexivity.
Qed.
Lemma native_not : forall h v, native v -> ~ converted h v.
Proof. intros h v N C. exact (C v (wi_self h v) N). Qed.
Lemma convert_ok : forall f i, good (convert f i) f.
Proof.
  induction f as [|f IH]; intros i h v t D H; [lia|].
  assert (Y : forall v, v = GNil \/ (exists s, v = GScal s) -> converted h v) by (intros w [->|(s & ->)] x W; inversion W; intros []).
  destruct t as [|s|ts|ts].
  - inversion D; subst. exists h, GNil. cbn [convert]. split; [reflexivity|]. split; [apply unchanged_refl|]. split; [exact D|]. split; [apply Y; left; reflexivity|]. intros _. split; reflexivity.
  - inversion D; subst. exists h, (GScal s). cbn [convert]. split; [reflexivity|]. split; [apply unchanged_refl|]. split; [exact D|]. split; [apply Y; right; exists s; reflexivity|]. intros _. split; reflexivity.
  - destruct (as_dict_ok (convert f i) f i h v ts (IH i) D H) as (h' & j & p & E & U & DP & CP & K). exists h', (GDict j p).
    inversion D as [| |j0 p0 ts' L N DA EV|p0 ts' L N DA EV|p0 ts' L N DA EV| |]; subst v ts; cbn [convert]; rewrite E; (split; [reflexivity|]); (split; [exact U|]); (split; [exact DP|]); (split; [exact CP|]); intros C.
    + destruct (proj1 K C) as (-> & -> & ->). split; reflexivity.
    + destruct (native_not h (GNative p0) I C).
    + destruct (native_not h (GTyped p0) I C).
  - inversion D as [| | | | |j l ts' DA|l ts' DA]; subst; cbn [convert].
    + apply as_list_ok; [apply IH | exact DA | exact H].
    + destruct (as_list_ok (convert f i) f i i h l ts (IH i) DA H) as (h' & w & E & U & DW & CW & _). exists h', w. repeat (split; [assumption|]). intros C. destruct (native_not h (GSlice l) I C).
Qed.

Section Setting.
Variable dflt : impl.
Variable sprint : maps -> gval -> str.
Variable fuel : nat.
Notation set_ := (tpl_set dflt sprint fuel).
Notation unset_ := (tpl_unset dflt sprint fuel).

Lemma upd_same : forall {A} (l : list A) n x, n < length l -> nth_error (upd l n x) n = Some x.
Proof. induction l as [|y l IH]; intros [|n] x L; cbn [length] in L; try lia; [reflexivity|]. cbn [upd nth_error]. apply IH. lia. Qed.
Lemma upd_other : forall {A} (l : list A) n m x, m <> n -> nth_error (upd l n x) m = nth_error l m.
Proof. induction l as [|y l IH]; intros [|n] [|m] x N; try reflexivity; [congruence|]. cbn [upd nth_error]. apply IH. congruence. Qed.
Lemma mget_mset_all : forall {A} (m : list (str * A)) k v k', mget (mset m k v) k' = if str_eqb k' k then Some v else mget m k'.
Proof.
  induction m as [|(k0 & v0) m IH]; intros k v k'; [reflexivity|]. cbn [mset]. destruct (str_eqb k k0) eqn:E.
  - apply str_eqb_eq in E. subst k0. cbn [mget]. destruct (str_eqb k' k); reflexivity.
  - cbn [mget]. rewrite IH. destruct (str_eqb k' k0) eqn:E0; [|reflexivity]. apply str_eqb_eq in E0. subst k0. destruct (str_eqb k' k) eqn:E1; [|reflexivity]. apply str_eqb_eq in E1. subst k'. rewrite str_eqb_refl in E. discriminate E.
Qed.
Lemma mget_mdel_all : forall {A} (m : list (str * A)) k k', mget (mdel m k) k' = if str_eqb k' k then None else mget m k'.
Proof.
  induction m as [|(k0 & v0) m IH]; intros k k'; [destruct (str_eqb k' k); reflexivity|]. cbn [mdel]. destruct (str_eqb k k0) eqn:E.
  - apply str_eqb_eq in E. subst k0. rewrite IH. cbn [mget]. destruct (str_eqb k' k); reflexivity.
  - cbn [mget]. rewrite IH. destruct (str_eqb k' k0) eqn:E0; [|reflexivity]. apply str_eqb_eq in E0. subst k0. destruct (str_eqb k' k) eqn:E1; [|reflexivity]. apply str_eqb_eq in E1. subst k'. rewrite str_eqb_refl in E. discriminate E.
Qed.
Lemma entries_at : forall h p m, nth_error h p = Some (Some m) -> entries h p = m.
Proof. intros h p m E. unfold entries. rewrite E. reflexivity. Qed.
Lemma at_below : forall (h : maps) p x, nth_error h p = Some x -> p < length h.
Proof. intros h p x E. apply nth_error_Some. rewrite E. discriminate. Qed.

Lemma dict_set_ok : forall h i p key v t m, nth_error h p = Some (Some m) -> denotes h v t -> height t < fuel ->
  exists h1 h' w, convert fuel i h v = Some (h1, w) /\ dict_set sprint fuel h i p key v = Some h' /\ unchanged h h1 /\ denotes h1 w t /\ converted h1 w /\
  assigned h h' p (sprint h key) (Some w) /\ (forall q, q <> p -> nth_error h' q = nth_error h1 q).
Proof.
  intros h i p key v t m E D H. destruct (convert_ok fuel i h v t D H) as (h1 & w & Ec & U & DW & CW & _). pose proof (at_below _ _ _ E) as L. pose proof (unchanged_length _ _ U) as LL.
  exists h1, (upd h1 p (Some (mset (entries h1 p) (sprint h key) w))), w. unfold dict_set. rewrite E, Ec. split; [reflexivity|]. split; [reflexivity|]. split; [exact U|]. split; [exact DW|]. split; [exact CW|].
  split; [|intros q N; apply upd_other; exact N]. split.
  - intros q Lq N. rewrite upd_other by exact N. exact (U q Lq).
  - eexists. split; [apply upd_same; lia|]. intros k'. rewrite mget_mset_all, (unchanged_entries h h1 p U L). reflexivity.
Qed.
Lemma set_dict : forall h i p key v t m, nth_error h p = Some (Some m) -> denotes h v t -> height t < fuel ->
  exists h1 h' w, set_ h (GDict i p) key v = Some (h', true) /\ unchanged h h1 /\ denotes h1 w t /\ converted h1 w /\ assigned h h' p (sprint h key) (Some w) /\ (forall q, q <> p -> nth_error h' q = nth_error h1 q).
Proof.
  intros h i p key v t m E D H. destruct (dict_set_ok h i p key v t m E D H) as (h1 & h' & w & _ & E' & R). exists h1, h', w. split; [|exact R]. unfold tpl_set, try_dict. rewrite E'. reflexivity.
Qed.
Lemma no_map_none : forall h v, no_map v -> try_dict dflt fuel h v = Some None.
Proof. intros h [| | | | | |] N; try destruct N; reflexivity. Qed.
Lemma a_map_some : forall h v, ~ no_map v -> try_dict dflt fuel h v <> Some None.
Proof.
  intros h v N E. assert (K : forall (x : option (option (maps * impl * loc))) h1 j q, match need (S fuel) h1 (GDict j q) with
      | Some true => match rebuilt (convert fuel dflt) h1 (entries h1 q) with Some (h2, q) => Some (Some (h2, dflt, q)) | None => None end
      | Some false => Some (Some (h1, j, q))
      | None => None
      end <> Some None) by (intros x h1 j q; destruct (need _ _ _) as [[|]|]; [destruct (rebuilt _ _ _) as [(? & ?)|]; discriminate | discriminate | discriminate]).
  destruct v as [|s|i p|p|p|i l|l]; try (destruct (N I)); cbn [try_dict] in E.
  - unfold as_dict in E. cbv beta iota zeta in E. exact (K None _ _ _ E).
  - discriminate E.
  - unfold as_dict in E. cbv beta iota zeta in E. exact (K None _ _ _ E).
  - unfold as_dict in E. cbv beta iota zeta in E. destruct (rebuilt _ _ _) as [(h1 & q)|]; [exact (K None _ _ _ E) | discriminate E].
Qed.
Lemma set_swap : forall h d key v, no_map key -> ~ no_map d -> set_ h key v d = set_ h d key v.
Proof.
  intros h d key v N M. unfold tpl_set. rewrite (no_map_none h key N). pose proof (a_map_some h d M). destruct (try_dict dflt fuel h d) as [[((h1 & i) & p)|]|]; [reflexivity | congruence | reflexivity].
Qed.
Lemma unset_swap : forall h d key, no_map key -> ~ no_map d -> unset_ h key d = unset_ h d key.
Proof.
  intros h d key N M. unfold tpl_unset. rewrite (no_map_none h key N). pose proof (a_map_some h d M). destruct (try_dict dflt fuel h d) as [[((h1 & i) & p)|]|]; [reflexivity | congruence | reflexivity].
Qed.
Lemma set_error : forall h a b c, no_map a -> no_map c -> set_ h a b c = Some (h, false).
Proof. intros h a b c A C. unfold tpl_set. rewrite (no_map_none h a A), (no_map_none h c C). reflexivity. Qed.
Lemma set_error_only : forall h a b c h', set_ h a b c = Some (h', false) -> no_map a /\ no_map c.
Proof.
  intros h a b c h' E. assert (DEC : forall v, no_map v \/ ~ no_map v) by (intros [| | | | | |]; cbn [no_map]; tauto). unfold tpl_set in E. destruct (DEC a) as [A|A].
  - split; [exact A|]. rewrite (no_map_none h a A) in E. destruct (DEC c) as [C|C]; [exact C|]. pose proof (a_map_some h c C). destruct (try_dict dflt fuel h c) as [[((h1 & i) & p)|]|]; [|congruence|discriminate E].
    destruct (dict_set _ _ _ _ _ _ _); discriminate E.
  - pose proof (a_map_some h a A). destruct (try_dict dflt fuel h a) as [[((h1 & i) & p)|]|]; [|congruence|discriminate E]. destruct (dict_set _ _ _ _ _ _ _); discriminate E.
Qed.
Lemma unset_error : forall h a b, no_map a -> no_map b -> unset_ h a b = Some (h, false).
Proof. intros h a b A C. unfold tpl_unset. rewrite (no_map_none h a A), (no_map_none h b C). reflexivity. Qed.

(** Native maps *)
Lemma try_native : forall h v ts, denotes h v (TMap ts) -> height (TMap ts) < S fuel -> (forall i p, v <> GDict i p) ->
  exists h' j p, try_dict dflt fuel h v = Some (Some (h', j, p)) /\ unchanged h h' /\
  match v with
  | GNative p0 => (converted h (GDict dflt p0) -> h' = h /\ j = dflt /\ p = p0) /\ (~ converted h (GDict dflt p0) -> length h <= p /\ exists m, nth_error h' p = Some (Some m))
  | _ => length h <= p /\ exists m, nth_error h' p = Some (Some m)
  end.
Proof.
  intros h v ts D H N. destruct (as_dict_ok (convert fuel dflt) fuel dflt h v ts (convert_ok fuel dflt) D H) as (h' & j & p & E & U & _ & _ & K). exists h', j, p.
  inversion D as [| |j0 p0 ts' L ND DA EV|p0 ts' L ND DA EV|p0 ts' L ND DA EV| |]; subst v; [destruct (N j0 p0 eq_refl)| |]; cbn [try_dict]; rewrite E; (split; [reflexivity|]); (split; [exact U|]); exact K.
Qed.
Lemma set_shared : forall h p ts key v, denotes h (GNative p) (TMap ts) -> height (TMap ts) < S fuel -> converted h (GDict dflt p) -> set_ h (GNative p) key v = set_ h (GDict dflt p) key v.
Proof.
  intros h p ts key v D H C. destruct (try_native h (GNative p) ts D H) as (h' & j & q & E & U & K & _); [discriminate|]. destruct (K C) as (-> & -> & ->). unfold tpl_set. rewrite E. reflexivity.
Qed.
Lemma unset_shared : forall h p ts key, denotes h (GNative p) (TMap ts) -> height (TMap ts) < S fuel -> converted h (GDict dflt p) -> unset_ h (GNative p) key = unset_ h (GDict dflt p) key.
Proof.
  intros h p ts key D H C. destruct (try_native h (GNative p) ts D H) as (h' & j & q & E & U & K & _); [discriminate|]. destruct (K C) as (-> & -> & ->). unfold tpl_unset. rewrite E. reflexivity.
Qed.
Lemma dict_set_away : forall h h1 i p key v t, unchanged h h1 -> denotes h v t -> height t < fuel -> (length h <= p /\ exists m, nth_error h1 p = Some (Some m)) \/ nth_error h1 p = Some None ->
  exists h', dict_set sprint fuel h1 i p key v = Some h' /\ unchanged h h'.
Proof.
  intros h h1 i p key v t U D H [(L & m & E)|E].
  - destruct (dict_set_ok h1 i p key v t m E (denotes_later _ _ _ _ U D) H) as (h2 & h' & w & _ & E' & U2 & _ & _ & _ & O). exists h'. split; [exact E'|].
    intros q Lq. rewrite O by lia. exact (unchanged_trans _ _ _ U U2 q Lq).
  - destruct (convert_ok fuel i h1 v t (denotes_later _ _ _ _ U D) H) as (h2 & w & Ec & U2 & _). unfold dict_set. rewrite E, Ec. eexists. split; [reflexivity|]. cbn [fresh fst].
    exact (unchanged_trans _ _ _ U (unchanged_trans _ _ _ U2 (unchanged_app _ _))).
Qed.
Lemma new_empty : forall h, nth_error (h ++ [Some []]) (length h) = Some (Some ([] : list (str * gval))).
Proof. intros h. rewrite nth_error_app2, Nat.sub_diag by apply le_n. reflexivity. Qed.
Lemma try_nil : forall h, 1 <= fuel -> try_dict dflt fuel h GNil = Some (Some (h ++ [Some []], dflt, length h)).
Proof.
  intros h F. cbn [try_dict]. unfold as_dict, fresh. cbv beta iota zeta. cbn [need]. rewrite (entries_at _ _ _ (new_empty h)). reflexivity.
Qed.
Lemma set_lost : forall h d td key v t, denotes h d td -> height td < S fuel -> denotes h v t -> height t < fuel -> lost dflt h d -> exists h', set_ h d key v = Some (h', true) /\ unchanged h h'.
Proof.
  intros h d td key v t Dd Hd D H L. assert (F : forall h1 i p, try_dict dflt fuel h d = Some (Some (h1, i, p)) -> unchanged h h1 -> (length h <= p /\ exists m, nth_error h1 p = Some (Some m)) \/ nth_error h1 p = Some None ->
    exists h', set_ h d key v = Some (h', true) /\ unchanged h h').
  { intros h1 i p E U K. destruct (dict_set_away h h1 i p key v t U D H K) as (h' & E' & U'). exists h'. split; [|exact U']. unfold tpl_set. rewrite E, E'. reflexivity. }
  destruct Dd as [|s|i p ts Lp ND DA|p ts Lp ND DA|p ts Lp ND DA|i l ts DA|l ts DA]; cbn [lost] in L; try (exfalso; exact L); try (destruct L as [H0|H0]).
  - apply (F (h ++ [Some []]) dflt (length h)); [apply try_nil; lia | apply unchanged_app |]. left. split; [apply le_n|]. exists []. apply new_empty.
  - apply (F h i p); [reflexivity | apply unchanged_refl | right; exact L].
  - destruct (try_native h (GNative p) _ (de_native h p ts Lp ND DA) Hd) as (h1 & j & q & E & U & _ & K); [discriminate|]. apply (F h1 j q E U). left. exact (K H0).
  - destruct (try_native h (GNative p) _ (de_native h p ts Lp ND DA) Hd) as (h1 & j & q & E & U & K & _); [discriminate|].
    assert (C : converted h (GDict dflt p)). { apply converted_dict. unfold entries. rewrite H0. constructor. }
    destruct (K C) as (-> & -> & ->). apply (F h dflt p E U). right. exact H0.
  - destruct (try_native h (GTyped p) _ (de_typed h p ts Lp ND DA) Hd) as (h1 & j & q & E & U & K); [discriminate|]. apply (F h1 j q E U). left. exact K.
Qed.
Lemma delete_ok : forall h p key m, nth_error h p = Some (Some m) -> assigned h (dict_delete sprint h p key) p (sprint h key) None.
Proof.
  intros h p key m E. unfold dict_delete. destruct (mhas (entries h p) (sprint h key)) eqn:EH.
  - split; [intros q _ N; apply upd_other; exact N|]. eexists. split; [apply upd_same; exact (at_below _ _ _ E)|]. intros k'. apply mget_mdel_all.
  - split; [reflexivity|]. exists m. split; [exact E|]. intros k'. rewrite <- (entries_at _ _ _ E). unfold mhas in EH. destruct (str_eqb k' (sprint h key)) eqn:EK; [|reflexivity]. apply str_eqb_eq in EK. subst k'.
    destruct (mget _ _); [discriminate EH | reflexivity].
Qed.
Lemma unset_dict : forall h i p key m, nth_error h p = Some (Some m) -> exists h', unset_ h (GDict i p) key = Some (h', true) /\ length h' = length h /\ assigned h h' p (sprint h key) None.
Proof.
  intros h i p key m E. exists (dict_delete sprint h p key). split; [reflexivity|]. split; [|exact (delete_ok h p key m E)]. unfold dict_delete. destruct (mhas _ _); [|reflexivity].
  clear E. generalize (Some (mdel (entries h p) (sprint h key))). revert p. induction h as [|x h IH]; intros [|p] y; cbn [upd length]; try reflexivity. rewrite IH. reflexivity.
Qed.
Lemma unset_lost : forall h d td key, denotes h d td -> height td < S fuel -> lost dflt h d -> exists h', unset_ h d key = Some (h', true) /\ unchanged h h'.
Proof.
  intros h d td key Dd Hd L. assert (F : forall h1 i p, try_dict dflt fuel h d = Some (Some (h1, i, p)) -> unchanged h h1 -> length h <= p \/ nth_error h1 p = Some None ->
    exists h', unset_ h d key = Some (h', true) /\ unchanged h h').
  { intros h1 i p E U K. exists (dict_delete sprint h1 p key). unfold tpl_unset. rewrite E. split; [reflexivity|]. unfold dict_delete. destruct (mhas _ _) eqn:EM; [|exact U]. destruct K as [K|K].
    - intros q Lq. rewrite upd_other by lia. exact (U q Lq).
    - unfold entries in EM. rewrite K in EM. discriminate EM. }
  destruct Dd as [|s|i p ts Lp ND DA|p ts Lp ND DA|p ts Lp ND DA|i l ts DA|l ts DA]; cbn [lost] in L; try (exfalso; exact L); try (destruct L as [H0|H0]).
  - cbn [height] in Hd. assert (X : exists h1, try_dict dflt fuel h GNil = Some (Some (h1, dflt, length h)) /\ unchanged h h1).
    { exists (h ++ [Some []]). split; [|apply unchanged_app]. cbn [try_dict]. unfold as_dict, fresh. cbv beta iota zeta. cbn [need]. rewrite (entries_at _ _ _ (new_empty h)). reflexivity. }
    destruct X as (h1 & E & U). apply (F h1 dflt (length h) E U). left. apply le_n.
  - apply (F h i p); [reflexivity | apply unchanged_refl | right; exact L].
  - destruct (try_native h (GNative p) _ (de_native h p ts Lp ND DA) Hd) as (h1 & j & q & E & U & _ & K); [discriminate|]. apply (F h1 j q E U). left. exact (proj1 (K H0)).
  - destruct (try_native h (GNative p) _ (de_native h p ts Lp ND DA) Hd) as (h1 & j & q & E & U & K & _); [discriminate|].
    assert (C : converted h (GDict dflt p)). { apply converted_dict. unfold entries. rewrite H0. constructor. }
    destruct (K C) as (-> & -> & ->). apply (F h dflt p E U). right. exact H0.
  - destruct (try_native h (GTyped p) _ (de_typed h p ts Lp ND DA) Hd) as (h1 & j & q & E & U & K); [discriminate|]. apply (F h1 j q E U). left. exact (proj1 K).
Qed.
(** What is stored for a native map *)
Lemma stored_map : forall h i p key q ts m, nth_error h p = Some (Some m) -> denotes h (GNative q) (TMap ts) -> height (TMap ts) < fuel ->
  exists h' j r m', set_ h (GDict i p) key (GNative q) = Some (h', true) /\ nth_error h' p = Some (Some m') /\ mget m' (sprint h key) = Some (GDict j r) /\
  (converted h (GDict i q) -> j = i /\ r = q) /\ (~ converted h (GDict i q) -> length h <= r).
Proof.
  intros h i p key q ts m E D H. destruct (dict_set_ok h i p key (GNative q) (TMap ts) m E D H) as (h1 & h' & w & Ec & Es & _ & _ & _ & (_ & m' & Em & G) & _).
  assert (EF : exists f, fuel = S f) by (destruct fuel as [|f]; [lia | exists f; reflexivity]). destruct EF as (f & EF). rewrite EF in *. cbn [convert] in Ec.
  destruct (as_dict_ok (convert f i) f i h (GNative q) ts (convert_ok f i) D H) as (h2 & j & r & Ed & _ & _ & _ & K1 & K2). rewrite Ed in Ec. injection Ec as -> <-.
  exists h', j, r, m'. split; [unfold tpl_set, try_dict; rewrite Es; reflexivity|]. split; [exact Em|]. split; [rewrite G, str_eqb_refl; reflexivity|]. split; [intros C; destruct (K1 C) as (_ & A); exact A | intros C; exact (proj1 (K2 C))].
Qed.
End Setting.
