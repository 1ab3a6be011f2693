(** Proofs about shared lists and dictionaries. *)
From Coq Require Import String Ascii List ZArith NArith Bool PeanoNat Lia Permutation.
From Verif Require Import GoStr GoStrFacts ValueModel ValueFacts CollSpec ListModel ListProofs DictModel DictProofs
  HeapModel HeapSpec.
Import ListNotations.

(** ** Heaps and slices *)

Lemma hget_hput_ne h p o x : x <> p -> hget (hput h p o) x = hget h x.
Proof. intros. unfold hget, hput. apply upd_nth_ne. auto. Qed.

Lemma hget_hput_eq h p o : p < length h -> hget (hput h p o) p = Some o.
Proof. intros. unfold hget, hput. apply upd_nth_eq. auto. Qed.

Lemma hget_lt h p o : hget h p = Some o -> p < length h.
Proof. unfold hget. intros H. apply nth_error_Some. congruence. Qed.

Lemma hput_length h p o : length (hput h p o) = length h.
Proof. apply upd_length. Qed.

Lemma hget_app_old h l p : p < length h -> hget (h ++ l) p = hget h p.
Proof. intros. unfold hget. apply nth_error_app1. assumption. Qed.

Lemma hget_app_new h o : hget (h ++ [o]) (length h) = Some o.
Proof. unfold hget. rewrite nth_error_app2, Nat.sub_diag by lia. reflexivity. Qed.

Lemma upd_id {A} (l : list A) n v : nth_error l n = Some v -> upd l n v = l.
Proof. revert n; induction l; intros [|n] H; simpl in *; try discriminate; f_equal; auto. congruence. Qed.

Lemma nth_error_skipn' {A} (l : list A) k j : nth_error (skipn k l) j = nth_error l (k + j).
Proof. revert l; induction k; intros [|x l]; simpl; auto. destruct j; reflexivity. Qed.

Lemma nth_error_firstn' {A} (l : list A) k j : j < k -> nth_error (firstn k l) j = nth_error l j.
Proof. revert l j; induction k; intros [|x l] [|j] H; simpl; auto; try lia. apply IHk. lia. Qed.

Lemma splice_nth {A} (c : list A) k vs j : k + length vs <= length c ->
  nth_error (splice c k vs) j =
  if (k <=? j) && (j <? k + length vs) then nth_error vs (j - k) else nth_error c j.
Proof.
  intros H. unfold splice.
  assert (Lk : length (firstn k c) = k) by (rewrite firstn_length; lia).
  destruct (Nat.leb_spec k j), (Nat.ltb_spec j (k + length vs)); simpl.
  - rewrite nth_error_app2 by lia. rewrite Lk. rewrite nth_error_app1 by lia. reflexivity.
  - rewrite nth_error_app2 by lia. rewrite Lk. rewrite nth_error_app2 by lia.
    rewrite nth_error_skipn'. f_equal. lia.
  - rewrite nth_error_app1 by lia. apply nth_error_firstn'. lia.
  - lia.
Qed.

Lemma splice_length {A} (c : list A) k vs : k + length vs <= length c -> length (splice c k vs) = length c.
Proof. intros. unfold splice. rewrite !app_length, firstn_length, skipn_length. lia. Qed.

Lemma cells_at_get h p c : hget h p = Some (OArr c) -> cells_at h p = c.
Proof. unfold cells_at. intros ->. reflexivity. Qed.

Lemma map_at_get h p m : hget h p = Some (OMap m) -> map_at h p = m.
Proof. unfold map_at. intros ->. reflexivity. Qed.

Lemma contents_length h s : valid_slice h s -> length (contents h s) = s_len s.
Proof.
  intros (c & G & B & L). unfold contents. rewrite (cells_at_get _ _ _ G).
  rewrite firstn_length, skipn_length. lia.
Qed.

Lemma contents_nth h s j : valid_slice h s -> j < s_len s ->
  nth_error (contents h s) j = nth_error (cells_at h (s_arr s)) (s_off s + j).
Proof.
  intros (c & G & B & L) H. unfold contents. rewrite nth_error_firstn' by assumption.
  rewrite nth_error_skipn'. reflexivity.
Qed.

Lemma contents_frame h h' s : hget h' (s_arr s) = hget h (s_arr s) -> contents h' s = contents h s.
Proof. intros H. unfold contents, cells_at. rewrite H. reflexivity. Qed.

Lemma valid_slice_frame h h' s : hget h' (s_arr s) = hget h (s_arr s) -> valid_slice h s -> valid_slice h' s.
Proof. intros H (c & G & B). exists c. rewrite H. auto. Qed.

Lemma contents_app_old h o s : s_arr s < length h -> contents (h ++ [o]) s = contents h s.
Proof. intros. apply contents_frame. apply hget_app_old. assumption. Qed.

Lemma valid_slice_lt h s : valid_slice h s -> s_arr s < length h.
Proof. intros (c & G & _). eapply hget_lt; eauto. Qed.

Section WithGrowth.
Variable grow : nat -> nat -> nat.

Lemma go_append_spec h s vs : valid_slice h s ->
  let '(h', s') := go_append grow h s vs in
  valid_slice h' s' /\ contents h' s' = contents h s ++ vs /\
  (forall t, valid_slice h t -> valid_slice h' t) /\
  (forall t, valid_slice h t -> apart s (length vs) t \/ s_cap s < s_len s + length vs ->
             contents h' t = contents h t) /\
  (forall p, p < length h -> p <> s_arr s \/ s_cap s < s_len s + length vs -> hget h' p = hget h p) /\
  length h <= length h' /\
  (s_arr s' = s_arr s \/ s_arr s' = length h) /\
  (s_len s + length vs <= s_cap s -> s_arr s' = s_arr s /\ s_off s' = s_off s /\ s_cap s' = s_cap s /\ length h' = length h).
Proof.
  intros W. unfold go_append. destruct (Nat.leb_spec (s_len s + length vs) (s_cap s)) as [Hc|Hc].
  - destruct W as (c & G & B & L). rewrite (cells_at_get _ _ _ G).
    set (c' := splice c (s_off s + s_len s) vs).
    assert (Lc : length c' = length c) by (apply splice_length; lia).
    assert (Lt : s_arr s < length h) by (eapply hget_lt; eauto).
    set (h' := hput h (s_arr s) (OArr c')).
    assert (G' : hget h' (s_arr s) = Some (OArr c')) by (apply hget_hput_eq; auto).
    assert (Wt : forall t, valid_slice h t -> valid_slice h' t).
    { intros t (ct & Gt & Bt & Lt'). destruct (Nat.eq_dec (s_arr t) (s_arr s)) as [E|E].
      - exists c'. rewrite E. split; auto. rewrite E in Gt. assert (c = ct) by congruence. subst ct. lia.
      - exists ct. split; [|auto]. unfold h'. rewrite hget_hput_ne; auto. }
    split; [|split; [|split; [|split; [|split; [|split]]]]]; auto.
    + exists c'. simpl. rewrite Lc. repeat split; auto; lia.
    + unfold contents. simpl. rewrite (cells_at_get _ _ _ G'), (cells_at_get _ _ _ G).
      apply nth_error_ext. intros j.
      destruct (Nat.lt_ge_cases j (s_len s + length vs)) as [Hj|Hj].
      * rewrite nth_error_firstn', nth_error_skipn' by assumption. unfold c'. rewrite splice_nth by lia.
        destruct (Nat.lt_ge_cases j (s_len s)).
        -- rewrite nth_error_app1 by (rewrite firstn_length, skipn_length; lia).
           rewrite nth_error_firstn', nth_error_skipn' by assumption.
           destruct (Nat.leb_spec (s_off s + s_len s) (s_off s + j)); simpl; auto. lia.
        -- rewrite nth_error_app2 by (rewrite firstn_length, skipn_length; lia).
           rewrite firstn_length, skipn_length.
           destruct (Nat.leb_spec (s_off s + s_len s) (s_off s + j)); [|lia].
           destruct (Nat.ltb_spec (s_off s + j) (s_off s + s_len s + length vs)); [|lia]. simpl. f_equal. lia.
      * rewrite !(proj2 (nth_error_None _ _)); auto.
        -- rewrite app_length, firstn_length, skipn_length. lia.
        -- rewrite firstn_length, skipn_length. lia.
    + intros t Wt0 [A|A]; [|lia].
      * destruct (Nat.eq_dec (s_arr t) (s_arr s)) as [E|E].
        2:{ apply contents_frame. unfold h'. apply hget_hput_ne. auto. }
        specialize (A E).
        apply nth_error_ext. intros j.
        destruct (Nat.lt_ge_cases j (s_len t)) as [Hj|Hj].
        -- rewrite !contents_nth by auto. rewrite E, (cells_at_get _ _ _ G'), (cells_at_get _ _ _ G).
           unfold c'. rewrite splice_nth by lia.
           destruct (Nat.leb_spec (s_off s + s_len s) (s_off t + j)); simpl; auto.
           destruct (Nat.ltb_spec (s_off t + j) (s_off s + s_len s + length vs)); auto. specialize (A j Hj). lia.
        -- rewrite !(proj2 (nth_error_None _ _)); auto; rewrite contents_length; auto.
    + intros p _ [Hp|Hp]; [|lia]. unfold h'. apply hget_hput_ne. auto.
    + unfold h'. rewrite hput_length. lia.
    + split; [left; reflexivity|]. intros _. unfold h'. rewrite hput_length. simpl. auto.
  - simpl. set (c := Nat.max (s_len s + length vs) (grow (s_cap s) (s_len s + length vs))).
    set (cells := contents h s ++ vs ++ repeat HNil (c - (s_len s + length vs))).
    pose proof (contents_length h s W) as CL.
    assert (G' : hget (h ++ [OArr cells]) (length h) = Some (OArr cells)) by apply hget_app_new.
    split; [|split; [|split; [|split; [|split; [|split; [|split]]]]]]; auto.
    + exists cells. simpl. split; auto. unfold cells. rewrite !app_length, repeat_length, CL. lia.
    + unfold contents at 1. simpl. rewrite (cells_at_get _ _ _ G'). unfold cells.
      rewrite app_assoc, firstn_app, app_length, CL, Nat.sub_diag.
      rewrite firstn_all2 by (rewrite app_length; lia). simpl. apply app_nil_r.
    + intros t Wt. eapply valid_slice_frame; [|exact Wt]. apply hget_app_old. apply valid_slice_lt. assumption.
    + intros t Wt _. apply contents_app_old. apply valid_slice_lt. assumption.
    + intros p Hp _. apply hget_app_old. assumption.
    + rewrite app_length. lia.
    + intros. lia.
Qed.


Lemma new_args_spec h vs :
  let '(h', s) := new_args h vs in
  valid_slice h' s /\ contents h' s = vs /\ s_len s = s_cap s /\ s_arr s = length h /\
  (forall p, p < length h -> hget h' p = hget h p) /\ length h' = S (length h).
Proof.
  unfold new_args, halloc. pose proof (hget_app_new h (OArr vs)) as G.
  repeat split.
  - exists vs. simpl. auto.
  - unfold contents. cbn [s_arr s_off s_len skipn]. rewrite (cells_at_get _ _ _ G). apply firstn_all.
  - intros. apply hget_app_old. assumption.
  - rewrite app_length. simpl. lia.
Qed.

Lemma append_args_spec h s vs : valid_slice h s ->
  let '(h', s') := h_append_args grow h s vs in
  valid_slice h' s' /\ contents h' s' = contents h s ++ vs /\
  (forall t, valid_slice h t -> valid_slice h' t) /\
  (forall t, valid_slice h t -> apart s (length vs) t \/ s_cap s < s_len s + length vs ->
             contents h' t = contents h t) /\
  (forall p, p < length h -> p <> s_arr s \/ s_cap s < s_len s + length vs -> hget h' p = hget h p) /\
  length h <= length h' /\
  (s_arr s' = s_arr s \/ length h <= s_arr s') /\
  (s_len s + length vs <= s_cap s -> s_arr s' = s_arr s /\ s_off s' = s_off s /\ s_cap s' = s_cap s).
Proof.
  intros W. unfold h_append_args, h_append.
  pose proof (new_args_spec h vs) as NA. destruct (new_args h vs) as [h1 objs].
  destruct NA as (W1 & C1 & _ & _ & F1 & L1). rewrite C1.
  assert (V1 : forall t, valid_slice h t -> valid_slice h1 t).
  { intros t Wt. eapply valid_slice_frame; [|exact Wt]. apply F1. apply valid_slice_lt. assumption. }
  assert (K1 : forall t, valid_slice h t -> contents h1 t = contents h t).
  { intros t Wt. apply contents_frame. apply F1. apply valid_slice_lt. assumption. }
  pose proof (go_append_spec h1 s vs (V1 s W)) as GA. destruct (go_append grow h1 s vs) as [h' s'].
  destruct GA as (A1 & A2 & A3 & A4 & A5 & A6 & A7 & A8).
  repeat split; auto.
  - rewrite A2, K1; auto.
  - intros t Wt Ht. rewrite A4; auto.
  - intros p Hp Hd. rewrite A5; auto. lia.
  - lia.
  - destruct A7; auto. right. lia.
  - apply A8. assumption.
  - apply A8. assumption.
  - apply A8. assumption.
Qed.

(** Appending the elements of a list one by one to a slice whose array is not in the old heap. *)
Lemma append_fold_spec (f : heap -> nat -> option hval) n0 h0 : forall ks h s,
  valid_slice h s -> n0 <= s_arr s -> n0 <= length h ->
  (forall p, p < n0 -> hget h p = hget h0 p) ->
  (forall h1 k, (forall p, p < n0 -> hget h1 p = hget h0 p) -> f h1 k = f h0 k) ->
  let '(h', s') := fold_left (fun '(h, t) k => match f h k with
                                               | Some v => h_append_args grow h t [v]
                                               | None => (h, t)
                                               end) ks (h, s) in
  valid_slice h' s' /\ n0 <= s_arr s' /\ n0 <= length h' /\
  (forall p, p < n0 -> hget h' p = hget h0 p) /\
  contents h' s' = contents h s ++ flat_map (fun k => match f h0 k with Some v => [v] | None => [] end) ks.
Proof.
  induction ks as [|k ks IH]; intros h s W A N F Hf; cbn [fold_left flat_map].
  - repeat split; auto. symmetry. apply app_nil_r.
  - rewrite (Hf h k F). destruct (f h0 k) as [v|].
    + pose proof (append_args_spec h s [v] W) as AA. destruct (h_append_args grow h s [v]) as [h1 s1].
      destruct AA as (A1 & A2 & A3 & A4 & A5 & A6 & A7 & A8).
      assert (n0 <= s_arr s1) by (destruct A7; lia).
      assert (F1 : forall p, p < n0 -> hget h1 p = hget h0 p).
      { intros p Hp. rewrite A5; [apply F; auto | lia | left; lia]. }
      specialize (IH h1 s1 A1 H ltac:(lia) F1 Hf).
      destruct (fold_left _ ks (h1, s1)) as [h' s']. destruct IH as (B1 & B2 & B3 & B4 & B5).
      repeat split; auto. rewrite B5, A2, <- app_assoc. reflexivity.
    + specialize (IH h s W A N F Hf). destruct (fold_left _ ks (h, s)) as [h' s']. exact IH.
Qed.

Lemma create_list_spec h n m :
  let '(h', s) := create_list h n m in
  valid_slice h' s /\ contents h' s = repeat HNil n /\ s_arr s = length h /\ s_len s = n /\ s_cap s = Nat.max n m /\
  (forall p, p < length h -> hget h' p = hget h p) /\ length h' = S (length h).
Proof.
  unfold create_list, halloc. set (c := repeat HNil (Nat.max n m)).
  pose proof (hget_app_new h (OArr c)) as G.
  assert (length c = Nat.max n m) by apply repeat_length.
  repeat split.
  - exists c. simpl. split; auto. lia.
  - unfold contents. cbn [s_arr s_off s_len skipn]. rewrite (cells_at_get _ _ _ G). unfold c.
    apply nth_error_ext. intros j. destruct (Nat.lt_ge_cases j n).
    + rewrite nth_error_firstn', !nth_error_repeat by lia. reflexivity.
    + rewrite !(proj2 (nth_error_None _ _)); auto; rewrite ?firstn_length, repeat_length; lia.
  - intros. apply hget_app_old. assumption.
  - rewrite app_length. simpl. lia.
Qed.

(** The elements of a single list argument, or the arguments. *)
Definition unrolled (h : heap) (items : list hval) : list hval :=
  match items with [HList _ s] => contents h s | _ => items end.

Lemma new_list_spec h items :
  let '(h', s) := h_new_list grow h items in
  valid_slice h' s /\ contents h' s = unrolled h items /\ length h <= s_arr s /\ length h <= length h' /\
  (forall p, p < length h -> hget h' p = hget h p).
Proof.
  unfold h_new_list. change (match items with [HList _ s] => contents h s | _ => items end) with (unrolled h items).
  set (its := unrolled h items).
  pose proof (create_list_spec h 0 (length its)) as CL. destruct (create_list h 0 (length its)) as [h1 l1].
  destruct CL as (C1 & C2 & C3 & C4 & C5 & C6 & C7).
  assert (G : forall xs h2 l2, valid_slice h2 l2 -> length h <= s_arr l2 -> length h <= length h2 ->
     (forall p, p < length h -> hget h2 p = hget h p) ->
     let '(h', s) := fold_left (fun '(h, l) x => h_append_args grow h l [x]) xs (h2, l2) in
     valid_slice h' s /\ contents h' s = contents h2 l2 ++ xs /\ length h <= s_arr s /\ length h <= length h' /\
     (forall p, p < length h -> hget h' p = hget h p)).
  { induction xs as [|x xs IH]; intros h2 l2 V A N F; cbn [fold_left].
    - repeat split; auto. symmetry. apply app_nil_r.
    - pose proof (append_args_spec h2 l2 [x] V) as AA. destruct (h_append_args grow h2 l2 [x]) as [h3 l3].
      destruct AA as (A1 & A2 & A3 & A4 & A5 & A6 & A7 & A8).
      assert (length h <= s_arr l3) by (destruct A7; lia).
      assert (F3 : forall p, p < length h -> hget h3 p = hget h p).
      { intros p Hp. rewrite A5; [apply F; auto | lia | left; lia]. }
      specialize (IH h3 l3 A1 H ltac:(lia) F3). destruct (fold_left _ xs (h3, l3)) as [h' s].
      destruct IH as (B1 & B2 & B3 & B4 & B5). repeat split; auto. rewrite B2, A2, <- app_assoc. reflexivity. }
  specialize (G its h1 l1 C1 ltac:(lia) ltac:(lia) C6). destruct (fold_left _ its (h1, l1)) as [h' s].
  rewrite C2 in G. exact G.
Qed.

(** ** Remove *)

Lemma hint_int_of_map zs : map int_of (map hint zs) = zs.
Proof. induction zs; simpl; congruence. Qed.

Lemma remove_spec h l ix : valid_slice h l -> valid_slice h ix -> s_arr ix <> s_arr l ->
  let idx := map int_of (contents h ix) in
  let '(h', r) := h_remove grow h l ix in
  valid_slice h' r /\
  selected (fun k _ => ~ exists z, In z idx /\ normalize (s_len l) z = Z.of_nat k) 0 (contents h l) (contents h' r) /\
  contents h' l = contents h l /\
  contents h' ix = map (fun z => hint (normalize (s_len l) z)) idx /\
  length h <= s_arr r /\
  (forall p, p < length h -> p <> s_arr ix -> hget h' p = hget h p).
Proof.
  intros Wl Wi NE idx. unfold h_remove.
  set (nidx := map (fun v => normalize (s_len l) (int_of v)) (contents h ix)).
  assert (Enidx : nidx = map (normalize (s_len l)) idx) by (unfold nidx, idx; rewrite map_map; reflexivity).
  set (h1 := hput h (s_arr ix) (OArr (splice (cells_at h (s_arr ix)) (s_off ix) (map hint nidx)))).
  pose proof (contents_length h ix Wi) as CLi.
  assert (Ln : length nidx = s_len ix) by (unfold nidx; rewrite map_length; exact CLi).
  assert (F1 : forall p, p <> s_arr ix -> hget h1 p = hget h p) by (intros; apply hget_hput_ne; auto).
  assert (L1 : length h1 = length h) by apply hput_length.
  assert (Cix : valid_slice h1 ix /\ contents h1 ix = map hint nidx).
  { destruct Wi as (c & G & B & L). unfold h1. rewrite (cells_at_get _ _ _ G).
    set (c' := splice c (s_off ix) (map hint nidx)).
    assert (length c' = length c) by (apply splice_length; rewrite map_length; lia).
    assert (G' : hget (hput h (s_arr ix) (OArr c')) (s_arr ix) = Some (OArr c'))
      by (apply hget_hput_eq; eapply hget_lt; eauto).
    split; [exists c'; split; auto; lia|].
    unfold contents. rewrite (cells_at_get _ _ _ G'). unfold c', splice.
    rewrite skipn_app, skipn_all2 by (rewrite firstn_length; lia).
    rewrite firstn_length, Nat.min_l, Nat.sub_diag by lia. cbn [skipn app].
    rewrite firstn_app, firstn_all2 by (rewrite map_length; lia).
    rewrite map_length, Ln, Nat.sub_diag. cbn [firstn]. apply app_nil_r. }
  destruct Cix as [Wix1 Cix1].
  assert (Wl1 : valid_slice h1 l) by (eapply valid_slice_frame; [apply F1; auto | exact Wl]).
  assert (Cl1 : contents h1 l = contents h l) by (apply contents_frame; apply F1; auto).
  pose proof (create_list_spec h1 0 (s_len l)) as CL. destruct (create_list h1 0 (s_len l)) as [h2 t2].
  destruct CL as (C1 & C2 & C3 & C4 & C5 & C6 & C7).
  pose (f := fun (hh : heap) (k : nat) => if existsb (fun z => (z =? Z.of_nat k)%Z) nidx then None
                                          else Some (nth k (contents hh l) HNil)).
  assert (Hf : forall hh k, (forall p, p < length h -> hget hh p = hget h1 p) -> f hh k = f h1 k).
  { intros hh k Hh. unfold f. destruct (existsb _ nidx); auto. f_equal. f_equal.
    apply contents_frame. apply Hh. apply valid_slice_lt. assumption. }
  pose proof (append_fold_spec f (length h) h1 (seq 0 (s_len l)) h2 t2 C1 ltac:(lia) ltac:(lia)
                ltac:(intros; apply C6; lia) Hf) as AF.
  assert (Efold : forall ks hh tt,
    fold_left (fun '(h, target) k =>
               if existsb (fun z => (z =? Z.of_nat k)%Z) nidx then (h, target)
               else h_append_args grow h target [nth k (contents h l) HNil]) ks (hh, tt)
    = fold_left (fun '(h, t) k => match f h k with
                                  | Some v => h_append_args grow h t [v]
                                  | None => (h, t)
                                  end) ks (hh, tt)).
  { induction ks as [|k ks IH]; intros; cbn [fold_left]; auto. unfold f at 2.
    destruct (existsb _ nidx); [apply IH|].
    destruct (h_append_args grow hh tt _) as [h9 t9]. apply IH. }
  rewrite Efold. destruct (fold_left _ (seq 0 (s_len l)) (h2, t2)) as [h' r].
  destruct AF as (B1 & B2 & B3 & B4 & B5). rewrite C2 in B5. cbn [repeat app] in B5.
  split; [exact B1|]. split; [|split; [|split; [|split; [exact B2|]]]].
  - rewrite B5.
    assert (G : forall n k xs, length xs = n ->
       (forall j, j < n -> nth (k + j) (contents h l) HNil = nth j xs HNil) ->
       selected (fun k _ => ~ exists z, In z idx /\ normalize (s_len l) z = Z.of_nat k) k xs
                (flat_map (fun k => match f h1 k with Some v => [v] | None => [] end) (seq k n))).
    { induction n as [|n IH]; intros k xs Lx Hx.
      - destruct xs; [|discriminate]. constructor.
      - destruct xs as [|x xs]; [discriminate|]. cbn [seq flat_map].
        assert (Hx0 : nth k (contents h l) HNil = x) by (specialize (Hx 0 ltac:(lia)); rewrite Nat.add_0_r in Hx; exact Hx).
        assert (IH' := IH (S k) xs ltac:(simpl in Lx; lia)).
        assert (Hx' : forall j, j < n -> nth (S k + j) (contents h l) HNil = nth j xs HNil).
        { intros j Hj. specialize (Hx (S j) ltac:(lia)). rewrite <- Nat.add_succ_comm in Hx. exact Hx. }
        specialize (IH' Hx').
        unfold f at 1. rewrite Cl1, Hx0. destruct (existsb _ nidx) eqn:Eb.
        + cbn [app]. apply sel_drop; [|exact IH']. intros Hn. apply Hn.
          apply existsb_exists in Eb. destruct Eb as (z & Hz & Ez). rewrite Enidx in Hz.
          apply in_map_iff in Hz. destruct Hz as (z0 & E0 & H0). exists z0. split; auto.
          apply Z.eqb_eq in Ez. congruence.
        + cbn [app]. apply sel_keep; [|exact IH']. intros (z & Hz & Ez).
          assert (existsb (fun z => (z =? Z.of_nat k)%Z) nidx = true); [|congruence].
          apply existsb_exists. exists (normalize (s_len l) z). split.
          * rewrite Enidx. apply in_map. assumption.
          * apply Z.eqb_eq. assumption. }
    apply (G (s_len l) 0 (contents h l)).
    + apply contents_length. assumption.
    + reflexivity.
  - rewrite <- Cl1. apply contents_frame. apply B4. apply valid_slice_lt. assumption.
  - transitivity (contents h1 ix).
    + apply contents_frame. apply B4. apply valid_slice_lt. assumption.
    + rewrite Cix1, Enidx, map_map. reflexivity.
  - intros p Hp Hne. rewrite B4 by assumption. apply F1. assumption.
Qed.

(** ** Set *)

Lemma set_inside_spec h l k v : valid_slice h l -> k < s_len l ->
  let '(h', l') := h_set grow h l k v in
  l' = l /\ forall t j, valid_slice h t -> j < s_len t ->
    nth_error (contents h' t) j =
      if (s_arr t =? s_arr l) && (s_off t + j =? s_off l + k) then Some v else nth_error (contents h t) j.
Proof.
  intros W Hk. unfold h_set. replace (k + 1 - s_len l) with 0 by lia. cbn [h_pad].
  split; auto. intros t j Wt Hj. destruct W as (c & G & B & L). rewrite (cells_at_get _ _ _ G).
  set (c' := splice c (s_off l + k) [v]).
  assert (Lc : length c' = length c) by (apply splice_length; simpl; lia).
  set (h' := hput h (s_arr l) (OArr c')).
  assert (G' : hget h' (s_arr l) = Some (OArr c')) by (apply hget_hput_eq; eapply hget_lt; eauto).
  destruct (Nat.eqb_spec (s_arr t) (s_arr l)) as [E|E]; simpl.
  - assert (Wt' : valid_slice h' t).
    { destruct Wt as (ct & Gt & Bt & Lt). exists c'. rewrite E. split; auto. rewrite E in Gt.
      assert (c = ct) by congruence. subst. lia. }
    rewrite !contents_nth by auto. rewrite E, (cells_at_get _ _ _ G'), (cells_at_get _ _ _ G).
    unfold c'. rewrite splice_nth by (simpl; lia). simpl.
    destruct (Nat.eqb_spec (s_off t + j) (s_off l + k)) as [E2|E2].
    + rewrite E2, Nat.sub_diag. destruct (Nat.leb_spec (s_off l + k) (s_off l + k)); [|lia].
      destruct (Nat.ltb_spec (s_off l + k) (s_off l + k + 1)); [|lia]. reflexivity.
    + destruct (Nat.leb_spec (s_off l + k) (s_off t + j)); simpl; auto.
      destruct (Nat.ltb_spec (s_off t + j) (s_off l + k + 1)); auto. lia.
  - rewrite (contents_frame h h' t); auto. apply hget_hput_ne. auto.
Qed.

Lemma selected_iff {A} (P Q : nat -> A -> Prop) k l r :
  (forall j x, k <= j < k + length l -> (P j x <-> Q j x)) -> selected P k l r -> selected Q k l r.
Proof.
  intros H S. revert H. induction S as [k|k x l r Hp S IH|k x l r Hp S IH]; intros H.
  - constructor.
  - apply sel_keep; [apply H; [simpl; lia|exact Hp]|]. apply IH. intros j y Hj. apply H. simpl. lia.
  - apply sel_drop; [intros F; apply Hp; apply H; [simpl; lia|exact F]|]. apply IH. intros j y Hj. apply H. simpl. lia.
Qed.

Lemma remove_exact h l ix : valid_slice h l -> valid_slice h ix -> s_arr ix <> s_arr l ->
  let '(h', r) := h_remove grow h l ix in
  valid_slice h' r /\
  selected (fun k _ => ~ exists v, In v (contents h ix) /\ designates (s_len l) (int_of v) k) 0 (contents h l) (contents h' r) /\
  contents h' l = contents h l /\
  (forall t, valid_slice h t -> s_arr t <> s_arr ix -> contents h' t = contents h t) /\
  contents h' ix = map (fun v => if (int_of v <? 0)%Z then hint (int_of v + Z.of_nat (s_len l)) else hint (int_of v)) (contents h ix).
Proof.
  intros Wl Wi NE. pose proof (remove_spec h l ix Wl Wi NE) as RS. cbv zeta in RS.
  destruct (h_remove grow h l ix) as [h' r]. destruct RS as (A1 & A2 & A3 & A4 & A5 & A6).
  split; [exact A1|]. split; [|split; [exact A3|split]].
  - eapply selected_iff; [|exact A2]. intros j x Hj. rewrite (contents_length h l Wl) in Hj.
    apply not_iff_compat. split.
    + intros (z & Hz & Ez). apply in_map_iff in Hz. destruct Hz as (v & <- & Hv). exists v. split; auto.
      unfold normalize in Ez. unfold designates. destruct (Z.ltb_spec (int_of v) 0); lia.
    + intros (v & Hv & [D L]). exists (int_of v). split; [apply in_map; exact Hv|].
      unfold normalize. destruct (Z.ltb_spec (int_of v) 0); lia.
  - intros t Wt Nt. apply contents_frame. apply A6; auto. apply valid_slice_lt. assumption.
  - rewrite A4, map_map. apply map_ext. intros v. unfold normalize. destruct (int_of v <? 0)%Z; reflexivity.
Qed.

Lemma append_result h l objs : valid_slice h l -> valid_slice h objs ->
  let '(h', r) := h_append grow h l objs in
  valid_slice h' r /\ contents h' r = contents h l ++ contents h objs /\
  (forall t, valid_slice h t -> apart l (s_len objs) t -> contents h' t = contents h t).
Proof.
  intros W Wo. unfold h_append. pose proof (go_append_spec h l (contents h objs) W) as GA.
  rewrite (contents_length h objs Wo) in GA.
  destruct (go_append grow h l (contents h objs)) as [h' r]. destruct GA as (A1 & A2 & A3 & A4 & _). auto.
Qed.

Lemma append_keeps_base h l objs : valid_slice h l -> valid_slice h objs ->
  let '(h', r) := h_append grow h l objs in contents h' l = contents h l.
Proof.
  intros W Wo. pose proof (append_result h l objs W Wo) as AR. destruct (h_append grow h l objs) as [h' r].
  destruct AR as (_ & _ & A). apply A; auto. intros _ j Hj. lia.
Qed.

Lemma append_full h l objs : valid_slice h l -> valid_slice h objs -> s_len l = s_cap l ->
  let '(h', r) := h_append grow h l objs in
  forall t, valid_slice h t -> contents h' t = contents h t.
Proof.
  intros W Wo Hc. unfold h_append. pose proof (go_append_spec h l (contents h objs) W) as GA.
  rewrite (contents_length h objs Wo) in GA.
  destruct (go_append grow h l (contents h objs)) as [h' r]. destruct GA as (A1 & A2 & A3 & A4 & _).
  intros t Wt. apply A4; auto. destruct (s_len objs) as [|n] eqn:E.
  - left. intros _ j Hj. lia.
  - right. lia.
Qed.

End WithGrowth.
