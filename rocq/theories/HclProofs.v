(** Proofs about the HCL rendering. *)
From Coq Require Import String Ascii List ZArith NArith Bool Lia Permutation Sorted.
From Coq Require DecimalString.
From Verif Require Import GoStr GoStrFacts ValueModel ValueFacts CollSpec DictModel DictProofs Utf8 Utf8Facts TextModel NumFacts.
From Verif Require Import BashProofs QuoteModel QuoteSpec QuoteProofs ConvModel ConvSpec ConvProofs VeqFacts HclModel HclSpec.
Import ListNotations.

Section WithEnv.
Context {E : Env} {P : PrintEnv}.

(** ** Iteration orders *)

Definition rendered (full : bool) (ind : str) (m : list (str * value)) : list (str * str) := map (onto (marshal_hcl full false [] ind)) m.

Lemma perm_single {A} (a : A) l : Permutation [a] l -> l = [a].
Proof. apply Permutation_length_1_inv. Qed.

Lemma is_map0_veq v w : veq v w -> is_map0 v = is_map0 w.
Proof. destruct 1; reflexivity. Qed.
Lemma try_dict_veq v w : veq v w -> (match try_as_dict Hcl v with Some _ => true | None => false end) = (match try_as_dict Hcl w with Some _ => true | None => false end).
Proof. destruct 1; try reflexivity; cbn [try_as_dict]; rewrite ?conv_native_map, ?conv_dict_map; reflexivity. Qed.

Lemma single_map_veq m m1 m' : Permutation m m1 -> Forall2 (fun a b => fst a = fst b /\ veq (snd a) (snd b)) m1 m' -> single_map m = single_map m'.
Proof.
  intros Pm F. unfold single_map. destruct m as [|[k v] [|kv m]].
  - apply Permutation_nil in Pm. subst. inversion F. reflexivity.
  - apply perm_single in Pm. subst. inversion F as [|? [k' v'] ? ? [Ek Ev] F']; subst. inversion F'; subst. cbn [fst snd] in *. subst.
    rewrite (is_map0_veq v v' Ev). reflexivity.
  - pose proof (Permutation_length Pm) as L. destruct m1 as [|a [|b m1]]; try discriminate L. inversion F as [|? ? ? ? _ F']; subst. inversion F'; subst.
    destruct y. reflexivity.
Qed.

Lemma map_veq full head prefix ind m m1 m' :
  (forall v w, In v (map snd m) -> veq v w -> marshal_hcl full false [] ind v = marshal_hcl full false [] ind w) ->
  NoDup (mkeys m) -> Permutation m m1 -> Forall2 (fun a b => fst a = fst b /\ veq (snd a) (snd b)) m1 m' ->
  hcl_map full head prefix ind m (rendered full ind m) = hcl_map full head prefix ind m' (rendered full ind m').
Proof.
  intros H N Pm F.
  assert (H1 : forall v w, In v (map snd m1) -> veq v w -> marshal_hcl full false [] ind v = marshal_hcl full false [] ind w).
  { intros v w I. apply H. eapply Permutation_in; [apply Permutation_sym, Permutation_map, Pm|exact I]. }
  assert (R1 : rendered full ind m1 = rendered full ind m').
  { clear -F H1. unfold rendered. induction F as [|[k v] [k' v'] m1 m' [Ek Ev] F IH]; [reflexivity|]. cbn [map fst snd] in *. unfold onto at 1 3. cbn [fst snd].
    rewrite (H1 v v') by (cbn; auto). rewrite Ek. rewrite IH; [reflexivity|]. intros x y I. apply H1. right. exact I. }
  assert (N1 : NoDup (mkeys m1)) by (eapply Permutation_NoDup; [apply Permutation_map; exact Pm|exact N]).
  assert (Ks : sort_strings (mkeys m') = sort_strings (mkeys m)).
  { rewrite <- (Forall2_keys _ _ _ F). apply sort_strings_unique. apply Permutation_sym, Permutation_map, Pm. }
  assert (Tx : forall k, mget (rendered full ind m) k = mget (rendered full ind m') k).
  { intro k. rewrite <- R1. unfold rendered. rewrite !mget_onto, (mget_perm m m1 k N Pm). reflexivity. }
  assert (Kl : hcl_key_len ind (rendered full ind m) = hcl_key_len ind (rendered full ind m')).
  { rewrite <- R1. unfold hcl_key_len. destruct (str_eqb ind []); [reflexivity|]. apply list_max_perm. apply Permutation_map. unfold rendered. apply Permutation_map. exact Pm. }
  unfold hcl_map. rewrite (single_map_veq m m1 m' Pm F), Ks, Kl. rewrite Tx.
  match goal with |- (if ?c then _ else _) = _ => destruct c end; [reflexivity|].
  assert (En : map (fun k => (k, match mget (rendered full ind m) k with Some r => r | None => [] end,
                     match try_as_dict Hcl (mget0 m k) with Some _ => true | None => false end)) (sort_strings (mkeys m))
             = map (fun k => (k, match mget (rendered full ind m') k with Some r => r | None => [] end,
                     match try_as_dict Hcl (mget0 m' k) with Some _ => true | None => false end)) (sort_strings (mkeys m))).
  { apply map_ext. intro k. rewrite Tx. f_equal. unfold mget0. rewrite (mget_perm m m1 k N Pm). pose proof (Forall2_mget veq m1 m' k F) as R.
    destruct (mget m1 k), (mget m' k); try contradiction; [|reflexivity]. apply try_dict_veq. exact R. }
  rewrite En. reflexivity.
Qed.

(** The unwrapped list of one map. *)
Lemma marshal_slice_cases full head prefix ind t l :
  (exists u m, l = [VMap u m] /\ marshal_hcl full head prefix ind (VSlice t l) = hcl_map full head prefix ind m (rendered full ind m))
  \/ ((forall u m, l <> [VMap u m]) /\ marshal_hcl full head prefix ind (VSlice t l) = hcl_list prefix ind (map (marshal_hcl full false [] ind) l)).
Proof.
  destruct l as [|v [|w l]].
  - right. split; [discriminate|reflexivity].
  - destruct v; try (right; split; [discriminate|reflexivity]). left. eexists; eexists; split; reflexivity.
  - right. split; [discriminate|]. destruct v; reflexivity.
Qed.

Lemma native_map_inv t m : native (VMap t m) -> t = 0%N /\ NoDup (mkeys m) /\ Forall (fun kv => native (snd kv)) m.
Proof. intro H. inversion H; subst. auto. Qed.

Lemma veq_not_map l l' u m : Forall2 veq l l' -> (forall u m, l <> [VMap u m]) -> l' <> [VMap u m].
Proof.
  intros F H ->. inversion F as [|x y ? ? Q F']; subst. inversion F'; subst. inversion Q; subst. exact (H _ _ eq_refl).
Qed.

Lemma depth_entry (m : list (str * value)) v : In v (map snd m) -> depth v <= list_max (map (fun kv => depth (snd kv)) m).
Proof.
  intro I. apply in_map_iff in I. destruct I as (kv & <- & I). pose proof (proj1 (list_max_le (map (fun kv => depth (snd kv)) m) _) (Nat.le_refl _)) as F.
  rewrite Forall_forall in F. apply F. apply in_map_iff. exists kv. auto.
Qed.
Lemma depth_item l v : In v l -> depth v <= list_max (map depth l).
Proof.
  intro I. pose proof (proj1 (list_max_le (map depth l) _) (Nat.le_refl _)) as F. rewrite Forall_forall in F. apply F. apply in_map. exact I.
Qed.
Lemma native_entry (m : list (str * value)) v : Forall (fun kv => native (snd kv)) m -> In v (map snd m) -> native v.
Proof. intros F I. apply in_map_iff in I. destruct I as (kv & <- & I). rewrite Forall_forall in F. auto. Qed.

Lemma hcl_veq full ind : forall n v head prefix w, depth v <= n -> native v -> veq v w -> marshal_hcl full head prefix ind v = marshal_hcl full head prefix ind w.
Proof.
  induction n as [|n IH]; intros v head prefix w D N Q; destruct Q; try reflexivity; try (cbn [depth] in D; lia); inversion N; subst.
  - match goal with F : Forall2 veq l l' |- _ => rename F into F2 end. match goal with G : Forall native l |- _ => rename G into G1 end.
    destruct (marshal_slice_cases full head prefix ind 0 l) as [(u & m & -> & ->)|[Hn ->]].
    + inversion F2 as [|x y ? ? Qm F']; subst. inversion F'; subst. inversion Qm; subst.
      inversion G1 as [|? ? Nm _]; subst. apply native_map_inv in Nm. destruct Nm as (-> & Nk & Nv).
      match goal with |- _ = marshal_hcl full head prefix ind (VSlice 0 [VMap 0 ?x]) => change (marshal_hcl full head prefix ind (VSlice 0 [VMap 0 x])) with (hcl_map full head prefix ind x (rendered full ind x)) end.
      eapply map_veq; [|exact Nk|eassumption|eassumption]. intros v w Iv Qv. apply IH; [|eapply native_entry; eassumption|exact Qv].
      pose proof (depth_entry m v Iv). pose proof (depth_item [VMap 0 m] (VMap 0 m) (or_introl eq_refl)) as D1.
      change (S (list_max (map depth [VMap 0 m])) <= S n) in D. change (depth (VMap 0 m)) with (S (list_max (map (fun kv => depth (snd kv)) m))) in D1. lia.
    + destruct (marshal_slice_cases full head prefix ind 0 l') as [(u & m & -> & _)|[Hn' ->]]; [exfalso; exact (veq_not_map _ _ _ _ F2 Hn eq_refl)|].
      f_equal. assert (Dl : forall v, In v l -> depth v <= n) by (intros v Iv; pose proof (depth_item l v Iv); cbn [depth] in D; lia).
      clear -IH F2 G1 Dl. induction F2; [reflexivity|]. cbn [map]. inversion G1; subst. f_equal; [apply IH; auto; apply Dl; left; reflexivity|].
      apply IHF2; [assumption|]. intros v Iv. apply Dl. right. exact Iv.
  - change (hcl_map full head prefix ind m (rendered full ind m) = hcl_map full head prefix ind m' (rendered full ind m')).
    eapply map_veq; [|eassumption|eassumption|eassumption]. intros v w Iv Qv. apply IH; [|eapply native_entry; eassumption|exact Qv].
    pose proof (depth_entry m v Iv). cbn [depth] in D. lia.
Qed.

Lemma marshal_hcl_order full head prefix ind v w : keyed v -> veq v w ->
  marshal_hcl full head prefix ind (marshal_go v) = marshal_hcl full head prefix ind (marshal_go w).
Proof.
  intros K Q. apply (hcl_veq full ind (depth (marshal_go v))); [apply Nat.le_refl|apply marshal_keyed; exact K|apply marshal_veq; assumption].
Qed.

(** ** Reading back *)

(** The marker and its parts. *)
Lemma contains_cut sub x a b : ~ In x sub -> contains sub (a ++ x :: b) = true -> contains sub a = true \/ contains sub b = true.
Proof.
  intros Hx H. apply contains_iff in H. destruct H as (p & q & H).
  revert a H. induction p as [|c p IH]; intros a H.
  - cbn [app] in H. revert a H. assert (G : forall sub a, ~ In x sub -> a ++ x :: b = sub ++ q -> exists r, a = sub ++ r).
    { clear. induction sub as [|y sub IH]; intros a Hx H; [exists a; reflexivity|]. destruct a as [|z a]; cbn [app] in H; injection H as H1 H2.
      - subst. exfalso. apply Hx. left. reflexivity.
      - subst z. destruct (IH a) as [r ->]; [intro I; apply Hx; right; exact I|exact H2|]. exists r. reflexivity. }
    intros a H. destruct (G sub a Hx H) as [r ->]. left. apply contains_iff. exists [], r. reflexivity.
  - destruct a as [|z a]; cbn [app] in H; injection H as H1 H2.
    + right. apply contains_iff. exists p, q. exact H2.
    + destruct (IH a H2) as [G|G]; [|right; exact G]. left. apply contains_iff in G. destruct G as (u & v & ->). apply contains_iff.
      exists (z :: u), v. reflexivity.
Qed.
Lemma contains_skip c sub a b : ~ In c a -> contains (c :: sub) (a ++ b) = true -> contains (c :: sub) b = true.
Proof.
  intros Ha H. apply contains_iff in H. destruct H as (p & q & H). revert p H. induction a as [|z a IH]; intros p H.
  - apply contains_iff. exists p, q. exact H.
  - destruct p as [|y p]; cbn [app] in H; injection H as H1 H2.
    + subst. exfalso. apply Ha. left. reflexivity.
    + eapply (IH ltac:(intro I; apply Ha; right; exact I) p). exact H2.
Qed.
Lemma contains_mono sub a b c : contains sub b = true -> contains sub (a ++ b ++ c) = true.
Proof. intro H. apply contains_iff in H. destruct H as (p & q & ->). apply contains_iff. exists (a ++ p), (q ++ c). rewrite <- !app_assoc. reflexivity. Qed.


Notation HASH := "#"%char.
Definition plain (s : str) : Prop := ~ In HASH s /\ ~ In NL s.

Lemma hex_plain : forall w n, plain (low_hex w n).
Proof.
  induction w as [|w IH]; intro n; [split; intros []|]. cbn [low_hex].
  assert (D : forall k, (k < 16)%N -> low_digit k <> HASH /\ low_digit k <> NL).
  { intros k H. destruct k as [|p]; [split; discriminate|]. do 4 (destruct p as [p|p|]; try (split; discriminate); try lia). }
  destruct (IH (n / 16)%N) as [A B]. destruct (D (n mod 16)%N ltac:(apply N.mod_lt; discriminate)) as [C G].
  split; rewrite in_app_iff; intros [I|[I|[]]]; auto.
Qed.
Lemma plain_cons c s : c <> HASH -> c <> NL -> plain s -> plain (c :: s).
Proof. intros A B [C D]. split; intros [I|I]; auto. Qed.
Lemma escape_plain n : exists e, escape n = BSL :: e /\ plain e.
Proof.
  unfold escape. eexists. split; [reflexivity|].
  repeat match goal with |- plain (if ?c then _ else _) => destruct c end;
  repeat (apply plain_cons; [discriminate|discriminate|]); try apply hex_plain; split; intros [].
Qed.

Lemma chunk_plain c : good c -> quote_chunk c = snd c /\ ~ In NL (snd c) \/ exists e, quote_chunk c = BSL :: e /\ plain e.
Proof.
  destruct c as [n b]. intros [(x & Ex & H)|[(x & Ex & H)|(H & L & U & F)]].
  - inversion Ex; subst. unfold quote_chunk, snd. destruct (N.eqb_spec (N_of_ascii x) rune_error); [right; eexists; split; [reflexivity|]|].
    + apply plain_cons; [discriminate|discriminate|apply hex_plain].
    + destruct ((N_of_ascii x =? 34)%N || (N_of_ascii x =? 92)%N) eqn:Q.
      * right. exists [x]. split; [reflexivity|]. apply orb_true_iff in Q. rewrite !N.eqb_eq in Q.
        apply plain_cons; [| |split; intros []]; intros ->; destruct Q; discriminate.
      * destruct (is_print (N_of_ascii x)) eqn:Pr; [|right; apply escape_plain]. left. split; [reflexivity|]. intros [->|[]]. vm_compute in Pr. discriminate.
  - inversion Ex; subst. right. unfold quote_chunk. rewrite N.eqb_refl. eexists. split; [reflexivity|]. apply plain_cons; [discriminate|discriminate|apply hex_plain].
  - unfold quote_chunk, snd. assert (Nb : ~ In NL b) by (intro I; rewrite Forall_forall in U + rewrite Forall_forall in F; specialize (F _ I) || specialize (U _ I); vm_compute in F || vm_compute in U; congruence).
    destruct b as [|x [|y b]]; try (destruct (is_print n); [left; auto|right; apply escape_plain]). exfalso. cbn in L. lia.
Qed.

Definition clean (s : str) : Prop := contains marker s = false /\ contains [NL] s = false.
Lemma clean_iff s : clean s <-> contains marker s <> true /\ ~ In NL s.
Proof.
  unfold clean. rewrite <- (contains_1_In NL s), <- !not_true_iff_false. reflexivity.
Qed.
Lemma clean_plain s : plain s -> clean s.
Proof.
  intros [A B]. apply clean_iff. split; [|exact B]. intro H. apply contains_iff in H. destruct H as (p & q & ->). apply A.
  apply in_or_app. right. left. reflexivity.
Qed.
Lemma clean_cut a x b : ~ In x marker -> x <> NL -> clean a -> clean b -> clean (a ++ x :: b).
Proof.
  intros Hx Hn A B. apply clean_iff in A, B. apply clean_iff. destruct A as [A1 A2], B as [B1 B2]. split.
  - intro H. destruct (contains_cut marker x a b Hx H); auto.
  - rewrite in_app_iff. intros [I|[I|I]]; auto.
Qed.
Lemma clean_nil : clean [].
Proof. split; reflexivity. Qed.
Lemma clean_join x l : ~ In x marker -> x <> NL -> Forall clean l -> clean (join [x] l).
Proof.
  intros Hx Hn. induction 1 as [|a l A F IH]; [apply clean_nil|]. destruct l as [|b l]; [exact A|].
  change (join [x] (a :: b :: l)) with (a ++ x :: join [x] (b :: l)). apply clean_cut; assumption.
Qed.

Lemma chunks_marker cs : Forall good cs -> forall p, contains marker (p ++ concat (map quote_chunk cs)) = true -> contains marker (p ++ bytes cs) = true.
Proof.
  induction 1 as [|c cs G F IH]; intros p H; [exact H|]. cbn [map concat] in H. unfold bytes. cbn [map concat]. fold (bytes cs).
  destruct (chunk_plain c G) as [[E1 _]|(e & E1 & Pe)]; rewrite E1 in H.
  - rewrite app_assoc in H |- *. apply IH. exact H.
  - cbn [app] in H. destruct (contains_cut marker BSL p _ ltac:(vm_compute; intuition discriminate) H) as [A|A].
    + apply (contains_mono marker [] p). exact A.
    + apply (contains_skip HASH) in A; [|exact (proj1 Pe)]. apply (IH []) in A. cbn [app] in A.
      pose proof (contains_mono marker (p ++ snd c) (bytes cs) [] A) as M. rewrite app_nil_r, <- app_assoc in M. exact M.
Qed.
Lemma chunks_line cs : Forall good cs -> ~ In NL (concat (map quote_chunk cs)).
Proof.
  induction 1 as [|c cs G F IH]; [intros []|]. cbn [map concat]. rewrite in_app_iff. intros [I|I]; [|auto].
  destruct (chunk_plain c G) as [[E1 N]|(e & E1 & Pe)]; rewrite E1 in I; [auto|]. destruct I as [I|I]; [discriminate I|]. apply (proj2 Pe). exact I.
Qed.
Lemma marker_free s : free_of_marker s -> contains marker s <> true.
Proof. intros F H. apply contains_iff in H. destruct H as (a & b & ->). apply F. exists a, b. reflexivity. Qed.

Lemma quote_clean s : free_of_marker s -> clean (go_quote s).
Proof.
  intro F. unfold go_quote. apply (clean_cut []); [vm_compute; intuition discriminate|discriminate|apply clean_nil|].
  apply (clean_cut _ DQ []); [vm_compute; intuition discriminate|discriminate| |apply clean_nil]. apply clean_iff. split.
  - intro H. apply (chunks_marker _ (chunks_good s) []) in H. cbn [app] in H. rewrite bytes_chunks in H. exact (marker_free s F H).
  - apply chunks_line, chunks_good.
Qed.
Lemma id_clean k : free_of_marker k -> clean (hcl_id k).
Proof.
  intro F. unfold hcl_id. destruct (is_identifier k) eqn:I; [|apply quote_clean; exact F]. apply clean_iff. split; [apply marker_free; exact F|].
  destruct k as [|c k]; [intros []|]. cbn [is_identifier] in I. apply andb_true_iff in I. destruct I as [A B]. intros [J|J].
  - subst. discriminate A.
  - rewrite forallb_forall in B. specialize (B _ J). discriminate B.
Qed.
Lemma itoa_plain z : plain (itoa z).
Proof. split; intro I; pose proof (itoa_chars z) as F; rewrite Forall_forall in F; destruct (F _ I) as [H|H]; discriminate H. Qed.

(** The compact rendering. *)
Definition T (v : value) : str := marshal_hcl false false [] [] v.
Definition entry (kt : str * str) : str := hcl_id (fst kt) ++ "="%char :: snd kt.

Lemma items_compact (es : list hcl_entry) : Forall (fun e => clean (snd (fst e))) es -> forall items,
  fold_left (hcl_item false [] false) es (items, O) = (items ++ map (fun e => entry (fst e)) es, O).
Proof.
  induction 1 as [|[[k r] d] es C F IH]; intro items; [cbn; rewrite app_nil_r; reflexivity|].
  cbn [fold_left map fst]. unfold hcl_item at 2. cbn [fst snd] in C. destruct C as [C1 C2]. rewrite C1, C2. cbn [Bool.eqb andb]. rewrite andb_false_r.
  cbn [str_eqb]. change (str_eqb $"=" []) with false. cbn [andb]. change (str_eqb [] []) with true. cbv iota.
  unfold pad_right. cbn [Nat.sub]. rewrite IH. rewrite <- app_assoc. unfold entry. cbn [fst snd app]. unfold spaces. cbn [repeat]. rewrite app_nil_r. reflexivity.
Qed.
Lemma items_rest (es : list hcl_entry) st : Forall (fun e => clean (snd (fst e))) es -> fold_left (hcl_item false [] true) es st = st.
Proof.
  intro F. revert st. induction F as [|[[k r] d] es C F IH]; intros [items n]; [reflexivity|]. cbn [fold_left]. unfold hcl_item at 2.
  cbn [fst snd] in C. destruct C as [C1 C2]. rewrite C2. cbn [Bool.eqb]. apply IH.
Qed.

Lemma map_compact m : Forall (fun kv => clean (T (snd kv))) m ->
  T (VMap 0 m) = "{"%char :: join $" " (map entry (map (fun k => (k, T (mget0 m k))) (sort_strings (mkeys m)))) ++ $"}".
Proof.
  intro C. change (T (VMap 0 m)) with (hcl_map false false [] [] m (rendered false [] m)). unfold hcl_map. cbn [andb].
  assert (Tx : map (fun k => (k, match mget (rendered false [] m) k with Some r => r | None => [] end,
                     match try_as_dict Hcl (mget0 m k) with Some _ => true | None => false end)) (sort_strings (mkeys m))
             = map (fun k => (k, T (mget0 m k), match try_as_dict Hcl (mget0 m k) with Some _ => true | None => false end)) (sort_strings (mkeys m))).
  { apply map_ext_in. intros k I. unfold rendered. rewrite mget_onto. unfold mget0. apply (Permutation_in _ (sort_strings_perm _)) in I.
    destruct (mget m k) eqn:G; [reflexivity|]. apply mget_None in G. contradiction. }
  rewrite Tx.
  assert (Fc : Forall (fun e : hcl_entry => clean (snd (fst e)))
    (map (fun k => (k, T (mget0 m k), match try_as_dict Hcl (mget0 m k) with Some _ => true | None => false end)) (sort_strings (mkeys m)))).
  { apply Forall_forall. intros e I. apply in_map_iff in I. destruct I as (k & <- & I). cbn [fst snd]. apply (Permutation_in _ (sort_strings_perm _)) in I.
    unfold mget0. destruct (mget m k) eqn:G; [|apply mget_None in G; contradiction]. apply mget_In in G. rewrite Forall_forall in C. exact (C _ G). }
  change (hcl_key_len [] (rendered false [] m)) with O. rewrite items_compact, items_rest by exact Fc. cbn [fst app str_eqb orb].
  rewrite !map_map. cbn [fst]. reflexivity.
Qed.

Lemma list_compact l : (forall t m, l <> [VMap t m]) -> Forall (fun v => clean (T v)) l -> T (VSlice 0 l) = "["%char :: join $"," (map T l) ++ $"]".
Proof.
  intros H C. unfold T at 1. destruct (marshal_slice_cases false false [] [] 0 l) as [(u & m & -> & _)|[_ ->]]; [exfalso; exact (H u m eq_refl)|].
  unfold hcl_list. replace (existsb (contains [NL]) (map (marshal_hcl false false [] []) l)) with false; [change (str_eqb [] []) with true; cbn [negb]; rewrite andb_false_r; reflexivity|].
  symmetry. clear H. induction C as [|v l [_ C] F IH]; [reflexivity|]. cbn [map existsb]. unfold T in C. rewrite C. exact IH.
Qed.

Lemma faithful_clean v : faithful v -> clean (T v).
Proof.
  induction v as [|s|t l IH|t m IH|t m IH|i l IH|i m IH|t c n] using value_ind'; intro F; inversion F; subst.
  - split; reflexivity.
  - destruct b; split; reflexivity.
  - apply clean_plain, itoa_plain.
  - apply quote_clean. assumption.
  - match goal with G : Forall faithful l |- _ => rename G into Fl end. match goal with G : forall m, l <> [VMap 0 m] |- _ => rename G into Hl end.
    assert (Hl' : forall t m, l <> [VMap t m]). { intros t m ->. inversion Fl as [|? ? Fm _]; subst. inversion Fm; subst. exact (Hl m eq_refl). }
    assert (C : Forall (fun v => clean (T v)) l). { rewrite Forall_forall in *. auto. }
    rewrite list_compact by assumption. apply (clean_cut []); [vm_compute; intuition discriminate|discriminate|apply clean_nil|].
    apply clean_cut; [vm_compute; intuition discriminate|discriminate| |apply clean_nil]. apply (clean_join ","%char); [vm_compute; intuition discriminate|discriminate|].
    apply Forall_map. exact C.
  - match goal with G : Forall (fun kv => free_of_marker _ /\ _) m |- _ => rename G into Fm' end.
    assert (C : Forall (fun kv => clean (T (snd kv))) m).
    { rewrite Forall_forall in *. intros kv I. apply IH; [exact I|]. apply Fm'. exact I. }
    rewrite map_compact by exact C. apply (clean_cut []); [vm_compute; intuition discriminate|discriminate|apply clean_nil|].
    apply clean_cut; [vm_compute; intuition discriminate|discriminate| |apply clean_nil]. apply (clean_join " "%char); [vm_compute; intuition discriminate|discriminate|].
    apply Forall_map. apply Forall_map. apply Forall_forall. intros k I. apply (Permutation_in _ (sort_strings_perm _)) in I.
    unfold entry, mget0. cbn [fst snd]. destruct (mget m k) eqn:G; [|apply mget_None in G; contradiction]. apply mget_In in G.
    rewrite Forall_forall in C, Fm'. apply clean_cut; [vm_compute; intuition discriminate|discriminate| |exact (C _ G)]. apply id_clean. exact (proj1 (Fm' _ G)).
Qed.

(** Where a value can end. *)
Definition ends (r : str) : Prop := match r with [] => True | c :: _ => token_char c = false end.

Lemma token_app a r : Forall (fun c => token_char c = true) a -> ends r -> token_split (a ++ r) = (a, r).
Proof.
  induction 1 as [|c a H F IH]; intro R.
  - destruct r as [|c r]; [reflexivity|]. cbn [app token_split]. cbn [ends] in R. rewrite R. reflexivity.
  - cbn [app token_split]. rewrite H, IH by exact R. reflexivity.
Qed.
Lemma value_token c s fuel : token_char c = true -> read_value (S fuel) (c :: s) =
  let (t, r) := token_split (c :: s) in match token_value t with Some v => Some (v, r) | None => None end.
Proof. intro H. all_bytes c; first [discriminate H | reflexivity]. Qed.
Lemma value_word a w fuel r : a <> [] -> Forall (fun c => token_char c = true) a -> token_value a = Some w -> ends r ->
  read_value (S fuel) (a ++ r) = Some (w, r).
Proof.
  intros N F V R. destruct a as [|c a]; [contradiction|]. inversion F; subst. cbn [app]. rewrite value_token by assumption.
  change (c :: a ++ r) with ((c :: a) ++ r). rewrite token_app by assumption. rewrite V. reflexivity.
Qed.
Lemma value_quoted s fuel r : read_value (S fuel) (go_quote s ++ r) = Some (vstr s, r).
Proof.
  pose proof (read_quote s r) as Q. remember (go_quote s ++ r) as x eqn:Ex. unfold go_quote in Ex. cbn [app] in Ex. destruct x as [|c x]; [discriminate|].
  assert (c = DQ) by congruence. clear Ex. subst c. change (match read_literal (DQ :: x) with Some (t, r) => Some (vstr t, r) | None => None end = Some (vstr s, r)). rewrite Q. reflexivity.
Qed.
Lemma value_list c s fuel : c <> "]"%char -> read_value (S fuel) ("["%char :: c :: s) =
  match read_items fuel (c :: s) with Some (l, r) => Some (VSlice 0 l, r) | None => None end.
Proof. intro H. all_bytes c; first [exfalso; apply H; reflexivity | reflexivity]. Qed.
Lemma value_map c s fuel : c <> "}"%char -> read_value (S fuel) ("{"%char :: c :: s) =
  match read_entries fuel (c :: s) with Some (l, r) => Some (VMap 0 l, r) | None => None end.
Proof. intro H. all_bytes c; first [exfalso; apply H; reflexivity | reflexivity]. Qed.

Lemma token_itoa z : token_value (itoa z) = Some (vint z) /\ itoa z <> [] /\ Forall (fun c => token_char c = true) (itoa z).
Proof.
  assert (F : Forall (fun c => token_char c = true) (itoa z)).
  { eapply Forall_impl; [|apply itoa_chars]. intros c [H| ->]; [|reflexivity]. all_bytes c; first [discriminate H|reflexivity]. }
  assert (W : forall s, existsb (fun c => negb (is_digit c || Ascii.eqb c "-")) s = true -> str_eqb (itoa z) s = false).
  { intros s H. destruct (str_eqb_spec (itoa z) s) as [E1|]; [|reflexivity]. exfalso. rewrite <- E1 in H. apply existsb_exists in H. destruct H as (c & I & H).
    pose proof (itoa_chars z) as G. rewrite Forall_forall in G. destruct (G c I) as [D| ->]; [rewrite D in H|]; discriminate H. }
  split; [|split; [|exact F]].
  - unfold token_value. rewrite !W by reflexivity. unfold itoa, lit. rewrite string_of_list_ascii_of_string, Z_to_int_norm.
    rewrite DecimalZ.of_to. reflexivity.
  - destruct z as [|p|p]; [discriminate| |rewrite itoa_neg; discriminate]. destruct (itoa_nonneg (Z.pos p) ltac:(lia)) as (_ & _ & _ & N). exact N.
Qed.

(** Keys *)
Lemma key_read k r : proper_key k -> read_key (hcl_id k ++ "="%char :: r) = Some (k, "="%char :: r).
Proof.
  intro Pk. unfold hcl_id. destruct (is_identifier k) eqn:I.
  - destruct k as [|c k]; [discriminate|]. cbn [is_identifier] in I. apply andb_true_iff in I. destruct I as [A B].
    assert (F : Forall (fun c => token_char c = true) (c :: k)).
    { constructor.
      - cbn [proper_key In] in Pk. clear -A Pk. all_bytes c; first [discriminate A | reflexivity | exfalso; apply Pk; tauto].
      - apply Forall_forall. intros x J. rewrite forallb_forall in B. specialize (B x J). clear -B. all_bytes x; first [discriminate B | reflexivity]. }
    pose proof (token_app (c :: k) ("="%char :: r) F eq_refl) as Q. inversion F as [|? ? Hc _]; subst.
    unfold read_key. cbn [app] in *. rewrite Q. clear -Hc. all_bytes c; first [discriminate Hc | reflexivity].
  - pose proof (read_quote k ("="%char :: r)) as Q. unfold read_key. unfold go_quote in *. cbn [app] in *. exact Q.
Qed.
Lemma id_head k : proper_key k -> exists c s, hcl_id k = c :: s /\ c <> "}"%char.
Proof.
  intro Pk. unfold hcl_id. destruct (is_identifier k) eqn:I; [|eexists; eexists; split; [reflexivity|discriminate]].
  destruct k as [|c k]; [discriminate|]. exists c, k. split; [reflexivity|]. cbn [is_identifier] in I. apply andb_true_iff in I. destruct I as [A _].
  intros ->. discriminate A.
Qed.

(** What is read for a text. *)
Definition reads (t : str) (w : value) : Prop :=
  (exists c s, t = c :: s /\ c <> "]"%char) /\
  forall fuel rest, 2 * List.length t <= fuel -> ends rest -> read_value fuel (t ++ rest) = Some (w, rest).

Lemma items_read ts ws : Forall2 reads ts ws -> ts <> [] -> forall fuel rest, 2 * List.length (join $"," ts) < fuel ->
  read_items fuel (join $"," ts ++ "]"%char :: rest) = Some (ws, rest).
Proof.
  induction 1 as [|t w ts ws [_ R] F IH]; intros N fuel rest L; [contradiction|]. destruct fuel as [|fuel]; [lia|].
  destruct ts as [|t' ts].
  - inversion F; subst. cbn [join] in *. cbn [read_items]. rewrite R; [reflexivity|lia|reflexivity].
  - change (join $"," (t :: t' :: ts)) with (t ++ ","%char :: join $"," (t' :: ts)) in *. rewrite app_length in L. cbn [List.length] in L.
    rewrite <- app_assoc. cbn [app read_items]. rewrite R; [|lia|reflexivity].
    cbv iota. rewrite IH; [reflexivity|discriminate|lia].
Qed.
Lemma entries_read (ts : list (str * str)) (ws : list (str * value)) :
  Forall2 (fun t w => fst t = fst w /\ proper_key (fst t) /\ reads (snd t) (snd w)) ts ws -> ts <> [] ->
  forall fuel rest, 2 * List.length (join $" " (map entry ts)) < fuel ->
  read_entries fuel (join $" " (map entry ts) ++ "}"%char :: rest) = Some (ws, rest).
Proof.
  induction 1 as [|[k t] [k' w] ts ws (Ek & Pk & _ & R) F IH]; intros N fuel rest L; [contradiction|]. destruct fuel as [|fuel]; [lia|].
  cbn [fst snd] in *. subst k'. destruct ts as [|t' ts].
  - inversion F; subst. cbn [map join] in *. unfold entry in *. cbn [fst snd] in *. rewrite <- app_assoc. cbn [app read_entries]. rewrite key_read by exact Pk. cbv iota.
    rewrite app_length in L. cbn [List.length] in L. rewrite R; [reflexivity|lia|reflexivity].
  - change (join $" " (map entry ((k, t) :: t' :: ts))) with ((hcl_id k ++ "="%char :: t) ++ " "%char :: join $" " (map entry (t' :: ts))) in *.
    rewrite !app_length in L. cbn [List.length] in L. rewrite <- !app_assoc. cbn [app read_entries]. rewrite key_read by exact Pk. cbv iota.
    rewrite R; [|lia|reflexivity]. cbv iota. rewrite IH; [reflexivity|discriminate|lia].
Qed.

Lemma reads_word a w : a <> [] -> Forall (fun c => token_char c = true) a -> token_value a = Some w -> reads a w.
Proof.
  intros N F V. split.
  - destruct a as [|c a]; [contradiction|]. exists c, a. split; [reflexivity|]. inversion F; subst. intros ->. discriminate.
  - intros fuel rest L R. destruct a as [|c a]; [contradiction|]. destruct fuel as [|fuel]; [cbn in L; lia|]. apply value_word; assumption.
Qed.

Lemma faithful_reads v : faithful v -> exists w, veq v w /\ reads (T v) w.
Proof.
  induction v as [|s|t l IH|t m IH|t m IH|i l IH|i m IH|t c n] using value_ind'; intro F; inversion F; subst.
  - exists VNil. split; [constructor|]. apply reads_word; [discriminate|repeat constructor|reflexivity].
  - exists (vbool b). split; [constructor|]. destruct b; apply reads_word; try discriminate; try reflexivity; repeat constructor.
  - exists (vint z). split; [constructor|]. destruct (token_itoa z) as (A & B & C). apply reads_word; assumption.
  - exists (vstr s0). split; [constructor|]. split; [eexists; eexists; split; [reflexivity|discriminate]|].
    intros fuel rest L R. destruct fuel as [|fuel]; [cbn in L; lia|]. apply value_quoted.
  - pose proof F as Fv. match goal with G : Forall faithful l |- _ => rename G into Fl end. match goal with G : forall m, l <> [VMap 0 m] |- _ => rename G into Hl end.
    assert (Hl' : forall t m, l <> [VMap t m]). { intros t m ->. inversion Fl as [|? ? Fm _]; subst. inversion Fm; subst. exact (Hl m eq_refl). }
    assert (C : Forall (fun v => clean (T v)) l). { eapply Forall_impl; [|exact Fl]. apply faithful_clean. }
    assert (W : exists ws, Forall2 veq l ws /\ Forall2 reads (map T l) ws).
    { clear -IH Fl. induction l as [|v l IHl]; [exists []; split; constructor|]. inversion IH; subst. inversion Fl; subst.
      destruct IHl as (ws & A & B); [assumption|assumption|]. destruct H1 as (w & Q & R); [assumption|]. exists (w :: ws). split; constructor; assumption. }
    destruct W as (ws & Q & R). exists (VSlice 0 ws). split; [constructor; exact Q|]. rewrite list_compact by assumption.
    split; [eexists; eexists; split; [reflexivity|discriminate]|]. intros fuel rest L Rr.
    destruct fuel as [|fuel]; [cbn in L; lia|]. destruct l as [|v l].
    + inversion Q; subst. reflexivity.
    + assert (Hd : exists c s, join $"," (map T (v :: l)) ++ $"]" = c :: s /\ c <> "]"%char).
      { inversion R as [|? ? ? ? [(c & s & Ec & Nc) _] _]; subst. destruct l; cbn [map join]; rewrite Ec; eexists; eexists; (split; [reflexivity|exact Nc]). }
      destruct Hd as (c & s & Ec & Nc). cbn [List.length] in L. rewrite app_length in L. change (List.length $"]") with 1 in L.
      cbn [app]. rewrite <- app_assoc. change ($"]" ++ rest) with ("]"%char :: rest).
      replace (join $"," (map T (v :: l)) ++ "]"%char :: rest) with (c :: s ++ rest).
      * rewrite value_list by exact Nc. change (c :: s ++ rest) with ((c :: s) ++ rest). rewrite <- Ec, <- app_assoc. change ($"]" ++ rest) with ("]"%char :: rest).
        rewrite (items_read _ ws); [reflexivity|exact R|discriminate|lia].
      * change (c :: s ++ rest) with ((c :: s) ++ rest). rewrite <- Ec, <- app_assoc. reflexivity.
  - match goal with G : Forall (fun kv => free_of_marker _ /\ _) m |- _ => rename G into Fm' end.
    assert (C : Forall (fun kv => clean (T (snd kv))) m).
    { eapply Forall_impl; [|exact Fm']. intros kv (_ & _ & G). apply faithful_clean. exact G. }
    rename IH into Im.
    set (ks := sort_strings (mkeys m)). set (m1 := map (fun k => (k, mget0 m k)) ks).
    assert (Pm : Permutation m m1).
    { unfold m1, ks. transitivity (map (fun k => (k, mget0 m k)) (mkeys m)); [|apply Permutation_map, Permutation_sym, sort_strings_perm].
      unfold mkeys. rewrite map_map. rewrite <- (map_id m) at 1. erewrite map_ext_in; [reflexivity|]. intros [k v] I. cbn [fst]. unfold mget0.
      rewrite (mget_In_NoDup m k v) by assumption. reflexivity. }
    assert (W : exists ws, Forall2 (fun a b => fst a = fst b /\ veq (snd a) (snd b)) m1 ws /\
              Forall2 (fun t w => fst t = fst w /\ proper_key (fst t) /\ reads (snd t) (snd w)) (map (onto T) m1) ws).
    { assert (I1 : Forall (fun kv => proper_key (fst kv) /\ exists w, veq (snd kv) w /\ reads (T (snd kv)) w) m1).
      { apply (proj1 (Permutation_Forall_iff Pm)). rewrite Forall_forall in *. intros kv I. specialize (Fm' kv I). destruct Fm' as (_ & Pk & G). split; [exact Pk|].
        apply Im; assumption. }
      clear -I1. induction I1 as [|[k v] m1 (Pk & w & Q & R) _ IH]; [exists []; split; constructor|]. destruct IH as (ws & A & B).
      exists ((k, w) :: ws). split; constructor; cbn [fst snd onto] in *; auto. }
    destruct W as (ws & Q & R). exists (VMap 0 ws). split; [econstructor; eassumption|]. rewrite map_compact by exact C. fold ks.
    replace (map (fun k => (k, T (mget0 m k))) ks) with (map (onto T) m1) by (unfold m1; rewrite map_map; reflexivity).
    split; [eexists; eexists; split; [reflexivity|discriminate]|]. intros fuel rest L Rr.
    destruct fuel as [|fuel]; [cbn in L; lia|]. clearbody m1. destruct m1 as [|e m1].
    + inversion R; subst. reflexivity.
    + assert (Hd : exists c s, join $" " (map entry (map (onto T) (e :: m1))) ++ $"}" = c :: s /\ c <> "}"%char).
      { inversion R as [|? ? ? ? (_ & Pk & _) _]; subst. destruct (id_head _ Pk) as (c & s & Ec & Nc).
        destruct m1; cbn [map join]; unfold entry at 1; rewrite Ec; eexists; eexists; (split; [reflexivity|exact Nc]). }
      destruct Hd as (c & s & Ec & Nc). cbn [List.length] in L. rewrite app_length in L. change (List.length $"}") with 1 in L.
      cbn [app]. rewrite <- app_assoc. change ($"}" ++ rest) with ("}"%char :: rest).
      replace (join $" " (map entry (map (onto T) (e :: m1))) ++ "}"%char :: rest) with (c :: s ++ rest).
      * rewrite value_map by exact Nc. change (c :: s ++ rest) with ((c :: s) ++ rest). rewrite <- Ec, <- app_assoc. change ($"}" ++ rest) with ("}"%char :: rest).
        rewrite (entries_read _ ws); [reflexivity|exact R|discriminate|lia].
      * change (c :: s ++ rest) with ((c :: s) ++ rest). rewrite <- Ec, <- app_assoc. reflexivity.
Qed.

Lemma faithful_native v : faithful v -> native v.
Proof.
  induction v as [|s|t l IH|t m IH|t m IH|i l IH|i m IH|t c n] using value_ind'; intro F; inversion F; subst; try constructor; auto.
  - left. reflexivity.
  - rewrite Forall_forall in *. auto.
  - match goal with G : Forall (fun kv => free_of_marker _ /\ _) m |- _ => rename G into Fm end.
    rewrite Forall_forall in *. intros kv I. apply IH; [exact I|]. apply Fm. exact I.
Qed.

Lemma hcl_read_back v : faithful v -> exists w, veq v w /\ read_hcl (hcl_marshal_internal v) = Some w.
Proof.
  intro F. destruct (faithful_reads v F) as (w & Q & _ & R). exists w. split; [exact Q|]. unfold hcl_marshal_internal. rewrite marshal_fixed by (apply faithful_native; exact F).
  change (marshal_hcl false false [] [] v) with (T v). unfold read_hcl. specialize (R (2 * List.length (T v)) []). rewrite app_nil_r in R. rewrite R; [reflexivity|lia|exact I].
Qed.

Lemma hcl_injective v w : faithful v -> faithful w -> hcl_marshal_internal v = hcl_marshal_internal w -> exists u, veq v u /\ veq w u.
Proof.
  intros F G H. destruct (hcl_read_back v F) as (u & A & B). destruct (hcl_read_back w G) as (u' & A' & B'). rewrite H, B' in B. inversion B; subst. eauto.
Qed.

Lemma identifier_bare k : proper_key k -> (is_identifier k = true <-> bare_key k).
Proof.
  intro Pk. destruct k as [|c k]; [split; [discriminate|intros []]|]. cbn [is_identifier bare_key]. rewrite andb_true_iff, forallb_forall, Forall_forall.
  assert (A : ident_start c = true <-> letter c = true \/ c = "_"%char).
  { cbn [proper_key In] in Pk. clear -Pk. split; intro H.
    - all_bytes c; first [discriminate H | left; reflexivity | right; reflexivity | exfalso; apply Pk; tauto].
    - destruct H as [H| ->]; [|reflexivity]. all_bytes c; first [discriminate H | reflexivity]. }
  rewrite A. assert (B : forall x, ident_char x = token_char x) by (intro x; all_bytes x; reflexivity). setoid_rewrite B. reflexivity.
Qed.
Lemma hcl_keys k z : free_of_marker k -> proper_key k ->
  (bare_key k -> hcl_marshal_internal (VMap 0 [(k, vint z)]) = $"{" ++ k ++ $"=" ++ itoa z ++ $"}") /\
  (~ bare_key k -> exists q, hcl_marshal_internal (VMap 0 [(k, vint z)]) = $"{" ++ q ++ $"=" ++ itoa z ++ $"}" /\ read_literal q = Some (k, [])).
Proof.
  intros F Pk.
  assert (Eq : hcl_marshal_internal (VMap 0 [(k, vint z)]) = $"{" ++ hcl_id k ++ $"=" ++ itoa z ++ $"}").
  { assert (Fv : faithful (VMap 0 [(k, vint z)])).
    { constructor; [repeat constructor; intros []|]. repeat constructor; assumption. }
    unfold hcl_marshal_internal. rewrite marshal_fixed by (apply faithful_native; exact Fv). change (marshal_hcl false false [] [] (VMap 0 [(k, vint z)])) with (T (VMap 0 [(k, vint z)])).
    rewrite map_compact by (repeat constructor; apply faithful_clean; constructor). cbn [mkeys map fst]. change (sort_strings [k]) with [k]. cbn [map join]. unfold entry, mget0. cbn [fst snd mget].
    rewrite str_eqb_refl. rewrite <- app_assoc. reflexivity. }
  rewrite Eq. pose proof (identifier_bare k Pk) as B. unfold hcl_id. split; intro H.
  - apply B in H. rewrite H. reflexivity.
  - destruct (is_identifier k); [exfalso; apply H, B; reflexivity|]. exists (go_quote k). split; [reflexivity|]. rewrite <- (app_nil_r (go_quote k)). apply read_quote.
Qed.
Lemma hcl_single full head prefix ind m : marshal_hcl full head prefix ind (VSlice 0 [VMap 0 m]) = marshal_hcl full head prefix ind (VMap 0 m).
Proof. reflexivity. Qed.
End WithEnv.
