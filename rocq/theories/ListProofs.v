(** Proofs about lists. *)
From Coq Require Import String Ascii List ZArith NArith Bool Lia Permutation Sorted.
From Verif Require Import GoStr GoStrFacts ValueModel ValueFacts CollSpec ListModel.
Import ListNotations.

Section WithEnv.
Context {E : Env}.

Lemma Forall2_map_r {A B} (R : A -> B -> Prop) (f : A -> B) l :
  Forall (fun x => R x (f x)) l -> Forall2 R l (map f l).
Proof. induction 1; simpl; constructor; auto. Qed.

Lemma Forall2_refl_In {A} (R : A -> A -> Prop) l : Forall (fun x => R x x) l -> Forall2 R l l.
Proof. induction 1; constructor; auto. Qed.

Lemma conv_converts i v : converts i v (conv i v).
Proof.
  induction v using value_ind'; simpl.
  - apply converts_keep. constructor.
  - apply converts_keep. constructor.
  - constructor. destruct (existsb need_conv l) eqn:N.
    + apply Forall2_map_r. assumption.
    + apply Forall_need_conv in N. apply Forall2_refl_In.
      rewrite Forall_forall in *. intros x Hx. apply converts_keep. auto.
  - constructor. destruct (existsb _ m) eqn:N.
    + apply (Forall2_map_r _ (fun kv => (fst kv, conv i (snd kv)))).
      rewrite Forall_forall in *. intros x Hx. simpl. auto.
    + apply Forall_need_conv_pairs in N. apply Forall2_refl_In.
      rewrite Forall_forall in *. intros x Hx. split; auto. apply converts_keep. auto.
  - eapply converts_mapk with (kvs := map (fun kv => (sprint_scalar (fst kv), conv i (snd kv))) m).
    + apply (Forall2_map_r _ (fun kv => (sprint_scalar (fst kv), conv i (snd kv)))).
      rewrite Forall_forall in *. intros x Hx. simpl. auto.
    + apply NoDup_mset_all. constructor.
    + intros k. rewrite mget_mset_all. simpl. destruct (mget _ k); reflexivity.
  - destruct (existsb need_conv l) eqn:N.
    + apply converts_list.
      * intros F. apply Forall_need_conv in F. congruence.
      * apply Forall2_map_r. assumption.
    + apply converts_keep. constructor. apply Forall_need_conv. assumption.
  - destruct (existsb _ m) eqn:N.
    + apply converts_dict.
      * intros F. apply Forall_need_conv_pairs in F. congruence.
      * apply (Forall2_map_r _ (fun kv => (fst kv, conv i (snd kv)))).
        rewrite Forall_forall in *. intros x Hx. simpl. auto.
    + apply converts_keep. constructor. apply Forall_need_conv_pairs. assumption.
  - apply converts_keep. constructor.
Qed.

Lemma map_conv_Forall2 i l : Forall2 (converts i) l (map (conv i) l).
Proof. apply Forall2_map_r. apply Forall_forall. intros. apply conv_converts. Qed.

(** ** Append, Prepend *)

Lemma list_append_eq i l objs : list_append i l objs = map (conv i) l ++ map (conv i) objs.
Proof.
  unfold list_append, list_add. rewrite as_list_arr_map, map_app, map_map.
  f_equal. apply map_ext. intros. apply conv_idem.
Qed.

Lemma list_prepend_eq i l objs : list_prepend i l objs = map (conv i) objs ++ map (conv i) l.
Proof.
  unfold list_prepend, list_add. rewrite as_list_arr_map, map_app, map_map.
  f_equal. apply map_ext. intros. apply conv_idem.
Qed.

Lemma list_append_conv i l objs : Forall converted l -> list_append i l objs = l ++ map (conv i) objs.
Proof. intros H. rewrite list_append_eq, map_conv_converted; auto. Qed.

Lemma append_spec i l objs :
  Forall converted l ->
  exists objs', Forall2 (converts i) objs objs' /\ list_append i l objs = l ++ objs'.
Proof.
  intros H. exists (map (conv i) objs). split; [apply map_conv_Forall2|apply list_append_conv; auto].
Qed.

Lemma prepend_spec i l objs :
  Forall converted l ->
  exists objs', Forall2 (converts i) objs objs' /\ list_prepend i l objs = objs' ++ l.
Proof.
  intros H. exists (map (conv i) objs). split; [apply map_conv_Forall2|].
  rewrite list_prepend_eq, map_conv_converted with (l := l); auto.
Qed.

Lemma append_gen_spec i l objs :
  Forall2 (converts i) (l ++ objs) (list_append i l objs) /\
  Forall2 (converts i) (objs ++ l) (list_prepend i l objs).
Proof.
  rewrite list_append_eq, list_prepend_eq, <- !map_app. split; apply map_conv_Forall2.
Qed.

(** ** NewList, Clone *)

Lemma new_list_fold i items acc : Forall converted acc ->
  fold_left (fun acc x => list_append i acc [x]) items acc = acc ++ map (conv i) items.
Proof.
  revert acc; induction items as [|x items IH]; intros acc H; simpl.
  - rewrite app_nil_r. reflexivity.
  - rewrite list_append_conv by assumption. rewrite IH.
    + rewrite <- app_assoc. reflexivity.
    + apply Forall_app. split; auto. apply (Forall_map_conv i [x]).
Qed.

Definition unroll (items : list value) : list value :=
  match items with [VSlice _ l] => l | [VList _ l] => l | _ => items end.

Lemma new_list_eq i items : new_list i items = map (conv i) (unroll items).
Proof. unfold new_list. fold (unroll items). rewrite new_list_fold; auto. Qed.

Lemma clone_spec i l :
  Forall converted l ->
  (forall j l', l <> [VList j l']) -> list_clone i l = l.
Proof.
  intros H N. unfold list_clone. rewrite new_list_eq.
  assert (unroll l = l) as ->.
  { destruct l as [|v [|w l]]; auto; destruct v; auto; simpl.
    - exfalso. inversion H as [|? ? Hv Hl]; subst. inversion Hv.
    - exfalso. eapply N; reflexivity. }
  apply map_conv_converted. assumption.
Qed.

Lemma clone_singleton i j l' : Forall converted l' -> list_clone i [VList j l'] = l'.
Proof. intros H. unfold list_clone. rewrite new_list_eq. simpl. apply map_conv_converted. assumption. Qed.

(** ** Selection *)

Lemma selected_ext {A} (P Q : nat -> A -> Prop) k l r :
  (forall k x, P k x <-> Q k x) -> selected P k l r -> selected Q k l r.
Proof.
  intros H S. induction S.
  - constructor.
  - apply sel_keep; auto. apply H. assumption.
  - apply sel_drop; auto. rewrite <- H. assumption.
Qed.

Lemma selected_filter {A} (P : A -> Prop) (f : A -> bool) k l :
  (forall x, In x l -> f x = true <-> P x) -> selected (fun _ x => P x) k l (filter f l).
Proof.
  revert k; induction l as [|x l IH]; intros k H; simpl; [constructor|].
  destruct (f x) eqn:F.
  - apply sel_keep; [apply H; simpl; auto|]. apply IH. intros; apply H; simpl; auto.
  - apply sel_drop; [intros C; apply H in C; simpl; auto; congruence|]. apply IH. intros; apply H; simpl; auto.
Qed.

Lemma fold_filter i (f : value -> bool) l acc : Forall converted acc -> Forall converted l ->
  fold_left (fun target x => if f x then list_append i target [x] else target) l acc = acc ++ filter f l.
Proof.
  revert acc; induction l as [|x l IH]; intros acc Ha Hl; simpl.
  - rewrite app_nil_r. reflexivity.
  - inversion Hl; subst. destruct (f x).
    + rewrite list_append_conv by assumption. simpl. rewrite conv_of_converted by assumption.
      rewrite IH; auto.
      * rewrite <- app_assoc. reflexivity.
      * apply Forall_app. split; auto.
    + apply IH; auto.
Qed.

(** ** Contains, Find *)

Lemma zlen_pos {A} (l : list A) : (0 <? zlen l)%Z = true <-> l <> [].
Proof.
  unfold zlen. rewrite Z.ltb_lt. destruct l; simpl; split; intros; try congruence; lia.
Qed.

Lemma contains_spec source values :
  list_contains source values = true <-> source <> [] /\ forall v, In v values -> has_text source v.
Proof.
  unfold list_contains. rewrite andb_true_iff, zlen_pos, forallb_forall.
  split; intros [H1 H2]; split; auto; intros v Hv.
  - apply H1 in Hv. apply existsb_exists in Hv as (y & Hy & Ey). exists y. split; auto.
    apply str_eqb_eq. assumption.
  - apply existsb_exists. destruct (H2 v Hv) as (y & Hy & Ey). exists y. split; auto.
    apply str_eqb_eq. assumption.
Qed.

Lemma contains1 source v : list_contains source [v] = true <-> has_text source v.
Proof.
  rewrite contains_spec. split.
  - intros [_ H]. apply H. simpl. auto.
  - intros H. split.
    + destruct H as (y & Hy & _). intros ->. contradiction.
    + intros w [<-|[]]. assumption.
Qed.

Lemma find_from_spec e k l p :
  In p (find_from e k l) <-> exists n v, p = (k + Z.of_nat n)%Z /\ nth_error l n = Some v /\ sprint v = e.
Proof.
  revert k; induction l as [|x l IH]; intros k; simpl.
  - split; [tauto|]. intros (n & v & _ & H & _). destruct n; discriminate.
  - destruct (str_eqb_spec e (sprint x)) as [D|D].
    + simpl. rewrite IH. split.
      * intros [<-|(n & v & -> & H & Sv)].
        -- exists 0, x. simpl. split; [lia|]. auto.
        -- exists (S n), v. split; [lia|]. auto.
      * intros ([|n] & v & -> & H & Sv).
        -- left. lia.
        -- right. exists n, v. split; [lia|]. auto.
    + rewrite IH. split.
      * intros (n & v & -> & H & Sv). exists (S n), v. split; [lia|]. auto.
      * intros ([|n] & v & -> & H & Sv).
        -- simpl in H. injection H as <-. congruence.
        -- exists n, v. split; [lia|]. auto.
Qed.

Lemma find_from_sorted e k l : Sorted Z.lt (find_from e k l).
Proof.
  revert k; induction l as [|x l IH]; intros k; simpl; [constructor|].
  destruct (str_eqb e (sprint x)); auto. constructor; auto.
  destruct (find_from e (k + 1) l) as [|q t] eqn:F; constructor.
  assert (In q (find_from e (k + 1) l)) as I by (rewrite F; simpl; auto).
  apply find_from_spec in I as (n & v & -> & _). lia.
Qed.

Lemma find_spec l e :
  exists ps, list_find l e = map vint ps /\ Sorted Z.lt ps /\
  forall p, In p ps <-> exists n v, p = Z.of_nat n /\ nth_error l n = Some v /\ same_text v e.
Proof.
  exists (find_from (sprint e) 0 l). split; [reflexivity|]. split; [apply find_from_sorted|].
  intros p. rewrite find_from_spec. unfold same_text. reflexivity.
Qed.

(** Interface equality is defined unless both values have the same non comparable type. *)
Definition same_uncomparable_type (a b : value) : Prop :=
  match a, b with
  | VSlice t _, VSlice t' _ | VMap t _, VMap t' _ | VMapK t _, VMapK t' _ => t = t'
  | VList i _, VList j _ | VDict i _, VDict j _ => i = j
  | VOpaque t c _, VOpaque t' _ _ => t = t' /\ c = false
  | _, _ => False
  end.

Lemma impl_eqb_eq a b : impl_eqb a b = true <-> a = b.
Proof. destruct a, b; simpl; split; congruence. Qed.

Lemma iface_eq_panic a b : (exists e, iface_eq a b = Panic e) <-> same_uncomparable_type a b.
Proof.
  destruct a as [|[]| | | | | |], b as [|[]| | | | | |]; simpl;
    try (split; [intros [? H]; discriminate|tauto]).
  1-3: destruct (N.eqb_spec t t0) as [D|D]; split; intros H; eauto; try congruence;
       destruct H; discriminate.
  1-2: destruct (impl_eqb i i0) eqn:I;
       [apply impl_eqb_eq in I; split; eauto
       |split; [intros [? H]; discriminate|intros H; apply impl_eqb_eq in H; congruence]].
  destruct (N.eqb_spec ty ty0) as [D|D]; destruct cmp; split; intros H; eauto; try tauto;
    try (destruct H; discriminate); destruct H; congruence.
Qed.

Lemma iface_eq_not_err a b e : iface_eq a b <> Err e.
Proof.
  destruct a as [|[]| | | | | |], b as [|[]| | | | | |]; simpl; try discriminate;
    try (destruct (N.eqb _ _); try discriminate; destruct cmp; discriminate);
    try (destruct (impl_eqb _ _); discriminate).
Qed.

(** Strict matching, when no comparison panics. *)
Lemma strict_match_spec v source :
  (forall x, In x source -> ~ same_uncomparable_type v x) ->
  exists b, strict_match v source = Ok b /\ (b = true <-> exists x, In x source /\ iface_eq v x = Ok true).
Proof.
  induction source as [|x r IH]; intros H; simpl.
  - exists false. split; auto. split; [discriminate|]. intros (x & [] & _).
  - assert (Hx := H x (or_introl eq_refl)).
    destruct (iface_eq v x) as [b| |] eqn:Q.
    + simpl. destruct b.
      * exists true. split; auto. split; auto. intros _. exists x. auto.
      * destruct IH as (b & -> & B); [intros; apply H; simpl; auto|].
        exists b. split; auto. rewrite B. split; intros (y & Hy & Q').
        -- exists y. auto.
        -- destruct Hy as [<-|Hy]; [congruence|]. exists y. auto.
    + exfalso. eapply iface_eq_not_err; eauto.
    + exfalso. apply Hx, iface_eq_panic. eauto.
Qed.

Lemma contains_strict_spec source values :
  (forall v x, In v values -> In x source -> ~ same_uncomparable_type v x) ->
  exists b, list_contains_strict source values = Ok b /\
  (b = true <-> source <> [] /\ forall v, In v values -> exists x, In x source /\ iface_eq v x = Ok true).
Proof.
  induction values as [|v r IH]; intros H; simpl.
  - exists (0 <? zlen source)%Z. split; auto. rewrite zlen_pos. tauto.
  - destruct (strict_match_spec v source) as (b & -> & B); [intros; apply H; simpl; auto|].
    simpl. destruct b.
    + destruct IH as (c & -> & C); [intros; apply H; simpl; auto|].
      exists c. split; auto. rewrite C. split.
      * intros [N F]. split; auto. intros w [<-|Hw]; auto. apply B. reflexivity.
      * intros [N F]. split; auto.
    + exists false. split; auto. split; [discriminate|]. intros [N F].
      assert (false = true) by (apply B; apply F; auto). discriminate.
Qed.

Lemma find_strict_from_spec e k l :
  (forall x, In x l -> ~ same_uncomparable_type e x) ->
  exists ps, find_strict_from e k l = Ok ps /\ Sorted Z.lt ps /\
  (forall p, In p ps <-> exists n v, p = (k + Z.of_nat n)%Z /\ nth_error l n = Some v /\ iface_eq e v = Ok true).
Proof.
  revert k; induction l as [|x r IH]; intros k H; simpl.
  - exists []. split; auto. split; [constructor|]. intros p. split; [intros []|].
    intros (n & v & _ & N & _). destruct n; discriminate.
  - assert (Hx := H x (or_introl eq_refl)).
    destruct (IH (k + 1)%Z) as (ps & -> & So & P); [intros; apply H; simpl; auto|].
    destruct (iface_eq e x) as [b| |] eqn:Q.
    + simpl. exists (if b then k :: ps else ps). split; auto.
      assert (LB : forall q, In q ps -> (k < q)%Z).
      { intros q I. apply P in I as (n & v & -> & _). lia. }
      split.
      * destruct b; auto. constructor; auto. destruct ps; constructor. apply LB. simpl; auto.
      * intros p. destruct b; simpl; rewrite P; split.
        -- intros [<-|(n & v & -> & N & I)]; [exists 0, x|exists (S n), v]; split; auto; lia.
        -- intros ([|n] & v & -> & N & I); [left; lia|right; exists n, v; split; auto; lia].
        -- intros (n & v & -> & N & I). exists (S n), v. split; auto. lia.
        -- intros ([|n] & v & -> & N & I); [simpl in N; congruence|exists n, v; split; auto; lia].
    + exfalso. eapply iface_eq_not_err; eauto.
    + exfalso. apply Hx, iface_eq_panic. eauto.
Qed.

Lemma find_strict_spec l e :
  (forall x, In x l -> ~ same_uncomparable_type e x) ->
  exists ps, list_find_strict l e = Ok (map vint ps) /\ Sorted Z.lt ps /\
  forall p, In p ps <-> exists n v, p = Z.of_nat n /\ nth_error l n = Some v /\ iface_eq e v = Ok true.
Proof.
  intros H. destruct (find_strict_from_spec e 0 l H) as (ps & Q & S & P).
  exists ps. unfold list_find_strict. rewrite Q. split; auto.
Qed.

(** ** Get, Set *)

Lemma get_index_spec l k : at_position l k (get_index l k).
Proof.
  unfold at_position, get_index, designates, zlen.
  destruct (Z.ltb_spec k 0) as [K|K].
  - destruct (Z.ltb_spec (k + Z.of_nat (length l)) 0) as [B|B]; simpl.
    + right. split; auto. intros p [[?|[? ?]] ?]; lia.
    + destruct (Z.geb_spec (k + Z.of_nat (length l)) (Z.of_nat (length l))) as [C|C]; [lia|].
      left. exists (Z.to_nat (k + Z.of_nat (length l))). split; [lia|].
      apply nth_error_nth'. lia.
  - destruct (Z.ltb_spec k 0) as [B|B]; [lia|]. simpl.
    destruct (Z.geb_spec k (Z.of_nat (length l))) as [C|C].
    + right. split; auto. intros p [[?|[? ?]] ?]; lia.
    + left. exists (Z.to_nat k). split; [lia|]. apply nth_error_nth'. lia.
Qed.

Lemma designates_fun n k p q : designates n k p -> designates n k q -> p = q.
Proof. unfold designates. lia. Qed.

Lemma at_position_fun l k v w : at_position l k v -> at_position l k w -> v = w.
Proof.
  intros [(p & D & N)|[D ->]] [(q & D' & N')|[D' ->]]; auto.
  - rewrite (designates_fun _ _ _ _ D D') in N. congruence.
  - exfalso. eapply D'; eauto.
  - exfalso. eapply D; eauto.
Qed.

Lemma list_get1_spec i l k v : list_get i l [k] = v <-> at_position l k v.
Proof.
  simpl. split.
  - intros <-. apply get_index_spec.
  - intros H. eapply at_position_fun; eauto. apply get_index_spec.
Qed.

Lemma list_get_many_spec i l k1 k2 ks :
  Forall converted l ->
  exists vs, list_get i l (k1 :: k2 :: ks) = VList i vs /\ Forall2 (at_position l) (k1 :: k2 :: ks) vs.
Proof.
  intros C. exists (map (get_index l) (k1 :: k2 :: ks)). split.
  - unfold list_get. f_equal. apply map_ext. intros k. apply conv_of_converted.
    destruct (get_index_spec l k) as [(p & _ & N)|[_ ->]]; [|constructor].
    apply nth_error_In in N. rewrite Forall_forall in C. auto.
  - apply Forall2_map_r. apply Forall_forall. intros. apply get_index_spec.
Qed.

Lemma list_first_last i l :
  (l = [] -> list_first i l = VNil /\ list_last i l = VNil) /\
  (forall x r, l = x :: r -> list_first i l = x) /\
  (forall x r, l = r ++ [x] -> list_last i l = x).
Proof.
  split; [|split].
  - intros ->. auto.
  - intros x r ->. reflexivity.
  - intros x r ->. unfold list_last. apply list_get1_spec. left.
    exists (length r). unfold designates, zlen. rewrite app_length. simpl. split; [lia|].
    rewrite nth_error_app2, Nat.sub_diag; auto.
Qed.

Lemma pad_eq i n l : Forall converted l ->
  Nat.iter n (fun l => list_add i l false [VNil]) l = l ++ repeat VNil n.
Proof.
  intros C. induction n as [|n IH]; simpl.
  - rewrite app_nil_r. reflexivity.
  - rewrite IH. change (list_add i ?x false [VNil]) with (list_append i x [VNil]).
    rewrite list_append_conv.
    + simpl. rewrite <- app_assoc. f_equal. rewrite <- repeat_cons. reflexivity.
    + apply Forall_app. split; auto. apply Forall_forall. intros x Hx. apply repeat_spec in Hx. subst. constructor.
Qed.

Lemma upd_length {A} (l : list A) n v : length (upd l n v) = length l.
Proof. revert n; induction l; intros [|n]; simpl; auto. Qed.

Lemma upd_nth_eq {A} (l : list A) n v : n < length l -> nth_error (upd l n v) n = Some v.
Proof. revert n; induction l; intros [|n] H; simpl in *; auto; try lia. apply IHl. lia. Qed.

Lemma upd_nth_ne {A} (l : list A) n m v : n <> m -> nth_error (upd l n v) m = nth_error l m.
Proof. revert n m; induction l; intros [|n] [|m] H; simpl in *; auto; try lia. Qed.

Lemma set_spec i l k v :
  Forall converted l -> (0 <= k)%Z ->
  exists l' v', list_set i l k v = Ok l' /\ converts i v v' /\
    length l' = Nat.max (length l) (Z.to_nat k + 1) /\
    nth_error l' (Z.to_nat k) = Some v' /\
    (forall p, p < length l -> p <> Z.to_nat k -> nth_error l' p = nth_error l p) /\
    (forall p, length l <= p < Z.to_nat k -> nth_error l' p = Some VNil).
Proof.
  intros C K. unfold list_set. destruct (Z.ltb_spec k 0); [lia|].
  rewrite pad_eq by assumption.
  set (n := Z.to_nat (k + 1 - zlen l)).
  assert (Hn : length (l ++ repeat VNil n) = Nat.max (length l) (Z.to_nat k + 1)).
  { rewrite app_length, repeat_length. unfold n, zlen. lia. }
  eexists _, (conv i v). split; [reflexivity|]. split; [apply conv_converts|].
  split; [rewrite upd_length; assumption|].
  split; [apply upd_nth_eq; lia|]. split.
  - intros p Hp Np. rewrite upd_nth_ne by lia. apply nth_error_app1. assumption.
  - intros p Hp. rewrite upd_nth_ne by lia. rewrite nth_error_app2 by lia.
    rewrite nth_error_nth' with (d := VNil).
    + rewrite nth_repeat. reflexivity.
    + rewrite repeat_length. unfold n, zlen. lia.
Qed.

Lemma set_negative i l k v : (k < 0)%Z -> exists e, list_set i l k v = Err e.
Proof.
  intros K. unfold list_set. destruct (Z.ltb_spec k 0); [|lia]. eauto.
Qed.

(** ** Unique, Union, Intersect, Without *)

Definition uniq_step i := fun target x => if negb (list_contains target [x]) then list_append i target [x] else target.

Lemma has_text_app l l' x : has_text (l ++ l') x <-> has_text l x \/ has_text l' x.
Proof.
  unfold has_text. split.
  - intros (y & H & T). apply in_app_or in H as [H|H]; eauto.
  - intros [(y & H & T)|(y & H & T)]; exists y; split; auto; apply in_or_app; auto.
Qed.

(** [r] is the list of first occurrences of l with respect to the texts already in [acc]. *)
Inductive firsts : list value -> list value -> list value -> Prop :=
| firsts_nil acc : firsts acc [] []
| firsts_new acc x l r : ~ has_text acc x -> firsts (acc ++ [x]) l r -> firsts acc (x :: l) (x :: r)
| firsts_dup acc x l r : has_text acc x -> firsts acc l r -> firsts acc (x :: l) r.

Lemma unique_fold i l acc : Forall converted acc -> Forall converted l ->
  exists r, fold_left (uniq_step i) l acc = acc ++ r /\ firsts acc l r.
Proof.
  revert acc; induction l as [|x l IH]; intros acc Ca Cl; simpl.
  - exists []. rewrite app_nil_r. split; auto. constructor.
  - inversion Cl; subst. unfold uniq_step at 2. destruct (list_contains acc [x]) eqn:K; simpl.
    + destruct (IH acc) as (r & Q & F); auto. exists r. split; auto.
      apply firsts_dup; auto. apply contains1. assumption.
    + rewrite list_append_conv by assumption. simpl. rewrite conv_of_converted by assumption.
      destruct (IH (acc ++ [x])) as (r & Q & F); auto.
      { apply Forall_app. auto. }
      exists (x :: r). rewrite Q, <- app_assoc. split; auto.
      apply firsts_new; auto. intros T. apply contains1 in T. congruence.
Qed.

Lemma unique_firsts i l : Forall converted l -> firsts [] l (list_unique i l).
Proof.
  intros C. destruct (unique_fold i l []) as (r & Q & F); auto.
  unfold list_unique. change (fold_left (uniq_step i) l [] = [] ++ r) in Q.
  unfold uniq_step in Q. rewrite Q. assumption.
Qed.

Lemma firsts_incl acc l r : firsts acc l r -> incl r l.
Proof.
  induction 1; intros y Hy; simpl in *; [contradiction|destruct Hy as [Hy|Hy]; [left; assumption|]|]; right; apply IHfirsts; assumption.
Qed.

Lemma firsts_complete acc l r : firsts acc l r -> forall x, In x l -> has_text acc x \/ has_text r x.
Proof.
  induction 1; intros y Hy; simpl in *.
  - contradiction.
  - destruct Hy as [<-|Hy].
    + right. exists x. split; simpl; auto. reflexivity.
    + apply IHfirsts in Hy as [Hy|Hy].
      * apply has_text_app in Hy as [Hy|Hy]; auto. right.
        destruct Hy as (z & [<-|[]] & T). exists x. simpl. auto.
      * right. destruct Hy as (z & Hz & T). exists z. simpl. auto.
  - destruct Hy as [<-|Hy]; auto.
Qed.

Lemma firsts_fresh acc l r : firsts acc l r -> forall x, In x r -> ~ has_text acc x.
Proof.
  induction 1; intros y Hy; simpl in *; auto.
  destruct Hy as [<-|Hy]; auto. intros T. eapply IHfirsts; eauto. apply has_text_app. auto.
Qed.

Lemma firsts_nodup acc l r : firsts acc l r -> NoDup (map sprint r).
Proof.
  induction 1; simpl; auto; [constructor|]. constructor; auto.
  intros I. apply in_map_iff in I as (y & S & Hy).
  eapply firsts_fresh; eauto. apply has_text_app. right. exists x. split; simpl; auto.
Qed.

Lemma firsts_first acc l r : firsts acc l r -> forall y, In y r ->
  exists l1 l2, l = l1 ++ y :: l2 /\ ~ has_text (acc ++ l1) y.
Proof.
  induction 1; intros y Hy; simpl in *; [contradiction| |].
  - destruct Hy as [<-|Hy].
    + exists [], l. rewrite app_nil_r. auto.
    + destruct (IHfirsts y Hy) as (l1 & l2 & -> & T). exists (x :: l1), l2. split; auto.
      rewrite <- app_assoc in T. assumption.
  - destruct (IHfirsts y Hy) as (l1 & l2 & -> & T). exists (x :: l1), l2. split; auto.
    intros G. apply T. apply has_text_app. apply has_text_app in G as [G|G]; auto.
    destruct G as (z & [<-|Hz] & S).
    + left. destruct H as (w & Hw & S'). exists w. split; auto. unfold same_text in *. congruence.
    + right. exists z. auto.
Qed.

Inductive subseq {A} : list A -> list A -> Prop :=
| subseq_nil : subseq [] []
| subseq_keep x l r : subseq r l -> subseq (x :: r) (x :: l)
| subseq_drop x l r : subseq r l -> subseq r (x :: l).

Lemma firsts_subseq acc l r : firsts acc l r -> subseq r l.
Proof. induction 1; constructor; auto. Qed.

Lemma subseq_incl {A} (r l : list A) : subseq r l -> incl r l.
Proof. induction 1; intros y Hy; simpl in *; auto; destruct Hy; auto. Qed.

Lemma firsts_id acc l : NoDup (map sprint l) -> (forall x, In x l -> ~ has_text acc x) ->
  forall r, firsts acc l r -> r = l.
Proof.
  revert acc; induction l as [|x l IH]; intros acc N D r F; inversion F; subst; auto.
  - f_equal. inversion N; subst. apply IH with (acc := acc ++ [x]); auto.
    intros y Hy T. apply has_text_app in T as [T|(z & [<-|[]] & S)].
    + eapply D; simpl; eauto.
    + apply H1. unfold same_text in S. rewrite <- S. apply in_map. assumption.
  - exfalso. eapply D; simpl; eauto.
Qed.

Lemma unique_converted i l : Forall converted l -> Forall converted (list_unique i l).
Proof.
  intros C. apply unique_firsts with (i := i) in C as F.
  apply Forall_forall. intros x Hx. rewrite Forall_forall in C. apply C.
  eapply firsts_incl; eauto.
Qed.

Lemma unique_spec i l : Forall converted l ->
  let u := list_unique i l in
  subseq u l /\ NoDup (map sprint u) /\ (forall x, In x l -> has_text u x) /\
  (forall y, In y u -> exists l1 l2, l = l1 ++ y :: l2 /\ ~ has_text l1 y) /\
  list_unique i u = u.
Proof.
  intros C u. assert (F : firsts [] l u) by (apply unique_firsts; assumption).
  split; [eapply firsts_subseq; eauto|].
  split; [eapply firsts_nodup; eauto|].
  split. { intros x Hx. destruct (firsts_complete _ _ _ F x Hx) as [(y & [] & _)|H]; auto. }
  split. { intros y Hy. apply (firsts_first _ _ _ F y Hy). }
  apply firsts_id with (acc := []).
  - eapply firsts_nodup; eauto.
  - intros x _ (y & [] & _).
  - apply unique_firsts. apply unique_converted. assumption.
Qed.

Lemma has_text_same l x y : same_text x y -> has_text l x -> has_text l y.
Proof. unfold has_text, same_text. intros S (z & Hz & T). exists z. split; auto. congruence. Qed.

Lemma unique_has_text i l x : Forall converted l -> has_text (list_unique i l) x <-> has_text l x.
Proof.
  intros C. destruct (unique_spec i l C) as (S & _ & K & _).
  split; intros (y & Hy & T).
  - exists y. split; auto. eapply subseq_incl; eauto.
  - apply K in Hy. eapply has_text_same; [|exact Hy]. unfold same_text in *. congruence.
Qed.

Lemma union_spec i l values : Forall converted l -> Forall converted values ->
  let u := list_union i l values in
  subseq u (l ++ values) /\ NoDup (map sprint u) /\
  (forall x, has_text u x <-> has_text l x \/ has_text values x).
Proof.
  intros Cl Cv u. unfold u, list_union. change (list_add i l false values) with (list_append i l values).
  rewrite list_append_conv by assumption. rewrite map_conv_converted by assumption.
  assert (C : Forall converted (l ++ values)) by (apply Forall_app; auto).
  destruct (unique_spec i _ C) as (S & N & _). split; auto. split; auto.
  intros x. rewrite unique_has_text by assumption. apply has_text_app.
Qed.

Lemma intersect_spec i l values : Forall converted l -> Forall converted values ->
  let u := list_intersect i l values in
  subseq u l /\ NoDup (map sprint u) /\
  (forall x, has_text u x <-> has_text l x /\ has_text values x) /\
  kept (has_text values) (list_unique i l) u.
Proof.
  intros Cl Cv u. unfold u, list_intersect.
  rewrite as_list_arr_id by assumption.
  rewrite fold_filter by (auto; apply unique_converted; assumption). simpl.
  destruct (unique_spec i l Cl) as (S & N & K & _).
  set (q := list_unique i l) in *.
  assert (Sf : forall f, subseq (filter f q) q).
  { intros f. clear. induction q; simpl; [constructor|]. destruct (f a); constructor; auto. }
  assert (T : forall f, subseq (filter f q) l).
  { intros f. specialize (Sf f). clear -S Sf. revert S. generalize (filter f q) Sf. clear.
    intros r Sf S. revert r Sf. induction S; intros r0 Sf.
    - assumption.
    - inversion Sf; subst; constructor; auto.
    - constructor. auto. }
  split; [apply T|]. split.
  - clear -N. induction q; simpl in *; [constructor|]. inversion N; subst.
    destruct (list_contains values [a]); simpl; auto. constructor; auto.
    intros I. apply H1. apply in_map_iff in I as (y & <- & Hy). apply filter_In in Hy as [Hy _].
    apply in_map. assumption.
  - split.
    + intros x. split.
      * intros (y & Hy & Sx). apply filter_In in Hy as [Hy Cy]. apply contains1 in Cy.
        split.
        -- apply (unique_has_text i); auto. exists y. auto.
        -- eapply has_text_same; [|exact Cy]. unfold same_text in *. congruence.
      * intros [Hl Hv]. apply (unique_has_text i) in Hl as (y & Hy & Sx); auto.
        exists y. split; auto. apply filter_In. split; auto. apply contains1.
        eapply has_text_same; eauto.
    + apply selected_filter. intros x _. apply contains1.
Qed.

Lemma without_spec i l values : Forall converted l -> Forall converted values ->
  kept (fun x => ~ has_text values x) l (list_without i l values).
Proof.
  intros Cl Cv. unfold list_without. rewrite as_list_arr_id by assumption.
  rewrite fold_filter with (f := fun x => negb (list_contains values [x])) by auto. simpl.
  apply selected_filter. intros x _. rewrite <- contains1.
  destruct (list_contains values [x]); simpl; split; congruence.
Qed.

(** ** Remove, Pop *)

Lemma positions_nth {A} (l : list A) k : positions (Z.of_nat k) l = map Z.of_nat (seq k (length l)).
Proof.
  revert k; induction l as [|x l IH]; intros k; simpl; auto.
  f_equal. replace (Z.of_nat k + 1)%Z with (Z.of_nat (S k)) by lia. apply IH.
Qed.

Lemma vint_converted l : Forall converted (map vint l).
Proof. apply Forall_forall. intros x Hx. apply in_map_iff in Hx as (z & <- & _). constructor. Qed.

Lemma discard_spec n indexes p :
  list_contains (as_list_arr dflt (map vint (remove_indexes (Z.of_nat n) indexes))) [vint (Z.of_nat p)] = true
  <-> exists k, In k indexes /\ (if (k <? 0)%Z then k + Z.of_nat n else k)%Z = Z.of_nat p.
Proof.
  rewrite as_list_arr_id by apply vint_converted. rewrite contains1. unfold has_text, same_text.
  split.
  - intros (y & Hy & S). apply in_map_iff in Hy as (z & <- & Hz).
    unfold remove_indexes in Hz. apply in_map_iff in Hz as (k & <- & Hk).
    exists k. split; auto. simpl in S. apply itoa_inj in S. congruence.
  - intros (k & Hk & S). exists (vint (Z.of_nat p)). split; auto.
    apply in_map. unfold remove_indexes. apply in_map_iff. exists k. auto.
Qed.

Lemma remove_fold i l indexes pre suf acc : l = pre ++ suf -> Forall converted l -> Forall converted acc ->
  exists r, fold_left (fun target k =>
      if negb (list_contains (as_list_arr dflt (map vint (remove_indexes (zlen l) indexes))) [vint k])
      then list_append i target [get_index l k] else target)
    (positions (Z.of_nat (length pre)) suf) acc = acc ++ r
  /\ selected (fun p _ => ~ exists k, In k indexes /\ designates (length l) k p) (length pre) suf r.
Proof.
  intros L C. revert pre acc L. induction suf as [|x suf IH]; intros pre acc L Ca; simpl.
  - exists []. rewrite app_nil_r. split; auto. constructor.
  - assert (Hget : get_index l (Z.of_nat (length pre)) = x).
    { apply (proj2 (list_get1_spec Base l _ x)). left. exists (length pre). subst l. unfold designates.
      rewrite app_length. simpl. split; [lia|]. rewrite nth_error_app2, Nat.sub_diag; auto. }
    assert (Cx : converted x). { subst l. apply Forall_app in C as [_ C]. inversion C; auto. }
    assert (Hlen : length pre < length l). { subst l. rewrite app_length. simpl. lia. }
    replace (Z.of_nat (length pre) + 1)%Z with (Z.of_nat (length (pre ++ [x]))) by (rewrite app_length; simpl; lia).
    assert (L' : l = (pre ++ [x]) ++ suf) by (rewrite <- app_assoc; assumption).
    unfold zlen at 2.
    destruct (list_contains _ [vint (Z.of_nat (length pre))]) eqn:D; simpl.
    + destruct (IH (pre ++ [x]) acc L' Ca) as (r & Q & Sl). exists r. split; [exact Q|].
      apply sel_drop.
      * intros N. apply N. apply discard_spec in D as (k & Hk & D). exists k. split; auto.
        unfold designates. destruct (Z.ltb_spec k 0); lia.
      * rewrite app_length in Sl. simpl in Sl. replace (length pre + 1) with (S (length pre)) in Sl by lia. assumption.
    + rewrite Hget. rewrite list_append_conv by assumption. simpl. rewrite conv_of_converted by assumption.
      destruct (IH (pre ++ [x]) (acc ++ [x]) L') as (r & Q & Sl).
      { apply Forall_app. auto. }
      exists (x :: r). rewrite <- app_assoc in Q. simpl in Q. split; [exact Q|].
      apply sel_keep.
      * intros (k & Hk & Dk). unfold designates in Dk.
        assert (list_contains (as_list_arr dflt (map vint (remove_indexes (Z.of_nat (length l)) indexes))) [vint (Z.of_nat (length pre))] = true).
        { apply discard_spec. exists k. split; auto. destruct (Z.ltb_spec k 0); lia. }
        congruence.
      * rewrite app_length in Sl. simpl in Sl. replace (length pre + 1) with (S (length pre)) in Sl by lia. assumption.
Qed.

Lemma remove_spec i l indexes : Forall converted l ->
  selected (fun p _ => ~ exists k, In k indexes /\ designates (length l) k p) 0 l (list_remove i l indexes).
Proof.
  intros C. destruct (remove_fold i l indexes [] l [] eq_refl C) as (r & Q & Sl); [constructor|].
  unfold list_remove. simpl in Q. simpl. rewrite Q. assumption.
Qed.

(** ** Reverse *)

Lemma reverse_fold i l : forall pre target k,
  length target = length (pre ++ l) -> k = length pre ->
  (forall q, q < k -> nth_error target (length target - q - 1) = nth_error (map (conv i) pre) q) ->
  forall q, q < length target ->
    nth_error (fst (fold_left (fun '(target, k) x => (upd target (length target - k - 1) (conv i x), S k)) l (target, k)))
              (length target - q - 1) = nth_error (map (conv i) (pre ++ l)) q.
Proof.
  induction l as [|x l IH]; intros pre target k L K H q Hq; simpl.
  - rewrite app_nil_r in *. apply H. lia.
  - rewrite app_length in L. simpl in L.
    specialize (IH (pre ++ [x]) (upd target (length target - k - 1) (conv i x)) (S k)).
    rewrite upd_length in IH. rewrite <- app_assoc in IH. simpl in IH. apply IH; auto.
    + rewrite app_length. simpl. lia.
    + rewrite app_length. simpl. lia.
    + intros p Hp. rewrite map_app. simpl.
      destruct (Nat.eq_dec p k) as [->|N].
      * rewrite upd_nth_eq by lia. rewrite nth_error_app2 by (rewrite map_length; lia).
        rewrite map_length, K, Nat.sub_diag. reflexivity.
      * rewrite upd_nth_ne by lia. rewrite H by lia.
        rewrite nth_error_app1 by (rewrite map_length; lia). reflexivity.
Qed.

Lemma reverse_length_fold i l : forall target k,
  length (fst (fold_left (fun '(target, k) x => (upd target (length target - k - 1) (conv i x), S k)) l (target, k))) = length target.
Proof. induction l; intros; simpl; auto. rewrite IHl. apply upd_length. Qed.

Lemma nth_error_ext {A} (l l' : list A) : (forall n, nth_error l n = nth_error l' n) -> l = l'.
Proof.
  revert l'; induction l as [|x l IH]; intros [|y l'] H; auto.
  - specialize (H 0). discriminate.
  - specialize (H 0). discriminate.
  - f_equal; [specialize (H 0); simpl in H; congruence|]. apply IH. intros n. apply (H (S n)).
Qed.

Lemma nth_error_rev {A} (l : list A) n : n < length l -> nth_error (rev l) n = nth_error l (length l - n - 1).
Proof.
  revert n; induction l as [|x l IH]; intros n H; cbn [rev length] in *; [lia|].
  destruct (Nat.eq_dec n (length l)) as [->|N].
  - rewrite nth_error_app2 by (rewrite rev_length; lia). rewrite rev_length, Nat.sub_diag.
    replace (S (length l) - length l - 1) with 0 by lia. reflexivity.
  - rewrite nth_error_app1 by (rewrite rev_length; lia). rewrite IH by lia.
    replace (S (length l) - n - 1) with (S (length l - n - 1)) by lia. reflexivity.
Qed.

Lemma reverse_eq i l : list_reverse i l = rev (map (conv i) l).
Proof.
  apply nth_error_ext. intros n. unfold list_reverse.
  set (t := repeat VNil (length l)).
  assert (Lt : length t = length l) by apply repeat_length.
  destruct (Nat.lt_ge_cases n (length l)) as [H|H].
  - rewrite nth_error_rev by (rewrite map_length; assumption). rewrite map_length.
    pose proof (reverse_fold i l [] t 0 Lt eq_refl) as R.
    specialize (R ltac:(intros; lia) (length l - n - 1) ltac:(lia)).
    replace (length t - (length l - n - 1) - 1) with n in R by lia. exact R.
  - rewrite (proj2 (nth_error_None _ _)), (proj2 (nth_error_None _ _)); auto.
    + rewrite rev_length, map_length. assumption.
    + rewrite reverse_length_fold. lia.
Qed.

(** ** RemoveEmpty, RemoveNil *)

Definition empty_item (v : value) : Prop :=
  v = VNil \/ (exists i, v = VList i []) \/ ((forall i l, v <> VList i l) /\ sprint v = []).

Lemma is_empty_item_spec v : is_empty_item v = true <-> empty_item v.
Proof.
  unfold empty_item.
  assert (G : v <> VNil -> (forall i l, v <> VList i l) ->
              str_eqb (sprint v) [] = true <->
              v = VNil \/ (exists i, v = VList i []) \/ ((forall i l, v <> VList i l) /\ sprint v = [])).
  { intros N L. rewrite str_eqb_eq. split; [tauto|].
    intros [?|[[? ?]|[? ?]]]; auto; exfalso; [congruence|eapply L; eauto]. }
  destruct v; try (apply G; discriminate).
  - simpl. split; auto.
  - simpl. unfold zlen. rewrite Z.eqb_eq. split.
    + intros H. right. left. exists i. destruct l; auto. simpl in H. lia.
    + intros [?|[[j H]|[H _]]]; try discriminate.
      * injection H as -> ->. reflexivity.
      * exfalso. eapply H. reflexivity.
Qed.

Lemma remove_empty_spec i l : Forall converted l ->
  kept (fun x => ~ empty_item x) l (list_remove_empty i l).
Proof.
  intros C. unfold list_remove_empty. rewrite fold_filter with (f := fun x => negb (is_empty_item x)) by auto. simpl.
  apply selected_filter. intros x _. rewrite <- is_empty_item_spec.
  destruct (is_empty_item x); simpl; split; congruence.
Qed.

Lemma remove_nil_spec i l : Forall converted l ->
  kept (fun x => x <> VNil) l (list_remove_nil i l).
Proof.
  intros C. unfold list_remove_nil. rewrite fold_filter with (f := fun x => negb (is_nil x)) by auto. simpl.
  apply selected_filter. intros x _. destruct x; simpl; split; congruence.
Qed.

Lemma remove_empty_filter i l : Forall converted l ->
  list_remove_empty i l = filter (fun x => negb (is_empty_item x)) l.
Proof. intros. unfold list_remove_empty. rewrite fold_filter with (f := fun x => negb (is_empty_item x)); auto. Qed.

Lemma remove_nil_filter i l : Forall converted l ->
  list_remove_nil i l = filter (fun x => negb (is_nil x)) l.
Proof. intros. unfold list_remove_nil. rewrite fold_filter with (f := fun x => negb (is_nil x)); auto. Qed.

Lemma Forall_filter {A} (P : A -> Prop) f l : Forall P l -> Forall P (filter f l).
Proof. induction 1; simpl; auto. destruct (f x); auto. Qed.

Lemma filter_idem {A} (f : A -> bool) l : filter f (filter f l) = filter f l.
Proof. induction l; simpl; auto. destruct (f a) eqn:F; simpl; rewrite ?F; congruence. Qed.

Lemma remove_empty_idem i l : Forall converted l ->
  list_remove_empty i (list_remove_empty i l) = list_remove_empty i l.
Proof.
  intros C. rewrite (remove_empty_filter i l) by assumption.
  rewrite remove_empty_filter by (apply Forall_filter; assumption). apply filter_idem.
Qed.

Lemma remove_nil_idem i l : Forall converted l ->
  list_remove_nil i (list_remove_nil i l) = list_remove_nil i l.
Proof.
  intros C. rewrite (remove_nil_filter i l) by assumption.
  rewrite remove_nil_filter by (apply Forall_filter; assumption). apply filter_idem.
Qed.

(** ** MergeLists *)

Lemma merge_lists_fold i ls acc : Forall converted acc -> Forall (fun x => Forall converted (snd x)) ls ->
  fold_left (fun acc (x : impl * list value) => list_append i acc (snd x)) ls acc = acc ++ concat (map snd ls).
Proof.
  intros Ca F. revert acc Ca. induction F as [|[j l] ls Hl F IH]; intros acc Ca; simpl.
  - rewrite app_nil_r. reflexivity.
  - rewrite list_append_conv by assumption. simpl in Hl. rewrite map_conv_converted by assumption.
    rewrite IH by (apply Forall_app; auto). rewrite <- app_assoc. reflexivity.
Qed.

Lemma merge_lists_spec i l ls : Forall (fun x => Forall converted (snd x)) ((i, l) :: ls) ->
  merge_lists ((i, l) :: ls) = Some (i, concat (map snd ((i, l) :: ls))).
Proof.
  intros F. destruct ls as [|x ls].
  - simpl. rewrite app_nil_r. reflexivity.
  - unfold merge_lists. rewrite merge_lists_fold; auto.
Qed.

End WithEnv.

Lemma pop_spec : forall (E : Env) i l indexes, Forall converted l ->
  let indexes' := match indexes with [] => [Z.of_nat (length l) - 1]%Z | _ => indexes end in
  (forall k, indexes' = [k] -> at_position l k (fst (list_pop i l indexes))) /\
  (length indexes' > 1 ->
     exists vs, fst (list_pop i l indexes) = VList i vs /\ Forall2 (at_position l) indexes' vs) /\
  selected (fun p _ => ~ exists k, In k indexes' /\ designates (length l) k p) 0 l
           (snd (list_pop i l indexes)).
Proof.
  intros E i l indexes C indexes'. unfold list_pop. fold indexes'.
  replace (match indexes with [] => [zlen l - 1]%Z | _ => indexes end) with indexes' by reflexivity.
  cbn [fst snd]. split; [|split].
  - intros k ->. apply list_get1_spec with (i := i). reflexivity.
  - intros L. destruct indexes' as [|k1 [|k2 ks]]; simpl in L; try lia.
    apply list_get_many_spec. assumption.
  - apply remove_spec. assumption.
Qed.

Lemma reverse_spec : forall (E : Env) i l,
  Forall2 (converts i) l (rev (list_reverse i l)) /\ length (list_reverse i l) = length l /\
  (Forall converted l -> list_reverse i (list_reverse i l) = l).
Proof.
  intros E i l. rewrite !reverse_eq. rewrite rev_involutive. split; [apply map_conv_Forall2|].
  split; [rewrite rev_length, map_length; reflexivity|].
  intros C. rewrite (map_conv_converted i l) by assumption.
  rewrite map_conv_converted by (apply Forall_rev; assumption). apply rev_involutive.
Qed.

Lemma remove_idem : forall (E : Env) i l, Forall converted l ->
  list_remove_empty i (list_remove_empty i l) = list_remove_empty i l /\
  list_remove_nil i (list_remove_nil i l) = list_remove_nil i l.
Proof. intros E i l C. split; [apply remove_empty_idem|apply remove_nil_idem]; assumption. Qed.

Lemma list_ops_converted : forall (E : Env) i l objs k v l',
  Forall converted (list_append i l objs) /\ Forall converted (list_prepend i l objs) /\
  Forall converted (new_list i l) /\
  (Forall converted l -> list_set i l k v = Ok l' -> Forall converted l').
Proof.
  intros E i l objs k v l'. rewrite list_append_eq, list_prepend_eq, new_list_eq, <- !map_app.
  repeat split; try apply Forall_map_conv.
  intros C H. unfold list_set in H. destruct (Z.ltb k 0); [discriminate|].
  rewrite pad_eq in H by assumption. injection H as <-.
  assert (G : forall (l : list value) n v, Forall converted l -> converted v -> Forall converted (upd l n v)).
  { clear. intros l n v F Cv. revert n. induction F; intros [|n]; simpl; auto. }
  apply G; [|apply conv_converted]. apply Forall_app. split; auto.
  apply Forall_forall. intros x Hx. apply repeat_spec in Hx. subst. constructor.
Qed.
