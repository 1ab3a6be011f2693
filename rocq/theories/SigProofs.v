(** Lemmas on the signatures and the categories of functions. *)
From Coq Require Import String Ascii List ZArith NArith Bool PeanoNat Sorted Permutation Lia.
From Verif Require Import GoStr GoStrFacts ValueModel FuncsModel HelpSpec HelpProofs SigModel SigSpec.
Import ListNotations.

Lemma replace_step : forall old new c s, has_prefix old (c :: s) = false -> replace_all old new (c :: s) = c :: replace_all old new s.
Proof.
  intros old new c s H. unfold replace_all. rewrite (split_eq_nosep old c s H). pose proof (split_nonnil old s) as N.
  destruct (split old s) as [|x [|y l]]; [congruence | reflexivity | reflexivity].
Qed.
Lemma plain_brackets : forall u, plain_type ($"[]" ++ u) = $"[]" ++ plain_type u.
Proof. intros u. unfold plain_type. cbn [app lit]. change ($"[]" ++ u) with ("["%char :: "]"%char :: u). rewrite !replace_step by reflexivity. reflexivity. Qed.

Section Colours.
Variable cyan black blue : str -> str.
Definition name_of (args : list str) (g : gofun) (i : nat) : str :=
  match nth_error args i with Some a => a | None => if g_variadic g && Nat.eqb i (length (g_in g) - 1) then $"args" else $"arg" ++ itoa (Z.of_nat (i + 1)) end.
Lemma name_ok : forall args g i, i < length (g_in g) -> parameter_name args g i (name_of args g i).
Proof.
  intros args g i L. unfold name_of. destruct (nth_error args i) as [a|] eqn:A; [constructor; exact A|]. apply nth_error_None in A.
  destruct (g_variadic g && Nat.eqb i (length (g_in g) - 1)) eqn:R.
  - apply Rest; [exact A|]. apply andb_true_iff in R. destruct R as [V E]. apply Nat.eqb_eq in E. split; [exact V | lia].
  - replace (Z.of_nat (i + 1)) with (Z.of_nat i + 1)%Z by lia. apply Numbered; [exact A|]. intros [V E]. rewrite V in R. cbn [andb] in R. apply Nat.eqb_neq in R. lia.
Qed.
Lemma parameter_ok : forall args g i t, slice_last g -> nth_error (g_in g) i = Some t ->
  exists ty, parameter_type g i t ty /\ parameter cyan false args g i t = name_of args g i ++ $" " ++ cyan ty /\ parameter cyan true args g i t = cyan ty.
Proof.
  intros args g i t SL T. pose proof (proj1 (nth_error_Some (g_in g) i) ltac:(congruence)) as L. unfold parameter. fold (name_of args g i).
  destruct (g_variadic g && Nat.eqb i (length (g_in g) - 1)) eqn:R.
  - apply andb_true_iff in R. destruct R as [V E]. apply Nat.eqb_eq in E. assert (RP : rest_parameter g i) by (split; [exact V | lia]).
    destruct (SL i t RP T) as (e & ->). exists ($"..." ++ plain_type e). split; [|rewrite plain_brackets; split; reflexivity].
    apply Many; [exact RP|]. symmetry. apply plain_brackets.
  - exists (plain_type t). split; [|split; reflexivity]. apply Single; [|reflexivity].
    intros [V E]. rewrite V in R. cbn [andb] in R. apply Nat.eqb_neq in R. lia.
Qed.
Lemma parameters_nth : forall m args g ts i k, nth_error (parameters cyan m args g i ts) k = match nth_error ts k with Some t => Some (parameter cyan m args g (i + k) t) | None => None end.
Proof.
  induction ts as [|t ts IH]; intros i k; [destruct k; reflexivity|]. destruct k as [|k]; cbn [parameters nth_error]; [rewrite Nat.add_0_r; reflexivity|].
  rewrite IH. rewrite Nat.add_succ_comm. reflexivity.
Qed.
Lemma parameters_length : forall m args g ts i, length (parameters cyan m args g i ts) = length ts.
Proof. induction ts as [|t ts IH]; intros i; [reflexivity|]. cbn [parameters length]. rewrite IH. reflexivity. Qed.
Lemma arguments_shown : forall d g, d_in d = [] -> d_fn d = Some g -> slice_last g ->
  exists ps, get_arguments cyan false (SOwn d) = join $", " ps /\ length ps = length (g_in g) /\
  forall i p, nth_error ps i = Some p -> exists t name ty, nth_error (g_in g) i = Some t /\ parameter_name (d_args d) g i name /\ parameter_type g i t ty /\ p = name ++ $" " ++ cyan ty.
Proof.
  intros d g I F SL. exists (parameters cyan false (d_args d) g 0 (g_in g)). unfold get_arguments. rewrite I, F. split; [reflexivity|]. split; [apply parameters_length|].
  intros i p H. rewrite parameters_nth in H. destruct (nth_error (g_in g) i) as [t|] eqn:T; [|discriminate]. cbn [Nat.add] in H.
  destruct (parameter_ok (d_args d) g i t SL T) as (ty & TY & P1 & _). exists t, (name_of (d_args d) g i), ty. split; [reflexivity|]. split; [apply name_ok; apply nth_error_Some; congruence|].
  split; [exact TY | congruence].
Qed.
Lemma method_shown : forall d g, d_in d = [] -> d_fn d = Some g -> slice_last g ->
  exists ps, get_arguments cyan true (SOwn d) = join $", " ps /\ length ps = length (g_in g) - 1 /\
  forall i p, nth_error ps i = Some p -> exists t ty, nth_error (g_in g) (S i) = Some t /\ parameter_type g (S i) t ty /\ p = cyan ty.
Proof.
  intros d g I F SL. exists (parameters cyan true (d_args d) g 1 (skipn 1 (g_in g))). unfold get_arguments. rewrite I, F. split; [reflexivity|].
  split; [rewrite parameters_length, skipn_length; reflexivity|].
  intros i p H. rewrite parameters_nth in H. replace (nth_error (skipn 1 (g_in g)) i) with (nth_error (g_in g) (S i)) in H by (destruct (g_in g) as [|x l]; [destruct i; reflexivity | reflexivity]).
  destruct (nth_error (g_in g) (S i)) as [t|] eqn:T; [|discriminate].
  destruct (parameter_ok (d_args d) g (S i) t SL T) as (ty & TY & _ & P2). exists t, ty. split; [reflexivity|]. split; [exact TY|]. cbn [Nat.add] in H. congruence.
Qed.
(** The names differ. *)
Lemma itoa_head : forall n, exists c s, itoa (Z.of_nat n + 1) = c :: s /\ c <> "s"%char.
Proof.
  intros n. destruct (itoa (Z.of_nat n + 1)) as [|c s] eqn:E.
  - exfalso. assert (X : itoa (Z.of_nat n + 1) <> []). { unfold itoa. destruct (Z.to_int (Z.of_nat n + 1)) as [u|u]; destruct u; discriminate. } congruence.
  - exists c, s. split; [reflexivity|]. intros ->. unfold itoa in E. destruct (Z.to_int (Z.of_nat n + 1)) as [u|u]; destruct u; discriminate.
Qed.
Lemma names_distinct : forall args g i j a b, NoDup args -> (forall x, In x args -> ~ special_name x) ->
  parameter_name args g i a -> parameter_name args g j b -> i <> j -> a <> b.
Proof.
  intros args g i j a b ND SP A B N E. subst b. inversion A as [? A1|A1 A2|A1 A2]; inversion B as [? B1|B1 B2|B1 B2]; subst.
  - apply N. exact (proj1 (NoDup_nth_error args) ND i j (proj1 (nth_error_Some args i) ltac:(congruence)) ltac:(congruence)).
  - apply (SP _ (nth_error_In _ _ A1)). left; reflexivity.
  - apply (SP _ (nth_error_In _ _ A1)). right; eexists; reflexivity.
  - apply (SP _ (nth_error_In _ _ B1)). left; reflexivity.
  - destruct A2, B2. lia.
  - destruct (itoa_head j) as (c & s & C & X). match goal with H : _ ++ itoa _ = _ |- _ => rewrite C in H; cbn in H; congruence end.
  - apply (SP _ (nth_error_In _ _ B1)). right; eexists; reflexivity.
  - destruct (itoa_head i) as (c & s & C & X). match goal with H : _ = _ ++ itoa _ |- _ => rewrite C in H; cbn in H; congruence | H : _ ++ itoa _ = _ |- _ => rewrite C in H; cbn in H; congruence end.
  - match goal with H : _ ++ itoa _ = _ ++ itoa _ |- _ => apply app_inv_head in H; apply itoa_inj in H; lia end.
Qed.

(** Results *)
Lemma outputs_ok : forall ts, outputs ts = map plain_type (match rev ts with e :: r => if str_eqb e $"error" then rev r else ts | [] => [] end).
Proof.
  induction ts as [|t ts IH]; [reflexivity|]. destruct ts as [|u ts]; [cbn [outputs rev app]; destruct (str_eqb t $"error"); reflexivity|].
  change (outputs (t :: u :: ts)) with (plain_type t :: outputs (u :: ts)). rewrite IH. change (rev (t :: u :: ts)) with (rev (u :: ts) ++ [t]).
  destruct (rev (u :: ts)) as [|e r] eqn:R; [apply (f_equal (@length str)) in R; rewrite rev_length in R; discriminate|].
  cbn [app]. destruct (str_eqb e $"error"); [|reflexivity]. rewrite rev_app_distr. reflexivity.
Qed.
Lemma outputs_error : forall ts, outputs (ts ++ [$"error"]) = map plain_type ts.
Proof. intros ts. rewrite outputs_ok, rev_app_distr. cbn [rev app]. rewrite str_eqb_refl, rev_involutive. reflexivity. Qed.
Lemma outputs_plain : forall ts, (forall l, ts <> l ++ [$"error"]) -> outputs ts = map plain_type ts.
Proof.
  intros ts N. rewrite outputs_ok. destruct (rev ts) as [|e r] eqn:R; [apply (f_equal (@rev str)) in R; rewrite rev_involutive in R; subst; reflexivity|].
  destruct (str_eqb e $"error") eqn:E; [|reflexivity]. apply str_eqb_eq in E. subst e. apply (f_equal (@rev str)) in R. rewrite rev_involutive in R. cbn [rev] in R. destruct (N _ R).
Qed.
Lemma result_shown : forall d g ts, d_out d = [] -> d_fn d = Some g -> g_out g = ts ++ [$"error"] \/ (g_out g = ts /\ forall l, ts <> l ++ [$"error"]) ->
  exists us, Forall2 written ts us /\ ((exists u, us = [u] /\ get_result (SOwn d) = u) \/ (length us <> 1 /\ get_result (SOwn d) = $"(" ++ join $", " us ++ $")")).
Proof.
  intros d g ts O F H. exists (map plain_type ts). split; [clear; induction ts as [|t ts IH]; constructor; [reflexivity | exact IH]|].
  assert (E : outputs (g_out g) = map plain_type ts) by (destruct H as [->|(-> & N)]; [apply outputs_error | apply outputs_plain; exact N]).
  unfold get_result. rewrite O, F, E. destruct (map plain_type ts) as [|u [|v l]]; [right; split; [discriminate | reflexivity] | left; exists u; split; reflexivity | right; split; [discriminate | reflexivity]].
Qed.

(** Aliases *)
Lemma alias_listed : forall d n, d_fn d <> None -> d_in d = [] -> d_out d = [] -> listed_aliases cyan black blue d [SAlias n d] = [get_signature cyan black blue false (SAlias n d)].
Proof.
  intros d n F I O. unfold listed_aliases. cbn [filter]. assert (A : get_arguments cyan false (SAlias n d) = get_arguments cyan false (SOwn d)) by (unfold get_arguments; rewrite I; reflexivity).
  assert (R : get_result (SAlias n d) = get_result (SOwn d)) by (unfold get_result; rewrite O; reflexivity). rewrite A, R, !str_eqb_refl. reflexivity.
Qed.
End Colours.

(** Categories *)
Section Categories.
Context {F : Type}.
Lemma add_categories : forall (tf : table F) m0 k, let m := fold_left add_category tf m0 in
  sget [] m k = sget [] m0 k ++ map fst (filter (fun kv => str_eqb k (e_group (snd kv))) tf) /\
  (In k (mkeys m) <-> In k (mkeys m0) \/ exists kv, In kv tf /\ e_group (snd kv) = k) /\ (NoDup (mkeys m0) -> NoDup (mkeys m)).
Proof.
  induction tf as [|f fs IH]; intros m0 k m; subst m.
  - cbn [fold_left filter map]. rewrite app_nil_r. split; [reflexivity|]. split; [|intros N; exact N]. split; [intros I; left; exact I | intros [I|(f & [] & _)]; exact I].
  - cbn [fold_left]. destruct (IH (add_category m0 f) k) as (A & B & C). destruct (keys_mset m0 (e_group (snd f)) (sget [] m0 (e_group (snd f)) ++ [fst f])) as (K1 & K2).
    split; [|split].
    + rewrite A. unfold add_category at 1. rewrite sget_mset. cbn [filter]. destruct (str_eqb k (e_group (snd f))) eqn:E; [|reflexivity]. apply str_eqb_eq in E. subst k. rewrite <- app_assoc. reflexivity.
    + rewrite B. unfold add_category at 1. cbv zeta. rewrite K1. split.
      * intros [[->|I]|(g & I & E)]; [right; exists f; split; [left; reflexivity | reflexivity] | left; exact I | right; exists g; split; [right; exact I | exact E]].
      * intros [I|(g & [<-|I] & E)]; [left; right; exact I | left; left; symmetry; exact E | right; exists g; split; assumption].
    + intros N. apply C. apply K2. exact N.
Qed.
Lemma nodup_filter : forall (tf : table F) f, NoDup (map fst tf) -> NoDup (map fst (filter f tf)).
Proof.
  induction tf as [|(k, e) tf IH]; intros f N; [constructor|]. inversion N; subst. cbn [filter]. destruct (f (k, e)); [|apply IH; assumption].
  cbn [map fst]. constructor; [|apply IH; assumption]. intros I. apply in_map_iff in I. destruct I as ((k', e') & E & I). cbn [fst] in E. subst k'. apply filter_In in I.
  match goal with X : ~ In k _ |- _ => apply X end. apply in_map_iff. exists (k, e'). split; [reflexivity | apply I].
Qed.
Lemma categories_ok : forall tf : table F, NoDup (map fst tf) -> ascending (map fst (get_categories tf)) /\
  (forall g names, In (g, names) (get_categories tf) -> names <> [] /\ ascending names /\ forall n, In n names <-> exists e, In (n, e) tf /\ e_group e = g) /\
  (forall n e, In (n, e) tf -> exists names, In (e_group e, names) (get_categories tf) /\ In n names).
Proof.
  intros tf ND. unfold get_categories. set (m := fold_left add_category tf []).
  assert (K : forall k, sget [] m k = map fst (filter (fun kv => str_eqb k (e_group (snd kv))) tf) /\ (In k (mkeys m) <-> exists kv, In kv tf /\ e_group (snd kv) = k)).
  { intros k. destruct (add_categories tf [] k) as (A & B & _). fold m in A, B. split; [exact A|]. rewrite B. split; [intros [[]|H]; exact H | intros H; right; exact H]. }
  assert (N : NoDup (mkeys m)) by (apply (add_categories tf [] []); constructor).
  assert (M : forall g n, In n (sort_strings (sget [] m g)) <-> exists e, In (n, e) tf /\ e_group e = g).
  { intros g n. destruct (K g) as (A & _). rewrite A. split.
    - intros I. apply (Permutation_in _ (sort_strings_perm _)) in I. apply in_map_iff in I. destruct I as ((n', e) & E & I). cbn [fst] in E. subst n'. apply filter_In in I. destruct I as (I & G). cbn [snd] in G.
      exists e. split; [exact I|]. symmetry. apply str_eqb_eq. exact G.
    - intros (e & I & G). apply (Permutation_in _ (Permutation_sym (sort_strings_perm _))). apply in_map_iff. exists (n, e). split; [reflexivity|]. apply filter_In. split; [exact I|]. cbn [snd]. rewrite G. apply str_eqb_refl. }
  split; [|split].
  - rewrite map_map. cbn [fst]. rewrite map_id. apply sort_ascending. exact N.
  - intros g names I. apply in_map_iff in I. destruct I as (g' & E & I). injection E as -> <-. apply (Permutation_in _ (sort_strings_perm _)) in I. destruct (K g) as (A & B).
    split; [|split; [|exact (M g)]].
    + apply B in I. destruct I as ((n, e) & I & G). cbn [snd] in G. assert (X : In n (sort_strings (sget [] m g))) by (apply M; exists e; split; assumption). intros E. rewrite E in X. destruct X.
    + apply sort_ascending. rewrite A. apply nodup_filter. exact ND.
  - intros n e I. exists (sort_strings (sget [] m (e_group e))). split; [|apply M; exists e; split; [exact I | reflexivity]].
    apply in_map_iff. exists (e_group e). split; [reflexivity|]. apply (Permutation_in _ (Permutation_sym (sort_strings_perm _))). apply K. exists (n, e). split; [exact I | reflexivity].
Qed.
Lemma group_of : forall (e : entry F) g, entry_group e g <-> e_group e = g.
Proof. intros e g. split; [intros H; inversion H; subst; reflexivity | intros <-; destruct e; constructor]. Qed.
Lemma ascending_same : forall l l', ascending l -> ascending l' -> (forall x, In x l <-> In x l') -> l = l'.
Proof.
  assert (ANTI : forall a b, str_leb a b = true -> str_leb b a = true -> a = b) by (intros a b; exact (str_leb_antisym a b)).
  induction l as [|x l IH]; intros l' S1 S2 H; destruct l' as [|y l']; [reflexivity | destruct (proj2 (H y) (or_introl eq_refl)) | destruct (proj1 (H x) (or_introl eq_refl)) |].
  inversion S1 as [|? ? S1' F1]; subst. inversion S2 as [|? ? S2' F2]; subst. rewrite Forall_forall in F1, F2.
  assert (E : x = y).
  { destruct (proj1 (H x) (or_introl eq_refl)) as [E|I]; [symmetry; exact E|]. destruct (proj2 (H y) (or_introl eq_refl)) as [E|J]; [exact E|].
    apply ANTI; [apply (F1 y J) | apply (F2 x I)]. }
  subst y. f_equal. apply IH; [exact S1' | exact S2'|]. intros z. split; intros I.
  - destruct (proj1 (H z) (or_intror I)) as [<-|J]; [destruct (F1 x I) as [_ X]; congruence | exact J].
  - destruct (proj2 (H z) (or_intror I)) as [<-|J]; [destruct (F2 x I) as [_ X]; congruence | exact J].
Qed.
Lemma categories_determined : forall c c' : list (str * list str), map fst c = map fst c' -> ascending (map fst c) ->
  (forall g a b, In (g, a) c -> In (g, b) c' -> a = b) -> c = c'.
Proof.
  induction c as [|(g, a) c IH]; intros [|(g', b) c'] E A H; try discriminate; [reflexivity|]. cbn [map fst] in E. injection E as <- E.
  f_equal; [f_equal; exact (H g a b (or_introl eq_refl) (or_introl eq_refl))|]. inversion A; subst. apply IH; [exact E | assumption|].
  intros k x y I J. exact (H k x y (or_intror I) (or_intror J)).
Qed.
Lemma categories_same : forall tf tf' : table F, NoDup (map fst tf) -> NoDup (map fst tf') ->
  (forall n g, (exists e, In (n, e) tf /\ entry_group e g) <-> (exists e, In (n, e) tf' /\ entry_group e g)) -> get_categories tf = get_categories tf'.
Proof.
  intros tf tf' N N' SAME0.
  assert (SAME : forall n g, (exists e, In (n, e) tf /\ e_group e = g) <-> (exists e, In (n, e) tf' /\ e_group e = g)).
  { intros n g. destruct (SAME0 n g) as (P & Q). split; intros (e & I & G); [destruct P as (e' & I' & G') | destruct Q as (e' & I' & G')];
      try (exists e; split; [exact I | apply group_of; exact G]); exists e'; (split; [exact I' | apply group_of; exact G']). }
  destruct (categories_ok tf N) as (A1 & B1 & C1). destruct (categories_ok tf' N') as (A2 & B2 & C2).
  assert (K : map fst (get_categories tf) = map fst (get_categories tf')).
  { apply ascending_same; [exact A1 | exact A2|]. intros g. rewrite !in_map_iff. split; intros ((g', names) & E & I); cbn [fst] in E; subst g'.
    - destruct (B1 _ _ I) as (NE & _ & M). destruct names as [|n names]; [congruence|]. destruct (proj1 (SAME n g) (proj1 (M n) (or_introl eq_refl))) as (e & J & <-). destruct (C2 n e J) as (l & L & _).
      exists (e_group e, l). split; [reflexivity | exact L].
    - destruct (B2 _ _ I) as (NE & _ & M). destruct names as [|n names]; [congruence|]. destruct (proj2 (SAME n g) (proj1 (M n) (or_introl eq_refl))) as (e & J & <-). destruct (C1 n e J) as (l & L & _).
      exists (e_group e, l). split; [reflexivity | exact L]. }
  apply categories_determined; [exact K | exact A1|]. intros g a b I J. destruct (B1 _ _ I) as (_ & S1 & M1). destruct (B2 _ _ J) as (_ & S2 & M2).
  apply ascending_same; [exact S1 | exact S2|]. intros n. rewrite M1, M2. apply SAME.
Qed.
Lemma categories_order : forall tf tf' : table F, NoDup (map fst tf) -> Permutation tf tf' -> get_categories tf = get_categories tf'.
Proof.
  intros tf tf' N P. apply categories_same; [exact N | exact (Permutation_NoDup (Permutation_map fst P) N)|].
  intros n g. split; intros (e & I & G); exists e; (split; [|exact G]); [exact (Permutation_in _ P I) | exact (Permutation_in _ (Permutation_sym P) I)].
Qed.
End Categories.
