(** Proofs about slice, extract, rest, initial, safeIndex, key and content. *)
From Coq Require Import String Ascii List ZArith NArith Bool Lia Permutation Sorted.
From Verif Require Import GoStr GoStrFacts ValueModel ValueFacts CollSpec ListModel DictModel ListProofs DictProofs DataModel Utf8 Utf8Facts TextModel FloatModel FloatFacts MathModel NumFacts MathSpec MathProofs SliceModel SliceSpec.
Import ListNotations.
Local Open Scope Z_scope.

Section WithEnv.
Context {E : Env} {NE : NumEnv}.

(** ** Sections *)

Lemma between_shift {A} lo hi : forall (l r : list A) k,
  selected (fun p _ => lo <= Z.of_nat p < hi) (S k) l r <-> selected (fun p _ => lo - 1 <= Z.of_nat p < hi - 1) k l r.
Proof.
  induction l as [|x l IH]; intros r k.
  - split; intro H; inversion H; constructor.
  - split; intro H; inversion H; subst.
    + apply sel_keep; [lia|]. apply IH. assumption.
    + apply sel_drop; [lia|]. apply IH. assumption.
    + apply sel_keep; [lia|]. apply IH. assumption.
    + apply sel_drop; [lia|]. apply IH. assumption.
Qed.

Lemma between_section {A} : forall (l : list A) lo hi,
  between lo hi l (firstn (Z.to_nat (Z.min hi (zlen l) - Z.max lo 0)) (skipn (Z.to_nat (Z.max lo 0)) l)).
Proof.
  unfold between, zlen. induction l as [|x l IH]; intros lo hi.
  - rewrite skipn_nil, firstn_nil. constructor.
  - specialize (IH (lo - 1) (hi - 1)).
    destruct (Z.leb_spec lo 0) as [L|L].
    + replace (Z.max lo 0) with 0 by lia. replace (Z.max (lo - 1) 0) with 0 in IH by lia. cbn [Z.to_nat skipn] in *.
      destruct (Z.ltb_spec 0 hi) as [Hh|Hh].
      * replace (Z.to_nat (Z.min hi (Z.of_nat (List.length (x :: l))) - 0)) with (S (Z.to_nat (Z.min (hi - 1) (Z.of_nat (List.length l)) - 0))) by (cbn [List.length]; lia).
        cbn [firstn]. apply sel_keep; [lia|]. apply between_shift. exact IH.
      * replace (Z.to_nat (Z.min hi (Z.of_nat (List.length (x :: l))) - 0)) with 0%nat by lia.
        replace (Z.to_nat (Z.min (hi - 1) (Z.of_nat (List.length l)) - 0)) with 0%nat in IH by lia. cbn [firstn] in *.
        apply sel_drop; [lia|]. apply between_shift. exact IH.
    + replace (Z.to_nat (Z.max lo 0)) with (S (Z.to_nat (Z.max (lo - 1) 0))) by lia. cbn [skipn].
      replace (Z.min hi (Z.of_nat (List.length (x :: l))) - Z.max lo 0) with (Z.min (hi - 1) (Z.of_nat (List.length l)) - Z.max (lo - 1) 0) by (cbn [List.length]; lia).
      apply sel_drop; [lia|]. apply between_shift. exact IH.
Qed.

Lemma between_all {A} (l : list A) lo hi r : between lo hi l r ->
  r = firstn (Z.to_nat (Z.min hi (zlen l) - Z.max lo 0)) (skipn (Z.to_nat (Z.max lo 0)) l).
Proof.
  intro H. pose proof (between_section l lo hi) as G. unfold between in *. revert H G.
  generalize (firstn (Z.to_nat (Z.min hi (zlen l) - Z.max lo 0)) (skipn (Z.to_nat (Z.max lo 0)) l)). intros r'.
  generalize 0%nat. revert r r'. clear. induction l as [|x l IH]; intros r r' k H G; inversion H; inversion G; subst; try contradiction; try reflexivity.
  - f_equal. eapply IH; eassumption.
  - eapply IH; eassumption.
Qed.

(** ** Bounds *)

Lemma numeral_vint z : numeral (vint z) z.
Proof. exists (SInt KInt z). split; reflexivity. Qed.

Lemma within_min a b : within53 a -> within53 b -> as_int64 (tpl_min [vint a; vint b]) = Ok (Z.min a b).
Proof.
  intros Wa Wb. rewrite (min_numerals [vint a; vint b] a [b]); [reflexivity| |].
  - repeat constructor; apply numeral_vint.
  - repeat constructor; try apply Wa; apply Wb.
Qed.
Lemma within_max a b : within53 a -> within53 b -> as_int64 (tpl_max [vint a; vint b]) = Ok (Z.max a b).
Proof.
  intros Wa Wb. rewrite (max_numerals [vint a; vint b] a [b]); [reflexivity| |].
  - repeat constructor; apply numeral_vint.
  - repeat constructor; try apply Wa; apply Wb.
Qed.

Lemma position64 x : position_ok x -> within64 x.
Proof. unfold position_ok, within64. lia. Qed.

Lemma bounds_spec n a b x y : 0 <= n -> position_ok n -> numeral a x -> numeral b y -> position_ok x -> position_ok y ->
  slice_bounds n a b = Ok (Z.max (Z.min (bound n x) (bound n y)) 0, Z.min (Z.max (bound n x) (bound n y)) n, bound n y <? bound n x).
Proof.
  intros N0 Pn Na Nb Px Py. unfold slice_bounds.
  rewrite (to_int_numeral a x Na (position64 x Px)), (to_int_numeral b y Nb (position64 y Py)). cbn [bind].
  fold (bound n x). fold (bound n y).
  assert (Bx : within53 (bound n x)) by (unfold within53, position_ok, bound in *; destruct (Z.ltb_spec x 0); lia).
  assert (By : within53 (bound n y)) by (unfold within53, position_ok, bound in *; destruct (Z.ltb_spec y 0); lia).
  assert (Wn : within53 n) by (unfold within53, position_ok in *; lia).
  assert (W0 : within53 0) by (unfold within53; lia).
  destruct (Z.ltb_spec (bound n y) (bound n x)) as [L|L].
  - rewrite (within_min _ _ Bx Wn). cbn [bind]. rewrite (within_max _ _ By W0). cbn [bind].
    rewrite (Z.min_r (bound n x) (bound n y)), (Z.max_l (bound n x) (bound n y)) by lia. reflexivity.
  - rewrite (within_min _ _ By Wn). cbn [bind]. rewrite (within_max _ _ Bx W0). cbn [bind].
    rewrite (Z.min_l (bound n x) (bound n y)), (Z.max_r (bound n x) (bound n y)) by lia. reflexivity.
Qed.

Lemma zlen_pos {A} (l : list A) : 0 <= zlen l.
Proof. unfold zlen. lia. Qed.

(** ** Arguments *)

Lemma args_two a b x y : numeral a x -> numeral b y -> snd (convert_args VNil [a; b]) = [a; b].
Proof.
  intros Na Nb. rewrite convert_args_values; [reflexivity|exact (numeral_scal a x Na)|].
  constructor; [exact (numeral_scal b y Nb)|constructor].
Qed.
Lemma args_numerals vs ks : Forall2 numeral vs ks -> vs <> [] -> snd (convert_args VNil vs) = vs.
Proof.
  intros F N. pose proof (numerals_scal vs ks F) as S. destruct S as [|v vs Sv Ss]; [contradiction N; reflexivity|].
  rewrite convert_args_values by assumption. reflexivity.
Qed.
Lemma args_list i vs ks : Forall2 numeral vs ks -> snd (convert_args VNil [VList i vs]) = vs.
Proof. intro F. reflexivity. Qed.

(** ** Lists *)

Lemma slice_list_spec i l a b x y : position_ok (zlen l) -> numeral a x -> numeral b y -> position_ok x -> position_ok y ->
  let n := zlen l in
  let lo := Z.min (bound n x) (bound n y) in
  let hi := Z.max (bound n x) (bound n y) in
  (hi < 0 -> exists m, slice_list i l a b = Panic m) /\
  (0 <= hi -> exists r r', between lo hi l r /\ Forall2 (converts i) r r' /\
     slice_list i l a b = Ok (VList i (if bound n y <? bound n x then rev r' else r'))).
Proof.
  intros Pn Na Nb Px Py n lo hi. unfold slice_list. rewrite (bounds_spec (zlen l) a b x y (zlen_pos l) Pn Na Nb Px Py).
  fold n lo hi. cbn [bind]. pose proof (zlen_pos l) as N0. fold n in N0. split; intro H.
  - replace (n <? Z.max lo 0) with false by (symmetry; apply Z.ltb_ge; lia).
    replace (Z.min hi n - Z.max lo 0 <? 0) with true by (symmetry; apply Z.ltb_lt; lia). eexists. reflexivity.
  - destruct (Z.ltb_spec n (Z.max lo 0)) as [L|L].
    + exists [], []. split; [|split; [constructor|]].
      * pose proof (between_section l lo hi) as G. unfold n in L. rewrite skipn_all2 in G by (unfold zlen in L; lia). rewrite firstn_nil in G. exact G.
      * destruct (bound n y <? bound n x); reflexivity.
    + replace (Z.min hi n - Z.max lo 0 <? 0) with false by (symmetry; apply Z.ltb_ge; lia).
      set (r := firstn (Z.to_nat (Z.min hi n - Z.max lo 0)) (skipn (Z.to_nat (Z.max lo 0)) l)).
      exists r, (map (conv i) r). split; [apply between_section|]. split; [apply map_conv_Forall2|].
      destruct (bound n y <? bound n x); [|reflexivity]. rewrite reverse_eq. rewrite map_map.
      rewrite (map_ext (fun z => conv i (conv i z)) (conv i)) by (intro; apply conv_idem). reflexivity.
Qed.

Lemma content_list v i l : list_content dflt v i l -> list_impl v = i /\
  forall args, slice_internal v false args = trap
    (match snd (convert_args VNil args) with
     | [] => Ok v | [a] => do n <- to_int a; select_element l n
     | [a; b] => slice_list i l a b | _ => Err $"to many parameters" end).
Proof.
  intros [->|(t & -> & ->)]; (split; [reflexivity|]); intro args; unfold slice_internal; destruct (snd (convert_args VNil args)) as [|a [|b [|c r]]]; reflexivity.
Qed.

Lemma slice_content v i l : list_content dflt v i l -> forall args,
  tpl_slice v args = trap
    (match snd (convert_args VNil args) with
     | [] => Ok v | [a] => do n <- to_int a; select_element l n
     | [a; b] => slice_list i l a b | _ => Err $"to many parameters" end).
Proof. intros C args. apply (content_list v i l C). Qed.

Lemma extract_content v i l : list_content dflt v i l -> forall args,
  tpl_extract v args = trap
    (match snd (convert_args VNil args) with
     | [] => Ok v | [a] => do n <- to_int a; select_element l n
     | args => do r <- map_res (fun a => do n <- to_int a; select_element l n) args; Ok (VList i (map (conv i) r)) end).
Proof.
  intros [->|(t & -> & ->)] args; unfold tpl_extract, slice_internal; destruct (snd (convert_args VNil args)) as [|a [|b [|c r]]]; reflexivity.
Qed.

Lemma slice_lists v i l a b x y args : list_content dflt v i l -> position_ok (zlen l) ->
  numeral a x -> numeral b y -> position_ok x -> position_ok y -> (args = [a; b] \/ exists j, args = [VList j [a; b]]) ->
  let n := zlen l in
  let lo := Z.min (bound n x) (bound n y) in
  let hi := Z.max (bound n x) (bound n y) in
  (hi < 0 -> exists m, tpl_slice v args = Err m) /\
  (0 <= hi -> exists r r', between lo hi l r /\ Forall2 (converts i) r r' /\
     tpl_slice v args = Ok (VList i (if bound n y <? bound n x then rev r' else r'))).
Proof.
  intros C Pn Na Nb Px Py A n lo hi. rewrite (slice_content v i l C).
  assert (Ea : snd (convert_args VNil args) = [a; b]).
  { destruct A as [->|[j ->]]; [exact (args_two a b x y Na Nb)|reflexivity]. }
  rewrite Ea. destruct (slice_list_spec i l a b x y Pn Na Nb Px Py) as [H1 H2]. fold n lo hi in H1, H2. split; intro H.
  - destruct (H1 H) as [m ->]. eexists. reflexivity.
  - destruct (H2 H) as (r & r' & B & F & ->). exists r, r'. auto.
Qed.

(** ** Texts *)

Lemma substring_ok s b e : 0 <= b -> b <= e -> e <= zlen s ->
  substring s b e = Ok (firstn (Z.to_nat (e - b)) (skipn (Z.to_nat b) s)).
Proof.
  intros. unfold substring. replace (0 <=? b) with true by (symmetry; apply Z.leb_le; lia).
  replace (b <=? e) with true by (symmetry; apply Z.leb_le; lia). replace (e <=? zlen s) with true by (symmetry; apply Z.leb_le; lia). reflexivity.
Qed.
Lemma substring_bad s b e : ~ (0 <= b /\ b <= e /\ e <= zlen s) -> substring s b e = Panic slice_panic.
Proof.
  intros N. unfold substring. destruct ((0 <=? b) && (b <=? e) && (e <=? zlen s))%bool eqn:Eb; [|reflexivity].
  exfalso. apply N. rewrite !andb_true_iff, !Z.leb_le in Eb. lia.
Qed.

Lemma slice_texts nm s a b x y args : position_ok (zlen s) ->
  numeral a x -> numeral b y -> position_ok x -> position_ok y -> (args = [a; b] \/ exists j, args = [VList j [a; b]]) ->
  let n := zlen s in
  let lo := Z.min (bound n x) (bound n y) in
  let hi := Z.max (bound n x) (bound n y) in
  (hi < 0 \/ n < lo -> exists m, tpl_slice (VScal (SStr nm s)) args = Err m) /\
  (0 <= hi -> lo <= n -> exists r, between lo hi s r /\
     tpl_slice (VScal (SStr nm s)) args = Ok (vstr (if bound n y <? bound n x then reverse_string r else r))).
Proof.
  intros Pn Na Nb Px Py A n lo hi. unfold tpl_slice, slice_internal.
  assert (Ea : snd (convert_args VNil args) = [a; b]).
  { destruct A as [->|[j ->]]; [exact (args_two a b x y Na Nb)|reflexivity]. }
  rewrite Ea. unfold slice_text. rewrite (bounds_spec (zlen s) a b x y (zlen_pos s) Pn Na Nb Px Py). fold n lo hi. cbn [bind].
  pose proof (zlen_pos s) as N0. fold n in N0. assert (lo <= hi) by (unfold lo, hi; lia). split.
  - intro H0. rewrite substring_bad by (fold n; lia). eexists. reflexivity.
  - intros H1 H2. rewrite substring_ok by (fold n; lia). eexists. split; [apply between_section|]. reflexivity.
Qed.

(** Reversing well formed characters. *)
Lemma chunks_character p : character p -> chunks p = [(fst (decode p), p)].
Proof.
  intros (V & L & N). rewrite chunks_cons by exact N. rewrite L, firstn_all, skipn_all. reflexivity.
Qed.
Lemma chunks_characters ps : Forall character ps -> chunks (concat ps) = map (fun p => (fst (decode p), p)) ps.
Proof.
  induction 1 as [|p ps C F IH]; [reflexivity|]. cbn [concat map].
  rewrite chunks_app_valid; [|rewrite chunks_character by exact C; constructor; [exact (proj1 C)|constructor]].
  rewrite chunks_character by exact C. rewrite IH. reflexivity.
Qed.
Lemma reverse_characters ps : Forall character ps -> reverse_string (concat ps) = concat (rev ps).
Proof.
  intro F. unfold reverse_string. rewrite chunks_characters by exact F. rewrite <- map_rev, map_map. f_equal.
  rewrite <- (map_id (rev ps)) at 2. apply map_ext_in. intros p I. apply in_rev in I. rewrite Forall_forall in F. destruct (F p I) as (V & _).
  unfold rune_text. cbn [fst snd]. replace (N.eqb (fst (decode p)) rune_error) with false by (symmetry; apply N.eqb_neq; exact V). reflexivity.
Qed.
Lemma concat_single (s : str) : concat (map (fun c => [c]) s) = s.
Proof. induction s as [|c s IH]; [reflexivity|]. cbn. rewrite IH. reflexivity. Qed.
Lemma ascii_character c : (N_of_ascii c < 128)%N -> character [c].
Proof.
  intro H. pose proof (chunks_ascii c [] H) as K. destruct c as [[] [] [] [] [] [] [] []]; try (exfalso; vm_compute in H; discriminate H);
  (split; [|split]); vm_compute; congruence.
Qed.
Lemma reverse_ascii s : Forall (fun c => (N_of_ascii c < 128)%N) s -> reverse_string s = rev s.
Proof.
  intro F. rewrite <- (concat_single s) at 1. rewrite reverse_characters.
  - rewrite <- map_rev. apply concat_single.
  - apply Forall_map. eapply Forall_impl; [|exact F]. intros c H. apply ascii_character. exact H.
Qed.

(** ** Single elements *)

Lemma select_spec l k v : element l k v -> select_element l k = Ok v.
Proof.
  intros (p & [D L] & H). unfold select_element, zlen.
  assert (X : (if k <? 0 then Z.of_nat (List.length l) + k else k) = Z.of_nat p) by (destruct (Z.ltb_spec k 0); lia).
  rewrite X. replace (Z.of_nat p <? 0) with false by (symmetry; apply Z.ltb_ge; lia).
  replace (Z.of_nat (List.length l) <=? Z.of_nat p) with false by (symmetry; apply Z.leb_gt; lia). cbn [orb].
  rewrite Nat2Z.id. f_equal. apply nth_error_nth. exact H.
Qed.
Lemma element_dec {A} (l : list A) k : (exists v, element l k v) \/ (forall v, ~ element l k v).
Proof.
  destruct (Z_lt_le_dec k 0) as [N|N].
  - destruct (Z_le_gt_dec 0 (Z.of_nat (List.length l) + k)) as [G|G].
    + left. destruct (nth_error l (Z.to_nat (Z.of_nat (List.length l) + k))) as [v|] eqn:En.
      * exists v, (Z.to_nat (Z.of_nat (List.length l) + k)). split; [|exact En]. split; lia.
      * apply nth_error_None in En. lia.
    + right. intros v (p & [D L] & _). lia.
  - destruct (Z_lt_le_dec k (Z.of_nat (List.length l))) as [G|G].
    + left. destruct (nth_error l (Z.to_nat k)) as [v|] eqn:En.
      * exists v, (Z.to_nat k). split; [|exact En]. split; lia.
      * apply nth_error_None in En. lia.
    + right. intros v (p & [D L] & _). lia.
Qed.
Lemma select_none l k : (forall v, ~ element l k v) -> exists m, select_element l k = Panic m.
Proof.
  intro N. unfold select_element. destruct ((if k <? 0 then zlen l + k else k) <? 0) eqn:E1; [eexists; reflexivity|].
  destruct (zlen l <=? (if k <? 0 then zlen l + k else k)) eqn:E2; [eexists; reflexivity|].
  exfalso. unfold zlen in *. apply Z.ltb_ge in E1. apply Z.leb_gt in E2.
  set (q := if k <? 0 then Z.of_nat (List.length l) + k else k) in *.
  destruct (nth_error l (Z.to_nat q)) as [v|] eqn:En.
  - apply (N v). exists (Z.to_nat q). split; [|exact En]. split; [|lia]. unfold q in *. destruct (Z.ltb_spec k 0); lia.
  - apply nth_error_None in En. lia.
Qed.

Lemma select_byte_spec s k c : element s k c -> select_byte s k = Ok (vstr [c]).
Proof.
  intros (p & [D L] & H). unfold select_byte, zlen.
  assert (X : (if k <? 0 then Z.of_nat (List.length s) + k else k) = Z.of_nat p) by (destruct (Z.ltb_spec k 0); lia).
  rewrite X. rewrite substring_ok by (unfold zlen; lia). cbn [bind]. replace (Z.of_nat p + 1 - Z.of_nat p) with 1 by lia.
  rewrite Nat2Z.id. do 2 f_equal. change (Z.to_nat 1) with 1%nat.
  assert (Y : firstn 1 (skipn p s) = [c]); [|rewrite Y; reflexivity].
  clear -H. revert p H. induction s as [|x s IH]; intros [|p] H; try discriminate H; [injection H as ->; reflexivity|]. cbn [skipn]. apply IH. exact H.
Qed.
Lemma select_byte_none s k : (forall c, ~ element s k c) -> exists m, select_byte s k = Panic m.
Proof.
  intro N. unfold select_byte. set (q := if k <? 0 then zlen s + k else k).
  rewrite substring_bad; [eexists; reflexivity|]. intros (H1 & _ & H2). unfold zlen in *.
  destruct (nth_error s (Z.to_nat q)) as [v|] eqn:En.
  - apply (N v). exists (Z.to_nat q). split; [|exact En]. split; [|lia]. unfold q in *. destruct (Z.ltb_spec k 0); lia.
  - apply nth_error_None in En. lia.
Qed.

Lemma args_one a x : numeral a x -> snd (convert_args VNil [a]) = [a].
Proof. intro N. apply (args_numerals [a] [x]); [repeat constructor; exact N|discriminate]. Qed.

Lemma one_element v i l a k : list_content dflt v i l -> numeral a k -> within64 k ->
  (forall x, element l k x -> tpl_slice v [a] = Ok x /\ tpl_extract v [a] = Ok x) /\
  ((forall x, ~ element l k x) -> (exists m, tpl_slice v [a] = Err m) /\ (exists m, tpl_extract v [a] = Err m)).
Proof.
  intros C Na Wk. rewrite (slice_content v i l C), (extract_content v i l C), (args_one a k Na), (to_int_numeral a k Na Wk). cbn [bind].
  split.
  - intros x Hx. rewrite (select_spec l k x Hx). split; reflexivity.
  - intro N. destruct (select_none l k N) as [m ->]. split; eexists; reflexivity.
Qed.

Lemma map_res_elements l : forall args ks, Forall2 numeral args ks -> Forall within64 ks ->
  (forall vs, Forall2 (element l) ks vs -> map_res (fun a => do n <- to_int a; select_element l n) args = Ok vs) /\
  (Exists (fun k => forall x, ~ element l k x) ks -> exists m, map_res (fun a => do n <- to_int a; select_element l n) args = Panic m).
Proof.
  induction 1 as [|a k args ks N F IH]; intro W.
  - split; [intros vs H; inversion H; reflexivity|intro H; inversion H].
  - inversion W as [|? ? Wk Ws]; subst. destruct (IH Ws) as [I1 I2]. cbn [map_res]. rewrite (to_int_numeral a k N Wk). cbn [bind]. split.
    + intros vs H. inversion H as [|? x ? vs' Hx Hs]; subst. rewrite (select_spec l k x Hx). cbn [bind]. rewrite (I1 vs' Hs). reflexivity.
    + intro H. destruct (element_dec l k) as [[x Hx]|No].
      * rewrite (select_spec l k x Hx). cbn [bind]. inversion H as [? ? H0|? ? H0]; subst; [exfalso; exact (H0 x Hx)|].
        destruct (I2 H0) as [m ->]. eexists. reflexivity.
      * destruct (select_none l k No) as [m ->]. eexists. reflexivity.
Qed.

Lemma extract_lists v i l args ks : list_content dflt v i l -> Forall2 numeral args ks -> Forall within64 ks -> (2 <= List.length args)%nat ->
  (forall vs, Forall2 (element l) ks vs -> exists vs', Forall2 (converts i) vs vs' /\ tpl_extract v args = Ok (VList i vs')) /\
  (Exists (fun k => forall x, ~ element l k x) ks -> exists m, tpl_extract v args = Err m).
Proof.
  intros C F W L. rewrite (extract_content v i l C).
  rewrite (args_numerals args ks F) by (destruct args; [cbn in L; lia|discriminate]).
  destruct (map_res_elements l args ks F W) as [H1 H2].
  destruct args as [|a [|b r]]; cbn [List.length] in L; try lia. split.
  - intros vs H. rewrite (H1 vs H). exists (map (conv i) vs). split; [apply map_conv_Forall2|reflexivity].
  - intro H. destruct (H2 H) as [m ->]. eexists. reflexivity.
Qed.

Lemma map_res_bytes s : forall args ks, Forall2 numeral args ks -> Forall within64 ks ->
  (forall cs, Forall2 (element s) ks cs -> map_res (fun a => do n <- to_int a; select_byte s n) args = Ok (map (fun c => vstr [c]) cs)) /\
  (Exists (fun k => forall x, ~ element s k x) ks -> exists m, map_res (fun a => do n <- to_int a; select_byte s n) args = Panic m).
Proof.
  induction 1 as [|a k args ks N F IH]; intro W.
  - split; [intros vs H; inversion H; reflexivity|intro H; inversion H].
  - inversion W as [|? ? Wk Ws]; subst. destruct (IH Ws) as [I1 I2]. cbn [map_res]. rewrite (to_int_numeral a k N Wk). cbn [bind]. split.
    + intros vs H. inversion H as [|? x ? vs' Hx Hs]; subst. rewrite (select_byte_spec s k x Hx). cbn [bind]. rewrite (I1 vs' Hs). reflexivity.
    + intro H. destruct (element_dec s k) as [[x Hx]|No].
      * rewrite (select_byte_spec s k x Hx). cbn [bind]. inversion H as [? ? H0|? ? H0]; subst; [exfalso; exact (H0 x Hx)|].
        destruct (I2 H0) as [m ->]. eexists. reflexivity.
      * destruct (select_byte_none s k No) as [m ->]. eexists. reflexivity.
Qed.

Lemma sprint_all_bytes cs : sprint_all (map (fun c => vstr [c]) cs) = cs.
Proof.
  induction cs as [|c cs IH]; [reflexivity|]. cbn [map]. destruct cs as [|d cs]; [reflexivity|].
  cbn [map] in *. cbn [sprint_all]. cbn [sprint_all] in IH. rewrite IH. reflexivity.
Qed.

Lemma extract_texts nm s args ks : Forall2 numeral args ks -> Forall within64 ks -> (1 <= List.length args)%nat ->
  (forall cs, Forall2 (element s) ks cs -> tpl_extract (VScal (SStr nm s)) args = Ok (vstr cs)) /\
  (Exists (fun k => forall x, ~ element s k x) ks -> exists m, tpl_extract (VScal (SStr nm s)) args = Err m).
Proof.
  intros F W L. unfold tpl_extract, slice_internal.
  rewrite (args_numerals args ks F) by (destruct args; [cbn in L; lia|discriminate]).
  destruct (map_res_bytes s args ks F W) as [H1 H2]. split.
  - intros cs H. destruct args as [|a [|b r]]; cbn [List.length] in L; try lia.
    + specialize (H1 cs H). inversion F as [|? k ? ks' Nk F0]; subst. inversion F0; subst. inversion H as [|? c ? cs' Hc H0]; subst. inversion H0; subst. clear -H1.
      cbn [map_res map] in H1. destruct (to_int a) as [n|e|e]; cbn [bind] in *; try discriminate H1.
      destruct (select_byte s n) as [w|e|e]; cbn [bind] in H1; try discriminate H1. injection H1 as ->. reflexivity.
    + rewrite (H1 cs H). cbn [bind trap]. rewrite sprint_all_bytes. destruct r; reflexivity.
  - intro H. destruct (H2 H) as [m Hm]. destruct args as [|a [|b r]]; cbn [List.length] in L; try lia.
    + cbn [map_res] in Hm. destruct (do n <- to_int a; select_byte s n) as [w|e|e]; cbn [bind] in Hm; try discriminate Hm. eexists. reflexivity.
    + rewrite Hm. eexists. destruct r; reflexivity.
Qed.

(** ** rest and initial *)

Lemma between_rest {A} (l r : list A) : between 1 (zlen l) l r -> r = tl l.
Proof.
  intro H. apply between_all in H. subst r. change (Z.to_nat (Z.max 1 0)) with 1%nat. destruct l as [|x l]; [reflexivity|]. cbn [skipn tl].
  apply firstn_all2. unfold zlen. cbn [List.length]. lia.
Qed.
Lemma between_initial {A} (l r : list A) : between 0 (zlen l - 1) l r -> r = removelast l.
Proof.
  intro H. apply between_all in H. subst r. change (Z.to_nat (Z.max 0 0)) with 0%nat. cbn [skipn]. rewrite removelast_firstn_len. f_equal.
  unfold zlen. lia.
Qed.
Lemma between_empty {A} lo hi (r : list A) : between lo hi [] r -> r = [].
Proof. intro H. inversion H. reflexivity. Qed.

Lemma posok z : - 10 <= z <= 10 -> position_ok z.
Proof. unfold position_ok. lia. Qed.

Lemma rest_lists v i l : list_content dflt v i l -> position_ok (zlen l) ->
  (exists r, Forall2 (converts i) (tl l) r /\ tpl_rest v = Ok (VList i r)) /\
  (exists r, Forall2 (converts i) (removelast l) r /\ tpl_initial v = Ok (VList i r)).
Proof.
  intros C Pn. pose proof (zlen_pos l) as N0. split.
  - destruct (slice_lists v i l (vint 1) (vint (-1)) 1 (-1) [vint 1; vint (-1)] C Pn (numeral_vint 1) (numeral_vint (-1)) (posok 1 ltac:(lia)) (posok (-1) ltac:(lia)) (or_introl eq_refl)) as [_ H].
    change (bound (zlen l) 1) with 1 in H. replace (bound (zlen l) (-1)) with (zlen l) in H by (unfold bound; cbn [Z.ltb Z.compare]; lia).
    destruct H as (r & r' & B & F & Hs); [lia|]. exists (if zlen l <? 1 then rev r' else r').
    split; [|exact Hs]. destruct (Z.ltb_spec (zlen l) 1) as [L|L].
    + assert (l = []) as -> by (destruct l; [reflexivity|unfold zlen in L; cbn [List.length] in L; lia]).
      apply between_empty in B. subst r. inversion F; subst. constructor.
    + replace (Z.min 1 (zlen l)) with 1 in B by lia. replace (Z.max 1 (zlen l)) with (zlen l) in B by lia. apply between_rest in B. subst r. exact F.
  - destruct (slice_lists v i l (vint 0) (vint (-2)) 0 (-2) [vint 0; vint (-2)] C Pn (numeral_vint 0) (numeral_vint (-2)) (posok 0 ltac:(lia)) (posok (-2) ltac:(lia)) (or_introl eq_refl)) as [_ H].
    change (bound (zlen l) 0) with 0 in H. replace (bound (zlen l) (-2)) with (zlen l - 1) in H by (unfold bound; cbn [Z.ltb Z.compare]; lia).
    destruct H as (r & r' & B & F & Hs); [lia|]. exists (if zlen l - 1 <? 0 then rev r' else r').
    split; [|exact Hs]. destruct (Z.ltb_spec (zlen l - 1) 0) as [L|L].
    + assert (l = []) as -> by (destruct l; [reflexivity|unfold zlen in L; cbn [List.length] in L; lia]).
      apply between_empty in B. subst r. inversion F; subst. constructor.
    + replace (Z.min 0 (zlen l - 1)) with 0 in B by lia. replace (Z.max 0 (zlen l - 1)) with (zlen l - 1) in B by lia. apply between_initial in B. subst r. exact F.
Qed.

Lemma rest_texts nm s : position_ok (zlen s) ->
  tpl_rest (VScal (SStr nm s)) = Ok (vstr (tl s)) /\ tpl_initial (VScal (SStr nm s)) = Ok (vstr (removelast s)).
Proof.
  intros Pn. pose proof (zlen_pos s) as N0. split.
  - destruct (slice_texts nm s (vint 1) (vint (-1)) 1 (-1) [vint 1; vint (-1)] Pn (numeral_vint 1) (numeral_vint (-1)) (posok 1 ltac:(lia)) (posok (-1) ltac:(lia)) (or_introl eq_refl)) as [_ H].
    change (bound (zlen s) 1) with 1 in H. replace (bound (zlen s) (-1)) with (zlen s) in H by (unfold bound; cbn [Z.ltb Z.compare]; lia).
    destruct H as (r & B & Hs); [lia|lia|]. unfold tpl_rest. rewrite Hs. destruct (Z.ltb_spec (zlen s) 1) as [L|L].
    + assert (s = []) as -> by (destruct s; [reflexivity|unfold zlen in L; cbn [List.length] in L; lia]).
      apply between_empty in B. subst r. reflexivity.
    + replace (Z.min 1 (zlen s)) with 1 in B by lia. replace (Z.max 1 (zlen s)) with (zlen s) in B by lia. apply between_rest in B. subst r. reflexivity.
  - destruct (slice_texts nm s (vint 0) (vint (-2)) 0 (-2) [vint 0; vint (-2)] Pn (numeral_vint 0) (numeral_vint (-2)) (posok 0 ltac:(lia)) (posok (-2) ltac:(lia)) (or_introl eq_refl)) as [_ H].
    change (bound (zlen s) 0) with 0 in H. replace (bound (zlen s) (-2)) with (zlen s - 1) in H by (unfold bound; cbn [Z.ltb Z.compare]; lia).
    destruct H as (r & B & Hs); [lia|lia|]. unfold tpl_initial. rewrite Hs. destruct (Z.ltb_spec (zlen s - 1) 0) as [L|L].
    + assert (s = []) as -> by (destruct s; [reflexivity|unfold zlen in L; cbn [List.length] in L; lia]).
      apply between_empty in B. subst r. reflexivity.
    + replace (Z.min 0 (zlen s - 1)) with 0 in B by lia. replace (Z.max 0 (zlen s - 1)) with (zlen s - 1) in B by lia. apply between_initial in B. subst r. reflexivity.
Qed.

(** ** Errors *)

Lemma slice_other v args : (forall i l, ~ list_content dflt v i l) -> (forall nm s, v <> VScal (SStr nm s)) ->
  (forall t m, v <> VMap t m) -> (forall t m, v <> VMapK t m) -> (forall i m, v <> VDict i m) ->
  (exists m, tpl_slice v args = Err m) /\ (exists m, tpl_extract v args = Err m).
Proof.
  intros H1 H2 H3 H4 H5. unfold tpl_slice, tpl_extract, slice_internal.
  destruct v as [|s|t l|t m|t m|i l|i m|ty c n]; try (split; eexists; reflexivity).
  - destruct s; try (split; eexists; reflexivity). exfalso. eapply H2. reflexivity.
  - exfalso. apply (H1 dflt l). right. exists t. auto.
  - exfalso. eapply H3. reflexivity.
  - exfalso. eapply H4. reflexivity.
  - exfalso. apply (H1 i l). left. reflexivity.
  - exfalso. eapply H5. reflexivity.
Qed.

Lemma slice_many v a b c r ks : (exists i l, list_content dflt v i l) \/ (exists nm s, v = VScal (SStr nm s)) -> Forall2 numeral (a :: b :: c :: r) ks ->
  exists m, tpl_slice v (a :: b :: c :: r) = Err m.
Proof.
  intros Hv F. assert (A : snd (convert_args VNil (a :: b :: c :: r)) = a :: b :: c :: r) by (apply (args_numerals _ ks F); discriminate).
  destruct Hv as [(i & l & C)|(nm & s & ->)].
  - rewrite (slice_content v i l C), A. eexists. reflexivity.
  - unfold tpl_slice, slice_internal. rewrite A. eexists. reflexivity.
Qed.

Lemma slice_itself v : (exists i l, list_content dflt v i l) \/ (exists nm s, v = VScal (SStr nm s)) ->
  tpl_slice v [] = Ok v /\ tpl_extract v [] = Ok v.
Proof. intros [(i & l & [->|(t & -> & ->)])|(nm & s & ->)]; split; reflexivity. Qed.

Lemma bad_position v a b : (exists i l, list_content dflt v i l) \/ (exists nm s, v = VScal (SStr nm s)) ->
  scal a -> scal b -> not_integer_text (sprint a) \/ not_integer_text (sprint b) -> exists m, tpl_slice v [a; b] = Err m.
Proof.
  intros Hv Sa Sb Hb.
  assert (A : snd (convert_args VNil [a; b]) = [a; b]) by (rewrite convert_args_values; [reflexivity|exact Sa|constructor; [exact Sb|constructor]]).
  assert (B : forall n, exists m, slice_bounds n a b = Panic m).
  { intro n. unfold slice_bounds. destruct Hb as [Hb|Hb].
    - destruct (to_int_bad a Hb) as [m ->]. eexists. reflexivity.
    - destruct (to_int a) as [x|x|x] eqn:Ta; [|exfalso; exact (to_int_not_err a x Ta)|eexists; reflexivity].
      cbn [bind]. destruct (to_int_bad b Hb) as [m ->]. eexists. reflexivity. }
  destruct Hv as [(i & l & C)|(nm & s & ->)].
  - rewrite (slice_content v i l C), A. unfold slice_list. destruct (B (zlen l)) as [m ->]. eexists. reflexivity.
  - unfold tpl_slice, slice_internal. rewrite A. unfold slice_text. destruct (B (zlen s)) as [m ->]. eexists. reflexivity.
Qed.

(** ** safeIndex *)

Lemma safe_index_spec v i l k def : list_content dflt v i l ->
  (forall p x, k = Z.of_nat p -> nth_error l p = Some x -> safe_index v k def = Ok x) /\
  (~ (0 <= k < zlen l) -> safe_index v k def = Ok def).
Proof.
  intro C. assert (Eq : safe_index v k def = if (k <? 0) || (zlen l <=? k) then Ok def else Ok (nth (Z.to_nat k) l VNil)).
  { destruct C as [->|(t & -> & ->)]; reflexivity. }
  rewrite Eq. split.
  - intros p x -> H. pose proof (nth_error_Some l p) as S. rewrite H in S. assert (p < List.length l)%nat by (apply S; discriminate).
    replace (Z.of_nat p <? 0) with false by (symmetry; apply Z.ltb_ge; lia).
    replace (zlen l <=? Z.of_nat p) with false by (symmetry; apply Z.leb_gt; unfold zlen; lia). cbn [orb]. rewrite Nat2Z.id.
    f_equal. apply nth_error_nth. exact H.
  - intro N. destruct (Z.ltb_spec k 0); [reflexivity|]. replace (zlen l <=? k) with true by (symmetry; apply Z.leb_le; lia). reflexivity.
Qed.

(** ** Key ranges *)

Lemma fold_append_if i (f : value -> bool) (g : value -> value) : forall keys acc, Forall converted acc ->
  fold_left (fun acc k => if f k then list_append i acc [g k] else acc) keys acc = acc ++ map (fun k => conv i (g k)) (filter f keys).
Proof.
  induction keys as [|k keys IH]; intros acc C; [symmetry; apply app_nil_r|]. cbn [fold_left filter].
  destruct (f k); [|apply IH; exact C].
  assert (X : list_append i acc [g k] = acc ++ [conv i (g k)]).
  { rewrite list_append_conv by exact C. reflexivity. }
  rewrite X, IH.
  - cbn [map]. rewrite <- app_assoc. reflexivity.
  - apply Forall_app. split; [exact C|]. constructor; [apply conv_converted|constructor].
Qed.

Lemma in_key_range_iff k1 k2 k : in_key_range k1 k2 k = true <-> key_between k1 k2 k.
Proof.
  unfold in_key_range, key_between, str_ltb. rewrite andb_true_iff, !negb_involutive. reflexivity.
Qed.

Definition range_keys (m : list (str * value)) (k1 k2 : str) : list str :=
  let lo := if str_ltb k2 k1 then k2 else k1 in
  let hi := if str_ltb k2 k1 then k1 else k2 in
  filter (in_key_range lo hi) (dict_keys_as_string m).

Lemma filter_map_comm {A B} (f : B -> bool) (g : A -> B) l : filter f (map g l) = map g (filter (fun x => f (g x)) l).
Proof. induction l as [|x l IH]; [reflexivity|]. cbn. destruct (f (g x)); cbn; rewrite IH; reflexivity. Qed.
Lemma filter_rev' {A} (f : A -> bool) l : filter f (rev l) = rev (filter f l).
Proof.
  induction l as [|x l IH]; [reflexivity|]. cbn [rev]. rewrite filter_app, IH. cbn [filter]. destruct (f x); cbn [rev]; [reflexivity|apply app_nil_r].
Qed.

Lemma slice_map_eq i m a b :
  slice_map i m false [a; b] = Ok (VList i (map (fun k => conv i (mget0 m k))
    (if str_ltb (sprint b) (sprint a) then rev (range_keys m (sprint a) (sprint b)) else range_keys m (sprint a) (sprint b)))).
Proof.
  unfold slice_map, range_keys. set (k1 := sprint a). set (k2 := sprint b).
  assert (G : forall lo hi keys, fold_left (fun acc k => if in_key_range lo hi (sprint k) then list_append i acc [dict_get1 m (vstr (sprint k))] else acc) (map vnstr keys) []
     = map (fun k => conv i (mget0 m k)) (filter (in_key_range lo hi) keys)).
  { intros lo hi keys. rewrite (fold_append_if i (fun k => in_key_range lo hi (sprint k)) (fun k => dict_get1 m (vstr (sprint k)))) by constructor.
    cbn [app]. rewrite filter_map_comm, map_map. reflexivity. }
  unfold dict_get_keys. destruct (str_ltb k2 k1).
  - rewrite reverse_eq. rewrite map_map. change (fun x : str => conv i (vnstr x)) with vnstr. rewrite <- map_rev, G, filter_rev'. reflexivity.
  - rewrite G. reflexivity.
Qed.

Lemma sorted_filter {A} (R : A -> A -> Prop) f l : StronglySorted R l -> StronglySorted R (filter f l).
Proof.
  induction 1 as [|x l S IH F]; [constructor|]. cbn. destruct (f x); [|exact IH]. constructor; [exact IH|].
  rewrite Forall_forall in *. intros y Iy. apply filter_In in Iy. apply F. tauto.
Qed.

Lemma range_keys_spec m k1 k2 : NoDup (mkeys m) ->
  let ks := range_keys m k1 k2 in
  StronglySorted (fun x y => str_leb x y = true) ks /\ NoDup ks /\
  (forall k, In k ks <-> (mhas m k = true /\ (key_between k1 k2 k \/ key_between k2 k1 k))).
Proof.
  intros N ks. destruct (keys_as_string_spec m m N (Permutation_refl m)) as (P & ND & S & _ & _).
  split; [|split].
  - apply sorted_filter. apply Sorted_StronglySorted; [|exact S]. intros x y z. apply str_leb_trans.
  - apply NoDup_filter. exact ND.
  - intro k. unfold ks, range_keys. rewrite filter_In, in_key_range_iff.
    assert (K : In k (dict_keys_as_string m) <-> mhas m k = true).
    { split; intro H.
      - eapply Permutation_in in H; [|exact P]. apply mget_keys in H. destruct H as [v Hv]. unfold mhas. rewrite Hv. reflexivity.
      - eapply Permutation_in; [apply Permutation_sym; exact P|]. apply mget_keys. unfold mhas in H. destruct (mget m k) as [v|]; [exists v; reflexivity|discriminate]. }
    rewrite K. unfold str_ltb. destruct (str_leb k1 k2) eqn:L; cbn [negb].
    + split; [tauto|]. intros [H [B|B]]; [tauto|]. split; [exact H|]. destruct B as [B1 B2].
      assert (k = k1) by (apply str_leb_antisym; [exact B2|eapply str_leb_trans; [exact L|exact B1]]). subst k. split; [apply str_leb_refl|exact L].
    + split; [tauto|]. intros [H [B|B]]; [|tauto]. exfalso. destruct B as [B1 B2]. rewrite (str_leb_trans _ _ _ B1 B2) in L. discriminate.
Qed.

Lemma args_scal vs : Forall scal vs -> vs <> [] -> snd (convert_args VNil vs) = vs.
Proof. intros S N. destruct S as [|v vs Sv Ss]; [contradiction N; reflexivity|]. rewrite convert_args_values by assumption. reflexivity. Qed.

Lemma key_range_spec i m a b : NoDup (mkeys m) -> scal a -> scal b ->
  exists ks r, StronglySorted (fun x y => str_leb x y = true) ks /\ NoDup ks /\
    (forall k, In k ks <-> (mhas m k = true /\ (key_between (sprint a) (sprint b) k \/ key_between (sprint b) (sprint a) k))) /\
    Forall2 (fun k w => exists v, mget m k = Some v /\ converts i v w) ks r /\
    tpl_slice (VDict i m) [a; b] = Ok (VList i (if str_leb (sprint a) (sprint b) then r else rev r)).
Proof.
  intros N Sa Sb. destruct (range_keys_spec m (sprint a) (sprint b) N) as (SS & ND & K).
  exists (range_keys m (sprint a) (sprint b)), (map (fun k => conv i (mget0 m k)) (range_keys m (sprint a) (sprint b))).
  split; [exact SS|]. split; [exact ND|]. split; [exact K|]. split.
  - apply Forall2_map_r. apply Forall_forall. intros k Hk. apply K in Hk. destruct Hk as [Hk _]. unfold mhas in Hk.
    destruct (mget m k) as [v|] eqn:Eg; [|discriminate]. exists v. split; [reflexivity|]. unfold mget0. rewrite Eg. apply conv_converts.
  - unfold tpl_slice, slice_internal. rewrite (args_scal [a; b] (Forall_cons a Sa (Forall_cons b Sb (Forall_nil scal))) ltac:(discriminate)).
    cbn [c_try_as_dict]. rewrite slice_map_eq. unfold str_ltb. destruct (str_leb (sprint a) (sprint b)); cbn [negb trap]; [reflexivity|].
    rewrite map_rev. reflexivity.
Qed.

Lemma slice_map_perm i m m' ex args : NoDup (mkeys m) -> Permutation m m' -> slice_map i m' ex args = slice_map i m ex args.
Proof.
  intros N P. assert (G : forall k, mget0 m' k = mget0 m k) by (intro k; symmetry; apply mget0_perm; assumption).
  assert (G1 : forall k, dict_get1 m' k = dict_get1 m k) by (intro k; apply G).
  destruct args as [|a [|b [|c r]]]; try reflexivity.
  - cbn. rewrite G1. reflexivity.
  - destruct ex.
    + cbn. rewrite !G1. reflexivity.
    + rewrite !slice_map_eq. unfold range_keys. destruct (keys_as_string_spec m m' N P) as (_ & _ & _ & -> & _).
      do 2 f_equal. apply map_ext. intro k. rewrite G. reflexivity.
  - destruct ex; [|reflexivity]. cbn. rewrite !G1. do 5 f_equal. apply map_ext. intro k. rewrite G1. reflexivity.
Qed.

Lemma slice_any_order i m m' args : NoDup (mkeys m) -> Permutation m m' ->
  tpl_slice (VDict i m') args = tpl_slice (VDict i m) args /\ tpl_extract (VDict i m') args = tpl_extract (VDict i m) args.
Proof.
  intros N P. unfold tpl_slice, tpl_extract, slice_internal. cbn [c_try_as_dict]. rewrite !(slice_map_perm i m m') by assumption. split; reflexivity.
Qed.

Lemma dict_extract i m args : Forall scal args -> (2 <= List.length args)%nat ->
  exists r, tpl_extract (VDict i m) args = Ok (VList i r) /\
    Forall2 (fun a w => (exists v, mget m (sprint a) = Some v /\ converts i v w) \/ (mget m (sprint a) = None /\ w = VNil)) args r.
Proof.
  intros S L. exists (map (fun k => conv i (dict_get1 m k)) args). split.
  - unfold tpl_extract, slice_internal. rewrite (args_scal args S) by (destruct args; [cbn in L; lia|discriminate]).
    cbn [c_try_as_dict]. destruct args as [|a [|b r]]; cbn [List.length] in L; try lia. destruct r; reflexivity.
  - apply Forall2_map_r. apply Forall_forall. intros a _. unfold dict_get1, mget0. destruct (mget m (sprint a)) as [v|].
    + left. exists v. split; [reflexivity|apply conv_converts].
    + right. split; reflexivity.
Qed.

Lemma dict_single i m a : scal a ->
  tpl_slice (VDict i m) [a] = Ok (match mget m (sprint a) with Some v => v | None => VNil end) /\
  tpl_extract (VDict i m) [a] = tpl_slice (VDict i m) [a].
Proof.
  intro S. unfold tpl_slice, tpl_extract, slice_internal. rewrite (args_scal [a] (Forall_cons a S (Forall_nil scal)) ltac:(discriminate)). split; reflexivity.
Qed.

Lemma dict_many i m a b c r : Forall scal (a :: b :: c :: r) -> exists e, tpl_slice (VDict i m) (a :: b :: c :: r) = Err e.
Proof.
  intro S. unfold tpl_slice, slice_internal. rewrite (args_scal _ S ltac:(discriminate)). eexists. reflexivity.
Qed.

Lemma slice_native t m args : exists m', converts dflt (VMap t m) (VDict dflt m') /\
  tpl_slice (VMap t m) args = tpl_slice (VDict dflt m') args /\ tpl_extract (VMap t m) args = tpl_extract (VDict dflt m') args.
Proof.
  pose proof (conv_converts dflt (VMap t m)) as C. cbn [conv] in C.
  eexists. split; [exact C|]. split; reflexivity.
Qed.

Lemma safe_index_text nm s k def :
  (forall p c, k = Z.of_nat p -> nth_error s p = Some c -> safe_index (VScal (SStr nm s)) k def = Ok (VScal (SInt KUint8 (Z.of_N (N_of_ascii c))))) /\
  (~ (0 <= k < zlen s) -> safe_index (VScal (SStr nm s)) k def = Ok def).
Proof.
  unfold safe_index. split.
  - intros p x -> H. pose proof (nth_error_Some s p) as S. rewrite H in S. assert (p < List.length s)%nat by (apply S; discriminate).
    replace (Z.of_nat p <? 0) with false by (symmetry; apply Z.ltb_ge; lia).
    replace (zlen s <=? Z.of_nat p) with false by (symmetry; apply Z.leb_gt; unfold zlen; lia). cbn [orb]. rewrite Nat2Z.id.
    do 6 f_equal. apply nth_error_nth. exact H.
  - intro N. destruct (Z.ltb_spec k 0); [reflexivity|]. replace (zlen s <=? k) with true by (symmetry; apply Z.leb_le; lia). reflexivity.
Qed.

(** ** key and content *)

Lemma key_content_one v k x : (exists t, v = VMap t [(k, x)]) \/ (exists i, v = VDict i [(k, x)]) ->
  tpl_key v = Ok (vstr k) /\ tpl_content v = Ok x.
Proof. intros [[t ->]|[i ->]]; split; reflexivity. Qed.

Lemma key_content_scalar v : scal v \/ v = VNil -> (exists e, tpl_key v = Err e) /\ (exists e, tpl_content v = Err e).
Proof. intros [(s & ->)| ->]; split; eexists; reflexivity. Qed.
Lemma key_content_other i m : List.length m <> 1%nat -> (exists e, tpl_key (VDict i m) = Err e) /\ (exists e, tpl_content (VDict i m) = Err e).
Proof.
  intro L. destruct m as [|[k x] [|p m]]; cbn [List.length] in L; try lia; split; eexists; reflexivity.
Qed.

Lemma key_content_list i kvs : forall j,
  tpl_key (VList i (map (fun kv => VDict j [kv]) kvs)) = Ok (VSlice 0 (map (fun kv => vstr (fst kv)) kvs)) /\
  exists m, tpl_content (VList i (map (fun kv => VDict j [kv]) kvs)) = Ok (VMap 0 m) /\ NoDup (mkeys m) /\ forall k, mget m k = mget (rev kvs) k.
Proof.
  intro j.
  assert (X : single_element (VList i (map (fun kv => VDict j [kv]) kvs)) =
    Ok (VSlice 0 (map (fun kv => vstr (fst kv)) kvs), VMap 0 (mset_all kvs []))).
  { cbn [single_element].
    assert (Y : (fix each (l : list value) : res (list (value * value)) :=
                   match l with
                   | [] => Ok []
                   | x :: r => do kv <- single_element x; do kvs <- each r; Ok (kv :: kvs)
                   end) (map (fun kv => VDict j [kv]) kvs) = Ok (map (fun kv => (vstr (fst kv), snd kv)) kvs)).
    { induction kvs as [|[k x] kvs IH]; [reflexivity|]. cbn [map single_element bind]. rewrite IH. reflexivity. }
    rewrite Y. cbn [bind]. rewrite !map_map. cbn [fst snd]. do 3 f_equal. f_equal.
    rewrite <- (map_id kvs) at 2. apply map_ext. intros [k x]. reflexivity. }
  unfold tpl_key, tpl_content. rewrite X. cbn [bind fst snd]. split; [reflexivity|]. exists (mset_all kvs []). split; [reflexivity|].
  split; [apply NoDup_mset_all; constructor|]. intro k. rewrite mget_mset_all. destruct (mget (rev kvs) k); reflexivity.
Qed.

End WithEnv.
