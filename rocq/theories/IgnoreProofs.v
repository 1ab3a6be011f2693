(** Proofs about the razor names left alone. *)
From Coq Require Import String Ascii List ZArith NArith Bool Lia ZifyBool ZifyN.
From Verif Require Import GoStr GoStrFacts Utf8 Utf8Facts ReModel ReSyntaxModel RazorAssignModel ReSound RegexSpec RegexProofs RegexProofs4 CliModel CliSpec CliProofs IgnoreModel IgnoreSpec.
Import ListNotations.
Local Open Scope char_scope.

(** ** Searching a delimiter and what follows *)
Lemma word_low : forall c, word_char c = true -> low c = true.
Proof. intros [[] [] [] [] [] [] [] []] H; try reflexivity; vm_compute in H; discriminate H. Qed.
Lemma word_byte_char : forall c, word_byte c = word_char c.
Proof. intros [[] [] [] [] [] [] [] []]; reflexivity. Qed.
Lemma every_byte : forall c, In c (map ascii_of_nat (seq 0 256)).
Proof. intros c. apply in_map_iff. exists (nat_of_ascii c). split; [apply ascii_nat_embedding|]. apply in_seq. pose proof (nat_ascii_bounded c). lia. Qed.
Lemma hide_other : forall d mark h u t, ~ In d u -> hide d mark h (u ++ t) = u ++ hide d mark h t.
Proof.
  intros d mark h u t N. induction u as [|c u IH]; [reflexivity|]. cbn [app hide]. destruct (Ascii.eqb_spec c d) as [->|_]; [exfalso; apply N; left; reflexivity|].
  cbn [andb app]. rewrite IH by (intros I; apply N; right; exact I). reflexivity.
Qed.
(** The expression finds the delimiter d followed by texts accepted by [hit], and takes a name of what follows. *)
Definition finds (r : re) (d : ascii) (hit : str -> bool) : Prop :=
  forall b s,
    (forall x, s = d :: x -> hit x = true -> exists m q, match_at r (b, s) = Some (q, []) /\ x = m ++ snd q /\ Forall (fun c => word_char c = true) m) /\
    ((forall x, s = d :: x -> hit x = false) -> match_at r (b, s) = None).
Lemma names_not : forall d m, word_char d = false -> Forall (fun c => word_char c = true) m -> ~ In d m.
Proof. intros d m D F I. rewrite Forall_forall in F. rewrite (F _ I) in D. discriminate D. Qed.
Lemma first_here : forall d mark m, replace_first [d] mark (d :: m) = mark ++ m.
Proof. intros d mark m. unfold replace_first. cbn [index]. replace (has_prefix [d] (d :: m)) with true by (cbn; rewrite Ascii.eqb_refl; reflexivity). reflexivity. Qed.
Lemma finds_scan : forall r d hit mark, low d = true -> word_char d = false -> finds r d hit -> forall s b last,
  exists l, scan r last (b, s) l /\ flat_map (part_output (fun m _ => replace_first [d] mark m)) l = hide d mark hit s.
Proof.
  intros r d hit mark L W F s. pattern s. apply str_len_ind. clear s. intros s IH b last. destruct (F b s) as (Y & N). destruct s as [|c x].
  - exists []. split; [|reflexivity]. apply sc_end; [reflexivity|]. intros q g (M & _). pose proof (eq_trans (eq_sym M) (N ltac:(intros; discriminate))) as Z. discriminate Z.
  - destruct (Ascii.eqb c d && hit x) eqn:E.
    + apply andb_true_iff in E. destruct E as (E & H). apply Ascii.eqb_eq in E. subst c. destruct (Y x eq_refl H) as (m & [b' t] & M & X & FM). cbn [snd] in X. subst x.
      destruct (IH t ltac:(cbn; rewrite app_length; lia) b' true) as (l & SC & O).
      assert (T : taken (b, d :: m ++ t) (b', t) = d :: m).
      { unfold taken. cbn [snd]. change (d :: m ++ t) with ((d :: m) ++ t). rewrite app_length, Nat.add_sub, firstn_app, firstn_all, Nat.sub_diag, firstn_O, app_nil_r. reflexivity. }
      exists (Matched (d :: m) [] :: l). split.
      * pose proof (sc_match r last (b, d :: m ++ t) (b', t) [] l) as SM. rewrite T in SM. apply SM; [split; [exact M | intros _; rewrite T; discriminate] | discriminate | exact SC].
      * cbn [flat_map part_output]. rewrite O, first_here. cbn [hide]. rewrite Ascii.eqb_refl, H. cbn [andb]. rewrite hide_other by (apply names_not; assumption). rewrite app_assoc. reflexivity.
    + assert (NM : match_at r (b, c :: x) = None).
      { apply N. intros y Z. injection Z as -> ->. rewrite Ascii.eqb_refl in E. exact E. }
      pose proof (decode_width (c :: x) ltac:(discriminate)) as DW.
      destruct (IH (skipn (snd (decode (c :: x))) (c :: x)) ltac:(rewrite skipn_length; lia) (fst (next_place (b, c :: x))) false) as (l & SC & O).
      exists (Copied (firstn (snd (decode (c :: x))) (c :: x)) :: l). split.
      * apply (sc_copy r last (b, c :: x)); [discriminate | intros q g (M & _); pose proof (eq_trans (eq_sym M) NM) as Z; discriminate Z | exact SC].
      * cbn [flat_map part_output]. rewrite O. destruct (low c) eqn:LC.
        { rewrite (decode_low c x LC). cbn [snd firstn skipn hide]. rewrite E. reflexivity. }
        destruct (ReSound.decode_high _ every_byte (fun q _ => [q]) c x LC) as (u & U & _ & A). 
        assert (FU : firstn (snd (decode (c :: x))) (c :: x) = u).
        { apply (app_inv_tail (skipn (snd (decode (c :: x))) (c :: x))). rewrite firstn_skipn. exact U. }
        pose proof (f_equal (hide d mark hit) U) as HU. rewrite hide_other in HU by (intros I; rewrite (A _ I) in L; discriminate L).
        unfold str in *. rewrite FU. symmetry. exact HU.
Qed.
Lemma finds_replace : forall r d hit mark s, low d = true -> word_char d = false -> finds r d hit ->
  replace_re r (fun m _ => replace_first [d] mark m) s = hide d mark hit s.
Proof.
  intros r d hit mark s L W F. destruct (finds_scan r d hit mark L W F s None false) as (l & SC & O). rewrite <- O. unfold replace_re. apply scan_search; [cbn [snd]; lia | exact SC].
Qed.

(** ** The expressions *)
Definition bytes_then (a : re) (w : str) : re := fold_right (fun c x => RSeq (RByte (Ascii.eqb c)) x) a w.
Definition last_of (b : option ascii) (w : str) : option ascii := fold_left (fun _ c => Some c) w b.
Lemma bytes_then_match : forall R w a b s g (k : place -> groups -> option R),
  rmatch (bytes_then a w) (b, s) g k = if begins w s then rmatch a (last_of b w, skipn (length w) s) g k else None.
Proof.
  intros R. induction w as [|c w IH]; intros a b s g k.
  - destruct s; reflexivity.
  - cbn [bytes_then fold_right rmatch snd]. destruct s as [|x s]; [reflexivity|]. cbn [begins length skipn]. destruct (Ascii.eqb_spec c x) as [<-|_]; [|reflexivity]. cbn [andb].
    exact (IH a (Some c) s g k).
Qed.
Lemma last_word : forall w b, w <> [] -> Forall (fun c => word_char c = true) w -> exists c, last_of b w = Some c /\ word_char c = true.
Proof.
  intros w b N F. destruct (exists_last N) as (u & c & ->). exists c. unfold last_of. rewrite fold_left_app. split; [reflexivity|]. apply Forall_app in F. destruct F as (_ & F). inversion F. assumption.
Qed.
Lemma after_word : forall c (s : str), word_char c = true -> at_boundary (Some c, s) = match s with [] => true | x :: _ => negb (word_char x) end.
Proof. intros c s W. unfold at_boundary. cbn [fst snd]. rewrite word_byte_char, W. destruct s as [|x s]; [reflexivity|]. rewrite word_byte_char. reflexivity. Qed.
Lemma name_is : forall w s, Forall (fun c => word_char c = true) w ->
  begins w s && match skipn (length w) s with [] => true | x :: _ => negb (word_char x) end = str_eqb (name_of s) w.
Proof.
  induction w as [|c w IH]; intros s F.
  - cbn [begins length skipn andb]. destruct s as [|x s]; [reflexivity|]. cbn [name_of]. destruct (word_char x); reflexivity.
  - inversion F as [|? ? C F']; subst. destruct s as [|x s]; [reflexivity|]. cbn [begins length skipn name_of]. destruct (Ascii.eqb_spec c x) as [<-|NE].
    + rewrite C. cbn [andb]. rewrite (IH s F'). destruct (str_eqb (name_of s) w) eqn:Q; symmetry; [apply str_eqb_eq in Q; rewrite Q; apply str_eqb_eq; reflexivity | apply not_true_is_false; intros Z; apply str_eqb_eq in Z; injection Z as Z; apply str_eqb_eq in Z; congruence].
    + cbn [andb]. symmetry. apply not_true_is_false. intros E. apply str_eqb_eq in E. destruct (word_char x); [injection E as -> _; apply NE; reflexivity | discriminate E].
Qed.
Lemma begins_app : forall w s, begins w s = true -> s = w ++ skipn (length w) s.
Proof.
  induction w as [|c w IH]; intros s B; [reflexivity|]. destruct s as [|x s]; [discriminate|]. cbn [begins] in B. apply andb_true_iff in B. destruct B as (E & B). apply Ascii.eqb_eq in E. subst x. cbn [length skipn app]. f_equal. exact (IH _ B).
Qed.
Lemma finds_name : forall r d w, is_name w -> same r (bytes_then (RSeq RBound RNil) (d :: w)) -> finds r d (fun x => str_eqb (name_of x) w).
Proof.
  intros r d w (NE & F) SM b s.
  assert (E : match_at r (b, s) = match s with
      | x :: t => if Ascii.eqb d x && str_eqb (name_of t) w then Some ((last_of (Some d) w, skipn (length w) t), []) else None
      | [] => None end).
  { unfold match_at. rewrite (SM _ _ _ _), bytes_then_match. destruct s as [|x t]; [reflexivity|]. cbn [begins]. destruct (Ascii.eqb d x); [|reflexivity]. cbn [andb length skipn].
    change (last_of b (d :: w)) with (last_of (Some d) w). destruct (last_word w (Some d) NE F) as (c & -> & WC). rewrite <- (name_is w t F). destruct (begins w t); [|reflexivity]. cbn [andb rmatch]. rewrite (after_word c _ WC). reflexivity. }
  rewrite E. split.
  - intros x -> H. rewrite Ascii.eqb_refl, H. cbn [andb]. exists w. eexists. split; [reflexivity|]. cbn [snd]. split; [|exact F]. rewrite <- (name_is w x F) in H. apply andb_true_iff in H. apply begins_app, H.
  - intros H. destruct s as [|x t]; [reflexivity|]. destruct (Ascii.eqb_spec d x) as [<-|_]; [|reflexivity]. rewrite (H t eq_refl). reflexivity.
Qed.
Definition any_char : re := RRune (CTest (fun n => false || negb (N.eqb n 10))).
Lemma lazily : forall (k : place -> groups -> option (place * groups)),
  (forall c (s : str), word_char c = true -> k (Some c, s) [] = if match s with [] => true | x :: _ => negb (word_char x) end then Some ((Some c, s), []) else None) ->
  forall (t : str) c n, word_char c = true -> length t <= n ->
  exists b, star_loop false (fun p g k => rmatch any_char p g k) k n (Some c, t) [] = Some ((b, skipn (length (name_of t)) t), []).
Proof.
  intros k K. induction t as [|x t IH]; intros c n C L.
  - exists (Some c). pose proof (K c [] C) as A. destruct n; cbn [star_loop]; unfold place, str in *; rewrite A; reflexivity.
  - destruct n as [|n]; [cbn in L; lia|]. cbn [name_of]. pose proof (K c (x :: t) C) as A. cbn iota in A. destruct (word_char x) eqn:X.
    + destruct (IH x n X) as (b & E); [cbn in L; lia|]. exists b. cbn [star_loop]. cbn [negb] in A. unfold place, str in *. rewrite A.
      unfold any_char at 1. cbn [rmatch snd]. rewrite (decode_low x t (word_low x X)). replace (in_class (CTest (fun n : N => false || negb (n =? 10)%N)) (N_of_ascii x)) with true.
      2: { symmetry. clear - X. revert X. destruct x as [[] [] [] [] [] [] [] []]; intros X; try reflexivity; vm_compute in X; discriminate X. }
      change (last_byte (firstn 1 (x :: t))) with (Some x). change (skipn 1 (x :: t)) with t. cbn [snd]. destruct (Nat.ltb_spec (length t) (length (x :: t))) as [_|Z]; [|cbn in Z; lia]. exact E.
    + exists (Some c). cbn [star_loop]. cbn [negb] in A. unfold place, str in *. rewrite A. reflexivity.
Qed.
Lemma name_split : forall t, t = name_of t ++ skipn (length (name_of t)) t /\ Forall (fun c => word_char c = true) (name_of t).
Proof. induction t as [|x t (E & F)]; [split; [reflexivity | constructor]|]. cbn [name_of]. destruct (word_char x) eqn:X; [|split; [reflexivity | constructor]]. split; [cbn [app length skipn]; f_equal; exact E | constructor; assumption]. Qed.
Lemma finds_prefix : forall r d w, is_name w -> same r (bytes_then (RSeq (RStar false any_char) (RSeq RBound RNil)) (d :: w)) -> finds r d (begins w).
Proof.
  intros r d w (NE & F) SM b s. destruct (last_word w (Some d) NE F) as (c & LC & WC).
  assert (E : exists b', match_at r (b, s) = match s with
      | x :: t => if Ascii.eqb d x && begins w t then Some ((b', skipn (length (name_of (skipn (length w) t))) (skipn (length w) t)), []) else None
      | [] => None end).
  { unfold match_at. rewrite (SM _ _ _ _), bytes_then_match. destruct s as [|x t]; [exists None; reflexivity|]. cbn [begins]. destruct (Ascii.eqb d x); [|exists None; reflexivity]. cbn [andb length skipn].
    change (last_of b (d :: w)) with (last_of (Some d) w). destruct (begins w t); [|exists None; reflexivity]. rewrite LC. change (rmatch (RSeq (RStar false any_char) (RSeq RBound RNil)) (Some c, skipn (length w) t) [] (fun q g => Some (q, g))) with
      (star_loop false (fun p g k => rmatch any_char p g k) (fun p g => rmatch (RSeq RBound RNil) p g (fun q g => Some (q, g))) (length (skipn (length w) t)) (Some c, skipn (length w) t) []).
    apply lazily; [|exact WC | lia]. intros c0 s0 C0. cbn [rmatch]. rewrite (after_word c0 s0 C0). reflexivity. }
  destruct E as (b' & E). rewrite E. split.
  - intros x -> H. rewrite Ascii.eqb_refl, H. cbn [andb]. destruct (name_split (skipn (length w) x)) as (X & FX). exists (w ++ name_of (skipn (length w) x)). eexists. split; [reflexivity|]. cbn [snd]. split; [rewrite <- app_assoc, <- X; exact (begins_app w x H) | apply Forall_app; split; assumption].
  - intros H. destruct s as [|x t]; [reflexivity|]. destruct (Ascii.eqb_spec d x) as [<-|_]; [|reflexivity]. rewrite (H t eq_refl). reflexivity.
Qed.

(** ** Reading them *)
Definition letters_then (x : syn) (w : str) : syn := fold_right (fun c y => SAtom (AChar (XPlain c)) QOne y) x w.
Lemma letters_text : forall x w, syn_text (letters_then x w) = w ++ syn_text x.
Proof. intros x. induction w as [|c w IH]; [reflexivity|]. cbn [letters_then fold_right syn_text atom_text char_text quant_text app]. f_equal. exact IH. Qed.
Lemma letters_ok : forall x w, Forall (fun c => low_char c /\ ~ In c special) w -> syn_ok x -> syn_ok (letters_then x w).
Proof. intros x w F X. induction F as [|c w (L & N) F IH]; [exact X|]. cbn [letters_then fold_right syn_ok atom_ok char_ok quant_ok]. repeat split; assumption. Qed.
Lemma letters_alts : forall beyond x a w, alternatives beyond false false 0 x = [a] -> alternatives beyond false false 0 (letters_then x w) = [bytes_then a w].
Proof.
  intros beyond x a w A. induction w as [|c w IH]; [exact A|]. cbn [letters_then fold_right alternatives atom_groups Nat.add]. change (fold_right (fun c y => SAtom (AChar (XPlain c)) QOne y) x w) with (letters_then x w). rewrite IH.
  cbn [quant_re atom_re char_code bytes_then fold_right]. rewrite ascii_N_embedding. reflexivity.
Qed.
Lemma word_plain : forall c, word_char c = true -> low_char c /\ ~ In c special.
Proof. intros [[] [] [] [] [] [] [] []] H; try (vm_compute in H; discriminate H); (split; [reflexivity | cbn; intuition discriminate]). Qed.
