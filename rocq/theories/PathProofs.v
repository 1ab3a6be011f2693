(** Proofs about paths. *)
From Coq Require Import String Ascii List ZArith NArith Bool Lia.
From Verif Require Import GoStr GoStrFacts PathModel PathSpec.
Import ListNotations.

Lemma step_eq w e : step w e = if str_eqb e [] || str_eqb e $"." then w else if str_eqb e $".." then tl w else e :: w.
Proof.
  unfold step. destruct (list_eq_dec ascii_dec e []) as [->|N1]; [reflexivity|]. destruct (str_eqb_spec e []); [contradiction|]. cbn [orb].
  destruct (list_eq_dec ascii_dec e $".") as [->|N2]; [reflexivity|]. destruct (str_eqb_spec e $"."); [contradiction|].
  destruct (list_eq_dec ascii_dec e $"..") as [->|N3]; [reflexivity|]. destruct (str_eqb_spec e $".."); [contradiction|]. reflexivity.
Qed.

(** Elements kept by [norm]. *)
Definition elem (e : str) : Prop := e <> [] /\ e <> $"." /\ ~ In SLASH e.
Definition name (e : str) : Prop := elem e /\ e <> $"..".
Lemma step_name w e : name e -> step w e = e :: w.
Proof.
  intros ((A & B & _) & C). rewrite step_eq. destruct (str_eqb_spec e []); [contradiction|]. destruct (str_eqb_spec e $"."); [contradiction|].
  destruct (str_eqb_spec e $".."); [contradiction|]. reflexivity.
Qed.
Lemma names_walk es : forall w, Forall name es -> fold_left step es w = rev es ++ w.
Proof. induction es as [|e es IH]; intros w H; [reflexivity|]. inversion H; subst. cbn [fold_left rev]. rewrite step_name, IH by assumption. rewrite <- app_assoc. reflexivity. Qed.

Lemma abs_iff p : is_abs p = true <-> absolute p.
Proof. apply has_prefix_iff. Qed.

Lemma push_step b st e w : (b = true -> w = []) -> Forall elem st ->
  fold_left step (rev (push b st e)) w = step (fold_left step (rev st) w) e.
Proof.
  intros R V. rewrite step_eq. unfold push. destruct (str_eqb e [] || str_eqb e $".") eqn:D; [reflexivity|]. destruct (str_eqb_spec e $"..") as [->|N].
  - destruct st as [|t st].
    + destruct b; [rewrite R by reflexivity; reflexivity|reflexivity].
    + destruct (str_eqb_spec t $"..") as [->|Nt].
      * cbn [rev]. rewrite !fold_left_app. cbn [fold_left]. rewrite !(step_eq _ $".."). reflexivity.
      * inversion V; subst. cbn [rev]. rewrite fold_left_app. cbn [fold_left]. rewrite step_name by (split; assumption). reflexivity.
  - cbn [rev]. rewrite fold_left_app. cbn [fold_left]. rewrite step_eq, D. destruct (str_eqb_spec e $".."); [contradiction|]. reflexivity.
Qed.
Lemma push_elem b st e : ~ In SLASH e -> Forall elem st -> Forall elem (push b st e).
Proof.
  intros NS V. unfold push. destruct (str_eqb_spec e []); [exact V|]. destruct (str_eqb_spec e $"."); [exact V|]. cbn [orb].
  assert (X : elem e) by (repeat split; assumption). destruct (str_eqb_spec e $".."); [|constructor; assumption].
  destruct st as [|t st]; [destruct b; constructor; assumption|]. destruct (str_eqb t $".."); [constructor; assumption|]. inversion V; assumption.
Qed.
Lemma push_name st e : ~ In SLASH e -> Forall name st -> Forall name (push true st e).
Proof.
  intros NS V. unfold push. destruct (str_eqb_spec e []); [exact V|]. destruct (str_eqb_spec e $"."); [exact V|]. cbn [orb].
  destruct (str_eqb_spec e $".."); [|constructor; [repeat split; assumption|assumption]].
  destruct st as [|t st]; [constructor|]. inversion V as [|? ? Vt V']; subst. destruct (str_eqb_spec t $".."); [destruct Vt; contradiction|exact V'].
Qed.
Lemma push_fold b es : forall st w, (b = true -> w = []) -> Forall elem st -> Forall (fun e => ~ In SLASH e) es ->
  Forall elem (fold_left (push b) es st) /\ fold_left step (rev (fold_left (push b) es st)) w = fold_left step es (fold_left step (rev st) w).
Proof.
  induction es as [|e es IH]; intros st w R V F; [split; [exact V|reflexivity]|]. inversion F; subst. cbn [fold_left].
  destruct (IH (push b st e) w R) as [A B]; [apply push_elem; assumption|assumption|]. split; [exact A|]. rewrite B, push_step by assumption. reflexivity.
Qed.
Lemma push_names es : forall st, Forall name st -> Forall (fun e => ~ In SLASH e) es -> Forall name (fold_left (push true) es st).
Proof. induction es as [|e es IH]; intros st V F; [exact V|]. inversion F; subst. cbn [fold_left]. apply IH; [apply push_name; assumption|assumption]. Qed.

Lemma norm_elem p : Forall elem (norm p).
Proof.
  unfold norm. apply Forall_rev. apply (push_fold (is_abs p) (split [SLASH] p) [] []); [intros; reflexivity|constructor|apply split1_fields].
Qed.
Lemma norm_names p : absolute p -> Forall name (norm p).
Proof. intro A. apply abs_iff in A. unfold norm. rewrite A. apply Forall_rev, push_names; [constructor|apply split1_fields]. Qed.
Lemma norm_walk p w : (absolute p -> w = []) -> fold_left step (norm p) w = walk w p.
Proof.
  intro R. unfold norm. rewrite (proj2 (push_fold (is_abs p) (split [SLASH] p) [] w ltac:(intro A; apply R, abs_iff; exact A) ltac:(constructor) (split1_fields _ _))). reflexivity.
Qed.
Lemma abs_norm p : absolute p -> walk [] p = rev (norm p).
Proof. intro A. rewrite <- norm_walk by reflexivity. rewrite names_walk by (apply norm_names; exact A). apply app_nil_r. Qed.

Lemma walk_join es w : Forall elem es -> es <> [] -> walk w (join [SLASH] es) = fold_left step es w.
Proof.
  intros V N. unfold walk. change $"/" with [SLASH]. rewrite split1_join; [reflexivity|exact N|]. eapply Forall_impl; [|exact V]. intros e (_ & _ & H). exact H.
Qed.
Lemma join_not_abs es : Forall elem es -> ~ absolute (join [SLASH] es).
Proof.
  intros V (r & H). destruct es as [|e es]; [discriminate H|]. inversion V as [|? ? (N & _ & NS) _]; subst. destruct e as [|c e]; [contradiction|].
  destruct es; cbn in H; inversion H; subst; apply NS; left; reflexivity.
Qed.
Lemma walk_abs_cons w r : walk w (SLASH :: r) = walk w r.
Proof. unfold walk. change $"/" with [SLASH]. rewrite split1_cons_sep. reflexivity. Qed.
Lemma walk_nil w : walk w [] = w.
Proof. reflexivity. Qed.

Lemma clean_abs p : absolute p -> clean p = SLASH :: join [SLASH] (norm p).
Proof. intro A. apply abs_iff in A. unfold clean. rewrite A. reflexivity. Qed.
Lemma clean_rel p : ~ absolute p -> clean p = match norm p with [] => $"." | es => join [SLASH] es end.
Proof. intro A. unfold clean. destruct (is_abs p) eqn:X; [apply abs_iff in X; contradiction|reflexivity]. Qed.
Lemma abs_dec p : {absolute p} + {~ absolute p}.
Proof. destruct (is_abs p) eqn:X; [left; apply abs_iff; exact X|right; intro A; apply abs_iff in A; congruence]. Qed.
Lemma clean_absolute p : absolute (clean p) <-> absolute p.
Proof.
  destruct (abs_dec p) as [A|A].
  - split; [intros _; exact A|]. intros _. rewrite clean_abs by exact A. exists (join [SLASH] (norm p)). reflexivity.
  - split; [|contradiction]. rewrite clean_rel by exact A. destruct (norm p) as [|e es] eqn:N; [intros (r & H); discriminate H|].
    intro H. exfalso. revert H. apply join_not_abs. rewrite <- N. apply norm_elem.
Qed.
Lemma walk_clean p w : (absolute p -> w = []) -> walk w (clean p) = walk w p.
Proof.
  intro R. destruct (abs_dec p) as [A|A].
  - rewrite R by exact A. rewrite clean_abs by exact A. rewrite walk_abs_cons. destruct (norm p) as [|e es] eqn:N.
    + rewrite <- (norm_walk p []) by reflexivity. rewrite N. reflexivity.
    + rewrite walk_join; [|rewrite <- N; apply norm_elem|discriminate]. rewrite <- N. apply norm_walk. reflexivity.
  - rewrite clean_rel by exact A. rewrite <- (norm_walk p w R). destruct (norm p) as [|e es] eqn:N; [reflexivity|].
    apply walk_join; [rewrite <- N; apply norm_elem|discriminate].
Qed.
Lemma leads_fun here p : leads here p (if is_abs p then walk [] p else walk here p).
Proof. unfold leads. destruct (is_abs p) eqn:A; [left; split; [apply abs_iff; exact A|reflexivity]|right; split; [|reflexivity]]. intro X. apply abs_iff in X. congruence. Qed.

Lemma clean_leads here p w : leads here (clean p) w <-> leads here p w.
Proof.
  unfold leads. rewrite clean_absolute. split; (intros [[A ->]|[A ->]]; [left|right]); (split; [exact A|]); rewrite walk_clean; try reflexivity; intro; contradiction.
Qed.
Lemma rev_inj {A} (a b : list A) : rev a = rev b -> a = b.
Proof. intro H. rewrite <- (rev_involutive a), H. apply rev_involutive. Qed.
Lemma clean_unique p q : absolute p -> absolute q -> (clean p = clean q <-> walk [] p = walk [] q).
Proof.
  intros A B. split.
  - intro H. rewrite <- (walk_clean p []) by reflexivity. rewrite H. apply walk_clean. reflexivity.
  - intro H. rewrite !clean_abs by assumption. rewrite !abs_norm in H by assumption. apply rev_inj in H. rewrite H. reflexivity.
Qed.

(** ** Join *)
Lemma split_slash a b : split [SLASH] (a ++ SLASH :: b) = split [SLASH] a ++ split [SLASH] b.
Proof.
  rewrite split1_app_gen, split1_cons_sep. destruct (rev (split [SLASH] a)) as [|x r] eqn:R.
  - exfalso. apply (f_equal (@rev _)) in R. rewrite rev_involutive in R. exact (split_nonnil _ _ R).
  - rewrite app_nil_r. rewrite <- (rev_involutive (split [SLASH] a)), R. cbn [rev]. rewrite <- app_assoc. reflexivity.
Qed.
Lemma walk_slash w a b : walk w (a ++ SLASH :: b) = walk (walk w a) b.
Proof. unfold walk. change $"/" with [SLASH]. rewrite split_slash. apply fold_left_app. Qed.
Lemma absolute_app a b : a <> [] -> (absolute (a ++ b) <-> absolute a).
Proof.
  intro N. destruct a as [|c a]; [contradiction|]. split; intros (r & H); [exists a|exists (a ++ b)]; inversion H; reflexivity.
Qed.
Lemma join2_eq a b : a <> [] -> join2 a b = clean (a ++ SLASH :: b).
Proof. intro N. destruct a as [|c a]; [contradiction|]. destruct b; reflexivity. Qed.
Lemma join2_leads here a b w : a <> [] -> leads here a w -> leads here (join2 a b) (walk w b).
Proof.
  intros N H. rewrite join2_eq by exact N. apply clean_leads. unfold leads in *. rewrite absolute_app by exact N.
  destruct H as [[A ->]|[A ->]]; [left|right]; (split; [exact A|]); symmetry; apply walk_slash.
Qed.

(** ** Rel *)
Lemma strip_spec a : forall b x y, strip_common a b = (x, y) -> exists c, a = c ++ x /\ b = c ++ y /\ (forall e f x' y', x = e :: x' -> y = f :: y' -> e <> f).
Proof.
  induction a as [|e a IH]; intros b x y H; [inversion H; subst; exists []; repeat split; discriminate|]. cbn [strip_common] in H.
  destruct b as [|f b]; [inversion H; subst; exists []; repeat split; discriminate|]. destruct (str_eqb_spec e f) as [->|N].
  - destruct (IH b x y H) as (c & -> & -> & D). exists (f :: c). auto.
  - inversion H; subst. exists []. repeat split. intros ? ? ? ? X Y. inversion X; inversion Y; subst. exact N.
Qed.
Lemma ups_walk (b : list str) : forall w c, List.length w = List.length b -> fold_left step (map (fun _ => $"..") b) (w ++ c) = c.
Proof.
  induction b as [|e b IH]; intros w c L; [destruct w; [reflexivity|discriminate L]|]. destruct w as [|x w]; [discriminate L|]. cbn [map fold_left]. rewrite step_eq. cbn [app tl]. change (str_eqb $".." [] || str_eqb $".." $".") with false. change (str_eqb $".." $"..") with true. cbv iota. apply IH. inversion L. reflexivity.
Qed.
Lemma ups_elem (b : list str) : Forall elem (map (fun _ => $"..") b).
Proof. apply Forall_map, Forall_forall. intros e _. repeat split; try discriminate. intros [H|[H|[]]]; discriminate H. Qed.
Lemma name_elem es : Forall name es -> Forall elem es.
Proof. apply Forall_impl. intros e [H _]. exact H. Qed.

(** The relative path leads from the one to the other, going up only when needed. *)
Lemma rel_abs base targ : absolute base -> absolute targ ->
  exists r, rel base targ = Ok r /\ ~ absolute r /\ walk (walk [] base) r = walk [] targ /\
            (forall d, walk [] targ = d ++ walk [] base -> ~ In $".." (split $"/" r) /\ forall w, walk w r = d ++ w).
Proof.
  intros A B. unfold rel. destruct (str_eqb_spec (clean targ) (clean base)) as [E|E].
  - apply clean_unique in E; [|assumption..]. exists $".". split; [reflexivity|]. split; [intros (r & H); discriminate H|]. split; [symmetry; exact E|].
    intros d H. split; [intros [H'|[]]; discriminate H'|]. intro w. change (walk w $".") with w. rewrite E in H. apply (f_equal (@List.length str)) in H. rewrite app_length in H.
    destruct d; [reflexivity|cbn in H; lia].
  - rewrite (proj2 (abs_iff base) A), (proj2 (abs_iff targ) B). cbn [Bool.eqb]. destruct (strip_common (norm base) (norm targ)) as [b t] eqn:SC.
    destruct (strip_spec _ _ _ _ SC) as (c & Eb & Et & D). pose proof (norm_names base A) as Nb. pose proof (norm_names targ B) as Nt.
    rewrite Eb in Nb. rewrite Et in Nt. apply Forall_app in Nb, Nt. destruct Nb as [Nc Nb], Nt as [_ Nt].
    assert (G : match b with e :: _ => if str_eqb e $".." then Err $"Rel: can't make relative" else Ok (join [SLASH] (map (fun _ => $"..") b ++ t)) | [] => Ok (join [SLASH] t) end
              = Ok (join [SLASH] (map (fun _ => $"..") b ++ t))).
    { destruct b as [|e b]; [reflexivity|]. inversion Nb as [|? ? [_ H] _]; subst. destruct (str_eqb_spec e $".."); [contradiction|reflexivity]. }
    rewrite G. clear G. exists (join [SLASH] (map (fun _ => $"..") b ++ t)). split; [reflexivity|].
    assert (Ve : Forall elem (map (fun _ : str => $"..") b ++ t)) by (apply Forall_app; split; [apply ups_elem|apply name_elem; exact Nt]).
    assert (NN : map (fun _ : str => $"..") b ++ t <> []).
    { intro X. apply app_eq_nil in X. destruct X as [X1 ->]. apply map_eq_nil in X1. subst. apply E. apply clean_unique; [assumption..|]. rewrite !abs_norm by assumption. rewrite Eb, Et. reflexivity. }
    split; [apply join_not_abs; exact Ve|]. split.
    + rewrite walk_join by assumption. rewrite fold_left_app, abs_norm by exact A. rewrite Eb, rev_app_distr, ups_walk by (rewrite rev_length; reflexivity).
      rewrite names_walk by exact Nt. rewrite abs_norm by exact B. rewrite Et, rev_app_distr. reflexivity.
    + intros d H. rewrite !abs_norm in H by assumption. rewrite Eb, Et in H. rewrite !rev_app_distr in H.
      (* rev t ++ rev c = d ++ rev b ++ rev c *)
      rewrite app_assoc in H. apply app_inv_tail in H.
      assert (b = []).
      { destruct b as [|e b']; [reflexivity|]. exfalso. cbn [rev] in H. destruct t as [|f t']; [cbn in H; destruct d; [cbn in H; destruct (rev b'); discriminate H|discriminate H]|].
        cbn [rev] in H. rewrite app_assoc in H. apply app_inj_tail in H. destruct H as [_ H]. exact (D e f b' t' eq_refl eq_refl (eq_sym H)). }
      subst b. cbn [map app rev] in *. rewrite app_nil_r in H. subst d. split.
      * change $"/" with [SLASH]. rewrite split1_join; [|exact NN|eapply Forall_impl; [|exact Nt]; intros e ((_ & _ & X) & _); exact X].
        intro I. rewrite Forall_forall in Nt. destruct (Nt _ I) as [_ X]. apply X. reflexivity.
      * intro w. rewrite walk_join by assumption. apply names_walk. exact Nt.
Qed.

(** ** Result files *)
Lemma get_target f src tgt : tgt <> [] -> get_target_file f src tgt = do r <- relative src f; Ok (join2 tgt r).
Proof. intro N. destruct tgt; [contradiction|reflexivity]. Qed.
Lemma target_relative here src tgt f wt : ~ absolute f -> tgt <> [] -> leads here tgt wt ->
  exists r, get_target_file f src tgt = Ok r /\ leads here r (walk wt f).
Proof.
  intros A N L. unfold get_target_file, relative. destruct tgt as [|c tgt]; [contradiction|]. destruct (is_abs f) eqn:X; [apply abs_iff in X; contradiction|].
  cbn [bind]. exists (join2 (c :: tgt) f). split; [reflexivity|]. apply join2_leads; assumption.
Qed.
Lemma target_absolute src tgt f : absolute f -> absolute src -> absolute tgt ->
  exists r t, get_target_file f src tgt = Ok r /\ absolute r /\ walk [] r = walk (walk [] tgt) t /\ walk (walk [] src) t = walk [] f /\
    (forall d, walk [] f = d ++ walk [] src -> walk [] r = d ++ walk [] tgt).
Proof.
  intros A B C. assert (N : tgt <> []) by (intros ->; destruct C as (r & C); discriminate C). rewrite get_target by exact N. unfold relative. rewrite (proj2 (abs_iff f) A).
  destruct (rel_abs src f B A) as (t & -> & _ & W & D). cbn [bind]. exists (join2 tgt t), t. split; [reflexivity|].
  assert (L : leads [] (join2 tgt t) (walk (walk [] tgt) t)) by (apply join2_leads; [exact N|left; split; [exact C|reflexivity]]).
  assert (Ab : absolute (join2 tgt t)) by (rewrite join2_eq by exact N; apply clean_absolute, absolute_app; assumption).
  assert (Wr : walk [] (join2 tgt t) = walk (walk [] tgt) t) by (destruct L as [[_ <-]|[X _]]; [reflexivity|contradiction]).
  split; [exact Ab|]. split; [exact Wr|]. split; [exact W|]. intros d H. rewrite Wr. apply D. exact H.
Qed.
Lemma target_same src f : absolute f -> absolute src -> get_target_file f src src = Ok (clean f).
Proof.
  intros A B. destruct (target_absolute src src f A B B) as (r & t & H & Ar & Wr & Wt & _). rewrite H. f_equal.
  assert (E : r = clean r).
  { assert (N : src <> []) by (intros ->; destruct B as (? & B); discriminate B). rewrite get_target in H by exact N. destruct (relative src f) as [x| |]; try discriminate H. cbn [bind] in H.
    assert (X : r = join2 src x) by congruence. rewrite X, join2_eq by exact N.
    symmetry. apply clean_unique; [apply clean_absolute|..]; try (apply absolute_app; [exact N|exact B]). apply walk_clean. reflexivity. }
  rewrite E. apply clean_unique; [assumption..|]. rewrite Wr. exact Wt.
Qed.
Lemma target_inj src tgt f g : absolute f -> absolute g -> absolute src -> absolute tgt ->
  below (walk [] src) (walk [] f) -> below (walk [] src) (walk [] g) ->
  get_target_file f src tgt = get_target_file g src tgt -> clean f = clean g.
Proof.
  intros A B C D (d & Hd) (e & He) H. destruct (target_absolute src tgt f A C D) as (r & t & Er & _ & _ & _ & F). destruct (target_absolute src tgt g B C D) as (r' & t' & Er' & _ & _ & _ & G).
  rewrite Er, Er' in H. inversion H; subst r'. specialize (F d Hd). specialize (G e He). rewrite F in G. apply app_inv_tail in G. subst e.
  apply clean_unique; [assumption..|]. rewrite Hd, He. reflexivity.
Qed.
Lemma target_unrelated src tgt f : absolute f -> ~ absolute src -> tgt <> [] -> exists e, get_target_file f src tgt = Panic e.
Proof.
  intros A B N. rewrite get_target by exact N. unfold relative. rewrite (proj2 (abs_iff f) A). unfold rel.
  destruct (is_abs src) eqn:X; [apply abs_iff in X; contradiction|]. rewrite (proj2 (abs_iff f) A). cbn [Bool.eqb].
  destruct (str_eqb_spec (clean f) (clean src)) as [E|_]; [|cbn [bind]; eauto]. exfalso. apply B. apply clean_absolute. rewrite <- E. apply clean_absolute, A.
Qed.
Lemma target_none : forall src f, get_target_file f src [] = Ok f.
Proof. reflexivity. Qed.
