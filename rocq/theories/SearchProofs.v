(** Proofs about the search of files. *)
From Coq Require Import String Ascii List ZArith NArith Bool Sorting.Sorted Lia.
From Verif Require Import GoStr GoStrFacts ValueModel PathModel PathSpec PathProofs SearchModel SearchSpec.
Import ListNotations.

(** ** Paths of places *)
Lemma possible_name e : possible e <-> name e.
Proof. unfold possible, name, elem. tauto. Qed.
Lemma possible_names w : Forall possible w -> Forall name w.
Proof. apply Forall_impl. intro e. apply possible_name. Qed.
Lemma path_of_join w : path_of w = SLASH :: join [SLASH] (rev w).
Proof.
  assert (H : forall l : list str, l <> [] -> concat (map (fun e => $"/" ++ e) l) = SLASH :: join [SLASH] l).
  { induction l as [|e l IH]; [contradiction|intros _]. cbn [map concat]. destruct l as [|f l].
    - cbn [map concat join]. rewrite app_nil_r. reflexivity.
    - rewrite IH by discriminate. reflexivity. }
  destruct w as [|e w]; [reflexivity|]. unfold path_of. apply H. cbn [rev]. destruct (rev w); discriminate.
Qed.
Lemma path_absolute w : absolute (path_of w).
Proof. rewrite path_of_join. eexists. reflexivity. Qed.
Lemma path_walk w : Forall possible w -> walk [] (path_of w) = w.
Proof.
  intro V. rewrite path_of_join, walk_abs_cons. destruct w as [|e w]; [reflexivity|]. rewrite walk_join.
  - rewrite names_walk by (apply Forall_rev, possible_names, V). rewrite rev_involutive. apply app_nil_r.
  - apply name_elem, Forall_rev, possible_names, V.
  - cbn [rev]. destruct (rev w); discriminate.
Qed.
Lemma path_norm w : Forall possible w -> norm (path_of w) = rev w.
Proof. intro V. apply rev_inj. rewrite <- abs_norm by apply path_absolute. rewrite rev_involutive. apply path_walk, V. Qed.
Lemma path_is_abs w : is_abs (path_of w) = true.
Proof. apply abs_iff, path_absolute. Qed.
Lemma clean_walk p : absolute p -> clean p = path_of (walk [] p).
Proof. intro A. rewrite clean_abs by exact A. rewrite path_of_join, abs_norm by exact A. rewrite rev_involutive. reflexivity. Qed.
Lemma path_clean w : Forall possible w -> clean (path_of w) = path_of w.
Proof. intro V. rewrite clean_walk by apply path_absolute. rewrite path_walk by exact V. reflexivity. Qed.
Lemma walk_possible p : absolute p -> Forall possible (walk [] p).
Proof. intro A. rewrite abs_norm by exact A. apply Forall_rev. eapply Forall_impl; [|apply norm_names, A]. intro e. apply possible_name. Qed.
Lemma path_nonnil w : path_of w <> [].
Proof. rewrite path_of_join. discriminate. Qed.
Lemma join2_walk w s : Forall possible w -> join2 (path_of w) s = path_of (walk w s).
Proof.
  intro V. rewrite join2_eq by apply path_nonnil. rewrite clean_walk; [|apply absolute_app; [apply path_nonnil|apply path_absolute]].
  rewrite walk_slash, path_walk by exact V. reflexivity.
Qed.
Lemma join2_path w e : Forall possible w -> possible e -> join2 (path_of w) e = path_of (e :: w).
Proof.
  intros V P. rewrite join2_walk by exact V. f_equal. unfold walk. change $"/" with [SLASH]. rewrite split1_notIn by apply P. cbn [fold_left].
  apply step_name, possible_name, P.
Qed.
Lemma join_snoc (l : list str) e : l <> [] -> join [SLASH] (l ++ [e]) = join [SLASH] l ++ SLASH :: e.
Proof.
  induction l as [|x l IH]; [contradiction|intros _]. destruct l as [|y l]; [reflexivity|]. change (join [SLASH] ((x :: y :: l) ++ [e])) with (x ++ [SLASH] ++ join [SLASH] ((y :: l) ++ [e])).
  rewrite IH by discriminate. change (join [SLASH] (x :: y :: l)) with (x ++ [SLASH] ++ join [SLASH] (y :: l)). rewrite <- !app_assoc. reflexivity.
Qed.
Lemma drop_name_app e r : ~ In SLASH e -> drop_name (rev e ++ SLASH :: r) = SLASH :: r.
Proof.
  intro N. assert (N' : ~ In SLASH (rev e)) by (rewrite <- in_rev; exact N). revert N'. generalize (rev e). intro l. induction l as [|c l IH]; intro N'; [reflexivity|].
  cbn [app drop_name]. destruct (Ascii.eqb_spec c SLASH) as [->|_]; [exfalso; apply N'; left; reflexivity|]. apply IH. intro H. apply N'. right. exact H.
Qed.
Lemma path_snoc e w : exists r, path_of (e :: w) = r ++ SLASH :: e /\ clean (r ++ [SLASH]) = clean (path_of w).
Proof.
  rewrite !path_of_join. cbn [rev]. destruct w as [|f w].
  - exists []. split; [reflexivity|reflexivity].
  - exists (SLASH :: join [SLASH] (rev (f :: w))). rewrite join_snoc by (cbn [rev]; destruct (rev w); discriminate). split; [reflexivity|].
    set (q := SLASH :: join [SLASH] (rev (f :: w))). assert (A : absolute q) by (eexists; reflexivity). change (q ++ [SLASH]) with (q ++ SLASH :: []).
    rewrite !clean_walk; [|exact A|apply absolute_app; [discriminate|exact A]]. rewrite walk_slash, walk_nil. reflexivity.
Qed.
Lemma path_dir_of e w : Forall possible (e :: w) -> path_dir (path_of (e :: w)) = path_of w.
Proof.
  intro V. inversion V as [|? ? P W]; subst. destruct (path_snoc e w) as (r & H & C). unfold path_dir. rewrite H. rewrite rev_app_distr. cbn [rev]. rewrite <- app_assoc. cbn [app].
  rewrite drop_name_app by apply P. cbn [rev]. rewrite rev_involutive. rewrite C. apply path_clean, W.
Qed.

(** ** The depth *)
Lemma strip_prefix (a x : list str) : strip_common (a ++ x) a = (x, []).
Proof. induction a as [|e a IH]; [destruct x; reflexivity|]. cbn [app strip_common]. rewrite str_eqb_refl. exact IH. Qed.
Lemma count_ups (b : list str) : b <> [] -> count_sub $".." (join [SLASH] (map (fun _ => $"..") b)) = length b.
Proof.
  unfold count_sub. assert (H : b <> [] -> split $".." (join [SLASH] (map (fun _ => $"..") b)) = [] :: map (fun _ => [SLASH]) (tl b) ++ [[]]).
  { induction b as [|e b IH]; [contradiction|intros _]. destruct b as [|f b]; [reflexivity|].
    change (join [SLASH] (map (fun _ => $"..") (e :: f :: b))) with ($".." ++ [SLASH] ++ join [SLASH] (map (fun _ => $"..") (f :: b))).
    rewrite split_eq_sep by discriminate. cbn [tl]. f_equal. cbn [app]. rewrite split_eq_nosep by reflexivity.
    rewrite IH by discriminate. cbn [tl map app]. reflexivity. }
  intro N. rewrite H by exact N. cbn [length]. rewrite app_length, map_length. destruct b; [contradiction|]. cbn [length tl]. lia.
Qed.
Lemma depth_of x w : Forall possible (x ++ w) -> x <> [] ->
  exists r, rel (path_of (x ++ w)) (path_of w) = Ok r /\ count_sub $".." r = length x.
Proof.
  intros V N. assert (W : Forall possible w) by (apply Forall_app in V; apply V). unfold rel. rewrite !path_clean, !path_is_abs, !path_norm by assumption.
  destruct (str_eqb_spec (path_of w) (path_of (x ++ w))) as [E|_].
  - exfalso. assert (X : w = x ++ w) by (rewrite <- (path_walk w W), <- (path_walk _ V) at 1; rewrite <- E; reflexivity || idtac; congruence).
    apply (f_equal (@length _)) in X. rewrite app_length in X. destruct x; [contradiction|]. cbn in X. lia.
  - cbn [eqb]. rewrite rev_app_distr. rewrite strip_prefix. assert (R : rev x <> []) by (destruct x; [contradiction|]; cbn [rev]; destruct (rev x); discriminate).
    pose proof (count_ups (rev x) R) as C. rewrite rev_length in C. destruct (rev x) as [|e b] eqn:RX; [contradiction|].
    assert (P : possible e) by (rewrite Forall_forall in V; apply V, in_or_app; left; apply in_rev; rewrite RX; left; reflexivity).
    destruct (str_eqb_spec e $"..") as [->|_]; [exfalso; destruct P as (_ & _ & P & _); apply P; reflexivity|]. rewrite app_nil_r. eexists. split; [reflexivity|exact C].
Qed.

(** ** Places *)
Lemma look_app root a : forall b, look root (a ++ b) = match look root a with Some n => look n b | None => None end.
Proof.
  revert root. induction a as [|e a IH]; intros root b; [reflexivity|]. cbn [app look]. destruct root; try reflexivity. destruct (mget entries e); [apply IH|reflexivity].
Qed.
Lemma mget_in {A} (m : list (str * A)) k v : mget m k = Some v -> In (k, v) m.
Proof. induction m as [|[k' v'] m IH]; [discriminate|]. cbn [mget]. destruct (str_eqb_spec k k') as [->|_]; intro H; [inversion H; left; reflexivity|right; auto]. Qed.
Lemma in_mget {A} (m : list (str * A)) k v : NoDup (map fst m) -> In (k, v) m -> mget m k = Some v.
Proof.
  induction m as [|[k' v'] m IH]; intros N H; [destruct H|]. cbn [map fst] in N. inversion N as [|? ? X N']; subst. cbn [mget].
  destruct H as [H|H]; [inversion H; subst; rewrite str_eqb_refl; reflexivity|]. destruct (str_eqb_spec k k') as [->|_]; [|auto].
  exfalso. apply X. change k' with (fst (k', v)). apply in_map. exact H.
Qed.
Lemma str_lt_nodup l : StronglySorted str_lt l -> NoDup l.
Proof.
  induction 1 as [|a l S' IH F]; constructor; [|exact IH]. intro H. rewrite Forall_forall in F. destruct (F a H) as [_ N]. apply N. reflexivity.
Qed.
Lemma look_place root : forall w n, look root (rev w) = Some n -> at_place root w n.
Proof.
  induction w as [|e w IH]; intros n H; [inversion H; constructor|]. cbn [rev] in H. rewrite look_app in H. destruct (look root (rev w)) as [m|] eqn:L; [|discriminate].
  cbn [look] in H. destruct m as [| |es]; try discriminate. destruct (mget es e) as [x|] eqn:M; [|discriminate]. inversion H; subst. econstructor; [apply IH; reflexivity|apply mget_in, M].
Qed.
Lemma place_look root : sound_fs root -> forall w n, at_place root w n -> look root (rev w) = Some n.
Proof.
  intros SF w n H. induction H as [|w es e n H IH I]; [reflexivity|]. cbn [rev]. rewrite look_app, IH. cbn [look]. rewrite (in_mget es e n); [reflexivity| |exact I].
  apply str_lt_nodup, (SF w es H).
Qed.
Lemma place_possible root : sound_fs root -> forall w n, at_place root w n -> Forall possible w.
Proof.
  intros SF w n H. induction H as [|w es e n H IH I]; constructor; [|exact IH]. destruct (SF w es H) as [F _]. rewrite Forall_forall in F. apply F.
  change e with (fst (e, n)). apply in_map, I.
Qed.

(** ** Nodes *)
Lemma node_rect' (P : node -> Prop) : P File -> (forall t, P (Link t)) -> (forall es, Forall (fun kv => P (snd kv)) es -> P (Dir es)) -> forall n, P n.
Proof.
  intros F L D. fix IH 1. intros [|t|es]; [exact F|apply L|apply D]. induction es as [|[k n] es IHes]; constructor; [apply IH|exact IHes].
Qed.
Section Visit.
Variable cwd : str.
Variable fs : node.
Variable glob : str -> option (list str).
Variable patterns : list str.
Variable max : Z.
Lemma visit_dir follow wk folder es p visited results :
  visit cwd glob patterns max follow wk folder (Dir es) p visited results =
  match rel p folder with
  | Ok r => if (max <? Z.of_nat (count_sub $".." r))%Z then Continue (p :: visited) results
            else match find_files glob p patterns with
                 | None => Stop (p :: visited) results
                 | Some files => visit_all cwd glob patterns max follow wk folder p es (p :: visited) (results ++ files)
                 end
  | _ => Broken
  end.
Proof.
  cbn [visit]. destruct (rel p folder) as [r|e|e]; try reflexivity. destruct (max <? Z.of_nat (count_sub $".." r))%Z; [reflexivity|].
  destruct (find_files glob p patterns) as [files|]; [|reflexivity]. generalize (p :: visited) as v. generalize (results ++ files) as rs.
  induction es as [|[k m] es IH]; intros rs v; [reflexivity|]. cbn [visit_all]. destruct (visit cwd glob patterns max follow wk folder m (join2 p k) v rs); try reflexivity. apply IH.
Qed.

(** The folders of a node at place d, in the order of the walk. *)
Fixpoint folders (len : nat) (n : node) (d : place) : list place :=
  match n with
  | Dir es => if (max <? Z.of_nat len)%Z then [] else
      d :: (fix all es := match es with [] => [] | (e, m) :: es' => folders (S len) m (e :: d) ++ all es' end) es
  | _ => []
  end.
Fixpoint folders_all (len : nat) (es : list (str * node)) (d : place) : list place :=
  match es with [] => [] | (e, m) :: es' => folders len m (e :: d) ++ folders_all len es' d end.
Lemma folders_dir len es d : folders len (Dir es) d = if (max <? Z.of_nat len)%Z then [] else d :: folders_all (S len) es d.
Proof. cbn [folders]. destruct (max <? Z.of_nat len)%Z; [reflexivity|]. f_equal. induction es as [|[e m] es IH]; [reflexivity|]. cbn [folders_all]. rewrite <- IH. reflexivity. Qed.

(** What the walk collects from folders, and whether it goes on. *)
Fixpoint gather (ds : list place) (rs : list str) : bool * list str :=
  match ds with
  | [] => (true, rs)
  | d :: ds' => match find_files glob (path_of d) patterns with
                | None => (false, rs)
                | Some files => gather ds' (rs ++ files)
                end
  end.
Lemma gather_app a : forall b rs, gather (a ++ b) rs = let (go, r) := gather a rs in if go then gather b r else (false, r).
Proof. induction a as [|d a IH]; intros b rs; [reflexivity|]. cbn [app gather]. destruct (find_files glob (path_of d) patterns); [apply IH|reflexivity]. Qed.

Definition outcome (g : bool * list str) (o : walked) : Prop := exists v, o = if fst g then Continue v (snd g) else Stop v (snd g).

Definition quiet (follow : bool) (n : node) : Prop := follow = false \/ forall x t, ~ at_place n x (Link t).
Lemma visit_folders follow wk w : Forall possible w -> forall n x visited rs, x <> [] -> Forall possible (x ++ w) -> sound_fs n -> quiet follow n ->
  outcome (gather (folders (length x) n (x ++ w)) rs) (visit cwd glob patterns max follow wk (path_of w) n (path_of (x ++ w)) visited rs).
Proof.
  intro W. refine (node_rect' _ _ _ _).
  - intros x visited rs _ _ _ _. exists visited. reflexivity.
  - intros t x visited rs _ _ _ Q. exists visited. cbn [visit folders gather fst snd]. destruct Q as [->|Q]; [reflexivity|]. exfalso. apply (Q [] t). constructor.
  - intros es IH x visited rs N V SF Q. rewrite visit_dir, folders_dir. destruct (depth_of x w V N) as (r & -> & ->).
    destruct (max <? Z.of_nat (length x))%Z; [exists (path_of (x ++ w) :: visited); reflexivity|]. cbn [gather].
    destruct (find_files glob (path_of (x ++ w)) patterns) as [files|]; [|exists (path_of (x ++ w) :: visited); reflexivity].
    pose proof (SF [] es ltac:(constructor)) as [P _].
    assert (SFs : forall e m, In (e, m) es -> sound_fs m /\ quiet follow m).
    { assert (R : forall e m, In (e, m) es -> forall u n, at_place m u n -> at_place (Dir es) (u ++ [e]) n).
      { intros e m I u n' A. induction A; [cbn [app]; econstructor; [constructor|exact I]|cbn [app]; econstructor; eassumption]. }
      intros e m I. split; [intros u es' A; apply (SF (u ++ [e]) es'), (R e m I), A|].
      destruct Q as [Q|Q]; [left; exact Q|right]. intros u t A. apply (Q (u ++ [e]) t), (R e m I), A. }
    clear SF Q. generalize (path_of (x ++ w) :: visited) as vis. generalize (rs ++ files) as rs'. clear rs visited files.
    induction es as [|[e m] es IHes]; intros rs vis; [exists vis; reflexivity|].
    inversion IH as [|? ? IHm IH']; subst. cbn [map fst] in P. inversion P as [|? ? Pe P']; subst. cbn [visit_all folders_all].
    rewrite gather_app. rewrite (join2_path (x ++ w) e V Pe). destruct (SFs e m (or_introl eq_refl)) as [SFm Qm].
    destruct (IHm (e :: x) vis rs ltac:(discriminate) (Forall_cons _ Pe V) SFm Qm) as (v & H).
    cbn [snd app] in H. rewrite H. change (length (e :: x)) with (S (length x)). destruct (gather (folders (S (length x)) m (e :: x ++ w)) rs) as [[] r9]; cbn [fst snd].
    + apply IHes; [exact IH'|exact P'|]. intros e' m' I. apply (SFs e' m'). right. exact I.
    + exists v. reflexivity.
Qed.

(** ** The folders are the sub-folders *)
Lemma sub_node root w es : at_place root w (Dir es) -> forall e m, In (e, m) es -> forall u n, at_place m u n -> at_place root (u ++ e :: w) n.
Proof. intros A e m I u n H. induction H; [cbn [app]; econstructor; eassumption|cbn [app]; econstructor; eassumption]. Qed.
Lemma place_split root u w n : sound_fs root -> at_place root (u ++ w) n -> forall m, at_place root w m -> at_place m u n.
Proof.
  intros SF. revert n. induction u as [|e u IH]; intros n A m B.
  - cbn [app] in A. apply place_look in A; [|exact SF]. apply place_look in B; [|exact SF]. assert (m = n) by congruence. subst. constructor.
  - cbn [app] in A. inversion A as [|? es ? ? A' I]; subst. econstructor; [apply IH; eassumption|exact I].
Qed.
Lemma in_folders : forall n len d x, In x (folders len n d) <-> exists u es, x = u ++ d /\ (Z.of_nat (len + length u) <= max)%Z /\ at_place n u (Dir es).
Proof.
  refine (node_rect' _ _ _ _).
  - intros len d x. split; [intros []|]. intros (u & es & _ & _ & A). exfalso. remember (Dir es) as D eqn:ED. revert es ED. induction A; intros es' ED; [discriminate|subst; eapply IHA; reflexivity].
  - intros t len d x. split; [intros []|]. intros (u & es & _ & _ & A). exfalso. remember (Dir es) as D eqn:ED. revert es ED. induction A; intros es' ED; [discriminate|subst; eapply IHA; reflexivity].
  - intros es IH len d x. rewrite folders_dir. destruct (Z.ltb_spec max (Z.of_nat len)) as [L|L].
    + split; [intros []|]. intros (u & es' & _ & H & _). lia.
    + assert (R : In x (folders_all (S len) es d) <-> exists e m, In (e, m) es /\ In x (folders (S len) m (e :: d))).
      { clear. induction es as [|[e m] es IHes]; cbn [folders_all]; [split; [intros []|intros (? & ? & [] & _)]|]. rewrite in_app_iff, IHes. split.
        - intros [H|(e' & m' & I & H)]; [exists e, m|exists e', m']; (split; [cbn; auto|exact H]).
        - intros (e' & m' & [I|I] & H); [inversion I; subst; auto|right; eauto]. }
      cbn [In]. rewrite R. rewrite Forall_forall in IH. split.
      * intros [<-|(e & m & I & H)]; [exists [], es; repeat split; [cbn; lia|constructor]|]. apply (IH (e, m) I) in H. destruct H as (u & es' & -> & B & A). cbn [snd] in A.
        exists (u ++ [e]), es'. rewrite <- app_assoc. split; [reflexivity|]. rewrite app_length. cbn [length]. split; [lia|].
        apply (sub_node (Dir es) [] es ltac:(constructor) e m I u _ A).
      * intros (u & es' & -> & B & A). destruct u as [|e u] using rev_ind; [left; reflexivity|right]. clear IHu.
        assert (X : exists m, In (e, m) es /\ at_place m u (Dir es')).
        { clear B R. revert A. generalize (Dir es'). induction u as [|f u IHu]; intros k A.
          - cbn [app] in A. inversion A as [|? es1 ? ? A' I]; subst. inversion A'; subst. exists k. split; [exact I|constructor].
          - cbn [app] in A. inversion A as [|? es1 ? ? A' I]; subst. destruct (IHu _ A') as (m & I' & B). exists m. split; [exact I'|]. econstructor; eassumption. }
        destruct X as (m & I & A'). exists e, m. split; [exact I|]. apply (IH (e, m) I). exists u, es'. rewrite <- app_assoc. split; [reflexivity|].
        rewrite app_length in B. cbn [length] in B. split; [lia|exact A'].
Qed.
Lemma in_folders_all es len d x : In x (folders_all len es d) <-> exists e m, In (e, m) es /\ In x (folders len m (e :: d)).
Proof.
  induction es as [|[e m] es IHes]; cbn [folders_all]; [split; [intros []|intros (? & ? & [] & _)]|]. rewrite in_app_iff, IHes. split.
  - intros [H|(e' & m' & I & H)]; [exists e, m|exists e', m']; (split; [cbn; auto|exact H]).
  - intros (e' & m' & [I|I] & H); [inversion I; subst; auto|right; eauto].
Qed.
Lemma sorted_app {A} (R : A -> A -> Prop) a b : StronglySorted R a -> StronglySorted R b -> (forall x y, In x a -> In y b -> R x y) -> StronglySorted R (a ++ b).
Proof.
  intros SA SB H. induction SA as [|x a SA IH F]; [exact SB|]. cbn [app]. constructor.
  - apply IH. intros u v I J. apply H; [right; exact I|exact J].
  - apply Forall_app. split; [exact F|]. apply Forall_forall. intros v J. apply H; [left; reflexivity|exact J].
Qed.
Lemma folders_sorted : forall n len d, sound_fs n -> StronglySorted walk_before (folders len n d).
Proof.
  refine (node_rect' _ _ _ _); [constructor|constructor|]. intros es IH len d SF. rewrite folders_dir. destruct (max <? Z.of_nat len)%Z; [constructor|].
  pose proof (SF [] es ltac:(constructor)) as [_ SS]. assert (SFs : forall e m, In (e, m) es -> sound_fs m).
  { intros e m I u es' A. apply (SF (u ++ [e]) es'), (sub_node (Dir es) [] es ltac:(constructor) e m I u _ A). }
  constructor.
  - clear SF. induction es as [|[e m] es IHes]; [constructor|]. inversion IH as [|? ? IHm IH']; subst. cbn [map fst] in SS. inversion SS as [|? ? SS' F]; subst. cbn [folders_all]. apply sorted_app.
    + apply IHm, (SFs e m). left. reflexivity.
    + apply IHes; [exact IH'|exact SS'|]. intros e' m' I. apply (SFs e'). right. exact I.
    + intros x y I J. apply in_folders in I. destruct I as (u & _ & -> & _). apply in_folders_all in J. destruct J as (e' & m' & I' & J). apply in_folders in J. destruct J as (u' & _ & -> & _).
      rewrite Forall_forall in F. apply Walk_beside, F. change e' with (fst (e', m')). apply in_map, I'.
  - apply Forall_forall. intros x I. apply in_folders_all in I. destruct I as (e & m & _ & I). apply in_folders in I. destruct I as (u & _ & -> & _).
    change (u ++ e :: d) with (u ++ [e] ++ d). rewrite app_assoc. apply Walk_inside. destruct u; discriminate.
Qed.

(** ** find_files *)
Lemma find_matches f r : find_files glob f patterns = Some r <-> matches glob patterns f r.
Proof.
  unfold matches. revert r. induction patterns as [|p ps IH]; intro r; cbn [find_files].
  - split; [intro H; inversion H; exists []; split; [constructor|reflexivity]|]. intros (ls & H & ->). inversion H. reflexivity.
  - split.
    + destruct (glob (join2 f p)) as [l|] eqn:GE; [|discriminate]. destruct (find_files glob f ps) as [l'|]; [|discriminate]. intro H. inversion H; subst.
      destruct (proj1 (IH l') eq_refl) as (ls & F & ->). exists (l :: ls). split; [constructor; assumption|reflexivity].
    + intros (ls & F & ->). inversion F as [|? l ? ls' GE F']; subst. rewrite GE. rewrite (proj2 (IH (concat ls'))); [reflexivity|eauto].
Qed.
Lemma gather_cut ds : forall rs, exists good bad rss, ds = good ++ bad /\ Forall2 (fun d r => matches glob patterns (path_of d) r) good rss /\
  (bad = [] \/ exists d bad', bad = d :: bad' /\ forall r, ~ matches glob patterns (path_of d) r) /\ snd (gather ds rs) = rs ++ concat rss.
Proof.
  induction ds as [|d ds IH]; intro rs; [exists [], [], []; cbn; rewrite app_nil_r; repeat split; auto|]. cbn [gather]. destruct (find_files glob (path_of d) patterns) as [files|] eqn:F.
  - destruct (IH (rs ++ files)) as (good & bad & rss & -> & G2 & B & ->). exists (d :: good), bad, (files :: rss). split; [reflexivity|]. split; [constructor; [apply find_matches, F|exact G2]|]. split; [exact B|].
    cbn [concat]. rewrite app_assoc. reflexivity.
  - exists [], (d :: ds), []. split; [reflexivity|]. split; [constructor|]. split; [|cbn; rewrite app_nil_r; reflexivity]. right. exists d, ds. split; [reflexivity|]. intros r M. apply find_matches in M. congruence.
Qed.

(** ** The walker without links *)
Lemma visit_all_folders follow wk w : Forall possible w -> forall es visited rs, sound_fs (Dir es) -> quiet follow (Dir es) ->
  outcome (gather (folders_all 1 es w) rs) (visit_all cwd glob patterns max follow wk (path_of w) (path_of w) es visited rs).
Proof.
  intros W es visited rs SF Q. pose proof (SF [] es ltac:(constructor)) as [P _].
  assert (SFs : forall e m, In (e, m) es -> sound_fs m /\ quiet follow m).
  { intros e m I. split; [intros u es' A; apply (SF (u ++ [e]) es'), (sub_node (Dir es) [] es ltac:(constructor) e m I u _ A)|].
    destruct Q as [Q|Q]; [left; exact Q|right]. intros u t A. apply (Q (u ++ [e]) t), (sub_node (Dir es) [] es ltac:(constructor) e m I u _ A). }
  clear SF Q. revert visited rs. induction es as [|[e m] es IHes]; intros visited rs; [exists visited; reflexivity|].
  cbn [map fst] in P. inversion P as [|? ? Pe P']; subst. cbn [visit_all folders_all]. rewrite gather_app. rewrite (join2_path w e W Pe).
  destruct (SFs e m (or_introl eq_refl)) as [SFm Qm]. destruct (visit_folders follow wk w W m [e] visited rs ltac:(discriminate) (Forall_cons _ Pe W) SFm Qm) as (v & H).
  cbn [app length] in H. rewrite H. destruct (gather (folders 1 m (e :: w)) rs) as [[] r]; cbn [fst snd].
  - apply IHes; [exact P'|]. intros e' m' I. apply (SFs e'). right. exact I.
  - exists v. reflexivity.
Qed.
End Visit.

Lemma abs_leads cwd p w : absolute cwd -> leads (walk [] cwd) p w -> path_abs cwd p = path_of w /\ Forall possible w.
Proof.
  intros A L. unfold path_abs. destruct L as [[AP ->]|[NP ->]].
  - rewrite (proj2 (abs_iff p) AP). split; [apply clean_walk, AP|apply walk_possible, AP].
  - destruct (is_abs p) eqn:X; [apply abs_iff in X; contradiction|]. assert (N : cwd <> []) by (destruct A as (r & ->); discriminate).
    rewrite join2_eq by exact N. assert (B : absolute (cwd ++ SLASH :: p)) by (apply absolute_app; [exact N|exact A]). rewrite clean_walk by exact B.
    rewrite walk_slash. split; [reflexivity|]. rewrite <- walk_slash. apply walk_possible, B.
Qed.

Lemma sub_sound root w es : sound_fs root -> at_place root w (Dir es) -> sound_fs (Dir es).
Proof.
  intros SF A u es' H. assert (B : at_place root (u ++ w) (Dir es')).
  { clear SF. remember (Dir es') as k eqn:EK. clear EK. induction H; [exact A|cbn [app]; econstructor; eassumption]. }
  apply (SF _ _ B).
Qed.
Lemma sub_folders_of root w max es : sound_fs root -> at_place root w (Dir es) -> sub_folders root w max (folders_all max 1 es w).
Proof.
  intros SF A. split.
  - assert (X : StronglySorted walk_before (folders (Z.max 0 max) 0 (Dir es) w)) by (apply folders_sorted, (sub_sound root w es SF A)).
    clear X. pose proof (sub_sound root w es SF A) as SD. pose proof (SD [] es ltac:(constructor)) as [_ SS].
    assert (SFs : forall e m, In (e, m) es -> sound_fs m).
    { intros e m I u es' B. apply (SD (u ++ [e]) es'), (sub_node (Dir es) [] es ltac:(constructor) e m I u _ B). }
    clear A SD. induction es as [|[e m] es IHes]; [constructor|]. cbn [map fst] in SS. inversion SS as [|? ? SS' F]; subst. cbn [folders_all]. apply sorted_app.
    + apply folders_sorted, (SFs e m). left. reflexivity.
    + apply IHes; [exact SS'|]. intros e' m' I. apply (SFs e'). right. exact I.
    + intros x y I J. apply in_folders in I. destruct I as (u & _ & -> & _). apply in_folders_all in J. destruct J as (e' & m' & I' & J). apply in_folders in J. destruct J as (u' & _ & -> & _).
      rewrite Forall_forall in F. apply Walk_beside, F. change e' with (fst (e', m')). apply in_map, I'.
  - intro d. rewrite in_folders_all. split.
    + intros (e & m & I & H). apply in_folders in H. destruct H as (u & es' & -> & B & C). exists (u ++ [e]), es'. rewrite <- app_assoc. split; [reflexivity|]. split; [destruct u; discriminate|].
      rewrite app_length. cbn [length]. split; [lia|]. apply (sub_node root w es A e m I u _ C).
    + intros (x & es' & -> & N & B & C). apply (place_split _ _ _ _ SF C) in A. destruct x as [|e u] using rev_ind; [contradiction|]. clear IHu N.
      assert (X : exists m, In (e, m) es /\ at_place m u (Dir es')).
      { clear B C. revert A. generalize (Dir es'). induction u as [|f u IHu]; intros k A.
        - cbn [app] in A. inversion A as [|? es1 ? ? A' I]; subst. inversion A'; subst. exists k. split; [exact I|constructor].
        - cbn [app] in A. inversion A as [|? es1 ? ? A' I]; subst. destruct (IHu _ A') as (m & I' & B). exists m. split; [exact I'|]. econstructor; eassumption. }
      destruct X as (m & I & A'). exists e, m. split; [exact I|]. apply in_folders. exists u, es'. rewrite <- app_assoc. split; [reflexivity|].
      rewrite app_length in B. cbn [length] in B. split; [lia|exact A'].
Qed.
Lemma no_sub_folder root w max n : sound_fs root -> look root (rev w) = n -> (forall es, n <> Some (Dir es)) -> sub_folders root w max [].
Proof.
  intros SF L N. split; [constructor|]. intro d. split; [intros []|]. intros (x & es & -> & NX & _ & A). destruct x as [|e u] using rev_ind; [contradiction|]. clear IHu NX.
  rewrite <- app_assoc in A. cbn [app] in A. assert (X : exists es', at_place root w (Dir es')).
  { clear -A. revert A. generalize (Dir es). induction u as [|f u IHu]; intros k A; cbn [app] in A; inversion A; subst; eauto. }
  destruct X as (es' & B). apply place_look in B; [|exact SF]. apply (N es'). congruence.
Qed.

Lemma search_exact fuel cwd root glob folder max follow patterns w top :
  absolute cwd -> sound_fs root -> leads (walk [] cwd) folder w -> matches glob patterns folder top -> (follow = false \/ no_links root w) ->
  exists ds good bad rss, sub_folders root w max ds /\ ds = good ++ bad /\
    Forall2 (fun d r => matches glob patterns (path_of d) r) good rss /\
    (bad = [] \/ exists d bad', bad = d :: bad' /\ forall r, ~ matches glob patterns (path_of d) r) /\
    find_files_max_depth (S fuel) cwd root glob folder max follow patterns = Found (top ++ concat rss).
Proof.
  intros AC SF L M Q. destruct (abs_leads cwd folder w AC L) as [PA PW]. unfold find_files_max_depth. cbn [walker]. apply find_matches in M. rewrite M. rewrite PA.
  rewrite path_norm by exact PW. destruct (Z.eqb_spec max 0) as [->|NZ].
  - exists [], [], [], []. split; [|split; [reflexivity|split; [constructor|split; [left; reflexivity|cbn; rewrite app_nil_r; reflexivity]]]].
    split; [constructor|]. intro d. split; [intros []|]. intros (x & es & _ & N & B & _). destruct x; [contradiction|]. cbn [length] in B. lia.
  - destruct (look root (rev w)) as [[|t|es]|] eqn:LK;
      try (exists [], [], [], []; split; [eapply no_sub_folder; [exact SF|exact LK|discriminate]|split; [reflexivity|split; [constructor|split; [left; reflexivity|cbn; rewrite app_nil_r; reflexivity]]]]).
    pose proof (look_place root w _ LK) as A. assert (QD : quiet follow (Dir es)).
    { destruct Q as [Q|Q]; [left; exact Q|right]. intros x t B. apply (Q x t). clear -A B. remember (Link t) as k eqn:EK. clear EK. induction B; [exact A|cbn [app]; econstructor; eassumption]. }
    pose proof (visit_all_folders cwd glob patterns max follow (walker cwd root glob patterns max follow fuel) w PW es [] top (sub_sound root w es SF A) QD) as (v & H).
    rewrite H. destruct (gather_cut glob patterns (folders_all max 1 es w) top) as (good & bad & rss & E & G2 & B & R).
    exists (folders_all max 1 es w), good, bad, rss. split; [apply sub_folders_of; assumption|]. split; [exact E|]. split; [exact G2|]. split; [exact B|].
    rewrite <- R. destruct (gather glob patterns (folders_all max 1 es w) top) as [[] r]; reflexivity.
Qed.

Lemma search_complete fuel cwd root glob folder max follow patterns w top :
  absolute cwd -> sound_fs root -> leads (walk [] cwd) folder w -> matches glob patterns folder top -> (follow = false \/ no_links root w) ->
  (forall d, sub_folder root w max d -> exists r, matches glob patterns (path_of d) r) ->
  exists ds rss, sub_folders root w max ds /\ Forall2 (fun d r => matches glob patterns (path_of d) r) ds rss /\
    find_files_max_depth (S fuel) cwd root glob folder max follow patterns = Found (top ++ concat rss).
Proof.
  intros AC SF L M Q OK. destruct (search_exact fuel cwd root glob folder max follow patterns w top AC SF L M Q) as (ds & good & bad & rss & SD & E & G2 & B & R).
  exists ds, rss. split; [exact SD|]. split; [|exact R]. destruct B as [->|(d & bad' & -> & N)]; [rewrite app_nil_r in E; subst; exact G2|].
  exfalso. destruct (OK d) as (r & X); [|exact (N r X)]. apply SD. rewrite E. apply in_or_app. right. left. reflexivity.
Qed.
Lemma search_panics fuel cwd root glob folder max follow patterns : (forall r, ~ matches glob patterns folder r) ->
  find_files_max_depth (S fuel) cwd root glob folder max follow patterns = Panicked.
Proof.
  intro N. unfold find_files_max_depth. cbn [walker]. destruct (find_files glob folder patterns) as [r|] eqn:F; [|reflexivity]. exfalso. apply (N r), find_matches, F.
Qed.

(** ** Links *)
Lemma walk_step_possible w s : Forall possible w -> Forall possible (walk w s).
Proof.
  intro V. assert (A : absolute (path_of w ++ SLASH :: s)) by (apply absolute_app; [apply path_nonnil|apply path_absolute]).
  pose proof (walk_possible _ A) as P. rewrite walk_slash, path_walk in P by exact V. exact P.
Qed.
Lemma link_target cwd e d text : Forall possible (e :: d) ->
  exists t, leads d text t /\ Forall possible t /\ path_abs cwd (if is_abs text then text else join2 (path_dir (path_of (e :: d))) text) = path_of t.
Proof.
  intro V. inversion V; subst. rewrite path_dir_of by exact V. destruct (is_abs text) eqn:A.
  - apply abs_iff in A. exists (walk [] text). split; [left; auto|]. split; [apply walk_possible, A|]. unfold path_abs. rewrite (proj2 (abs_iff text) A). apply clean_walk, A.
  - exists (walk d text). split; [right; split; [intro X; apply abs_iff in X; congruence|reflexivity]|]. split; [apply walk_step_possible; assumption|].
    rewrite join2_walk by assumption. unfold path_abs. rewrite path_is_abs. apply path_clean, walk_step_possible. assumption.
Qed.
Lemma leads_unique d text t u : leads d text t -> leads d text u -> t = u.
Proof. intros [[A ->]|[A ->]] [[B ->]|[B ->]]; try contradiction; reflexivity. Qed.
Lemma reach_trans root a b c : reach root a b -> reach root b c -> reach root a c.
Proof. intros H K. induction K; [exact H|econstructor; eassumption|eapply Reach_link; eassumption]. Qed.

Section Links.
Variable cwd : str.
Variable root : node.
Variable glob : str -> option (list str).
Variable patterns : list str.
Variable max : Z.
Variable follow : bool.
Hypothesis SF : sound_fs root.
Hypothesis AC : absolute cwd.

Definition good (w : place) (x : str) : Prop := exists d rs, reach root w d /\ matches glob patterns (path_of d) rs /\ In x rs.
Definition from (w : place) (old : list str) (o : walked) : Prop :=
  match o with Continue _ r | Stop _ r => forall x, In x r -> In x old \/ good w x | _ => True end.
Lemma visit_sound wk folder w0 :
  (forall t vis, Forall possible t -> from t [] (wk (path_of t) vis)) ->
  forall n e d vis rs, at_place root (e :: d) n -> reach root w0 d -> from w0 rs (visit cwd glob patterns max follow wk folder n (path_of (e :: d)) vis rs).
Proof.
  intro WK. refine (node_rect' _ _ _ _).
  - intros e d vis rs _ _ x I. left. exact I.
  - intros text e d vis rs A R. cbn [visit]. destruct follow; [|intros x I; left; exact I]. destruct (link_target cwd e d text (place_possible root SF _ _ A)) as (t & L & PT & ->).
    destruct (mem_str (path_of t) vis); [intros x I; left; exact I|]. specialize (WK t vis PT). assert (RT : reach root w0 t) by (eapply Reach_link; eassumption).
    assert (X : forall x, good t x -> good w0 x) by (intros x (d' & r' & R' & M & I); exists d', r'; split; [eapply reach_trans; eassumption|auto]).
    destruct (wk (path_of t) vis) as [v r|v r| |]; cbn [from] in *; try exact Logic.I.
    + intros x I. apply in_app_or in I. destruct I as [I|I]; [left; exact I|right]. destruct (WK x I) as [[]|G0]. apply X, G0.
    + intros x I. destruct (WK x I) as [[]|G0]. right. apply X, G0.
  - intros es IH e d vis rs A R. rewrite visit_dir. destruct (rel (path_of (e :: d)) folder); try exact I. destruct (max <? Z.of_nat (count_sub $".." a))%Z; [intros x I; left; exact I|].
    destruct (find_files glob (path_of (e :: d)) patterns) as [files|] eqn:F; [|intros x I; left; exact I]. apply find_matches in F.
    assert (RD : reach root w0 (e :: d)) by (econstructor; eassumption).
    assert (OLD : forall x, In x (rs ++ files) -> In x rs \/ good w0 x) by (intros x I; apply in_app_or in I; destruct I as [I|I]; [left; exact I|right; exists (e :: d), files; auto]).
    assert (K : forall es' vis rs', (forall k m, In (k, m) es' -> In (k, m) es) -> (forall x, In x rs' -> In x rs \/ good w0 x) ->
      from w0 rs (visit_all cwd glob patterns max follow wk folder (path_of (e :: d)) es' vis rs')).
    { induction es' as [|[k m] es' IHes]; intros vis' rs' SUB O'; [exact O'|]. cbn [visit_all]. pose proof (SUB k m (or_introl eq_refl)) as I.
      assert (AK : at_place root (k :: e :: d) m) by (econstructor; eassumption). pose proof (place_possible root SF _ _ AK) as PK. inversion PK; subst.
      rewrite join2_path by assumption. rewrite Forall_forall in IH. pose proof (IH (k, m) I k (e :: d) vis' rs' AK RD) as H. cbn [snd] in H.
      destruct (visit cwd glob patterns max follow wk folder m (path_of (k :: e :: d)) vis' rs') as [v r|v r| |]; cbn [from] in *; try exact Logic.I.
      - apply IHes; [intros k' m' J; apply SUB; right; exact J|]. intros x J. destruct (H x J) as [J'|J']; [apply O', J'|right; exact J'].
      - intros x J. destruct (H x J) as [J'|J']; [apply O', J'|right; exact J']. }
    apply K; [auto|exact OLD].
Qed.
Lemma walker_sound : forall fuel folder w vis, leads (walk [] cwd) folder w ->
  match walker cwd root glob patterns max follow fuel folder vis with
  | Continue _ r => forall x, In x r -> (exists top, matches glob patterns folder top /\ In x top) \/ good w x
  | Stop _ _ => False
  | _ => True
  end.
Proof.
  induction fuel as [|f IH]; intros folder w vis L; [exact I|]. cbn [walker]. destruct (find_files glob folder patterns) as [top|] eqn:F; [|exact I]. apply find_matches in F.
  destruct (abs_leads cwd folder w AC L) as [-> PW]. destruct (max =? 0)%Z; [intros x J; left; eauto|]. rewrite path_norm by exact PW.
  destruct (look root (rev w)) as [[|t|es]|] eqn:LK; try (intros x J; left; eauto; fail). apply look_place in LK.
  assert (WK : forall t vis, Forall possible t -> from t [] (walker cwd root glob patterns max follow f (path_of t) vis)).
  { intros t vis' PT. assert (LT : leads (walk [] cwd) (path_of t) t) by (left; split; [apply path_absolute|symmetry; apply path_walk, PT]). specialize (IH (path_of t) t vis' LT).
    destruct (walker cwd root glob patterns max follow f (path_of t) vis') as [v r|v r| |]; cbn [from]; try exact I; [|contradiction]. intros x J. right. destruct (IH x J) as [(top' & M & J')|G0]; [|exact G0].
    exists t, top'. split; [constructor|auto]. }
  assert (K : forall es' vis rs', (forall k m, In (k, m) es' -> In (k, m) es) -> (forall x, In x rs' -> In x top \/ good w x) ->
      from w top (visit_all cwd glob patterns max follow (walker cwd root glob patterns max follow f) (path_of w) (path_of w) es' vis rs')).
  { induction es' as [|[k m] es' IHes]; intros vis' rs' SUB O'; [exact O'|]. cbn [visit_all]. pose proof (SUB k m (or_introl eq_refl)) as J.
    assert (AK : at_place root (k :: w) m) by (econstructor; eassumption). pose proof (place_possible root SF _ _ AK) as PK. inversion PK; subst.
    rewrite join2_path by assumption. pose proof (visit_sound _ (path_of w) w WK m k w vis' rs' AK ltac:(constructor)) as H.
    destruct (visit cwd glob patterns max follow (walker cwd root glob patterns max follow f) (path_of w) m (path_of (k :: w)) vis' rs') as [v r|v r| |]; cbn [from] in *; try exact Logic.I.
    - apply IHes; [intros k' m' J'; apply SUB; right; exact J'|]. intros x J0. destruct (H x J0) as [J'|J']; [apply O', J'|right; exact J'].
    - intros x J0. destruct (H x J0) as [J'|J']; [apply O', J'|right; exact J']. }
  specialize (K es vis top ltac:(auto) ltac:(auto)).
  destruct (visit_all cwd glob patterns max follow (walker cwd root glob patterns max follow f) (path_of w) (path_of w) es vis top) as [v r|v r| |]; cbn [from] in K; try exact I;
    intros x J; (destruct (K x J) as [J'|J']; [left; eauto|right; exact J']).
Qed.
End Links.
Lemma search_sound fuel cwd root glob folder max follow patterns w rs :
  absolute cwd -> sound_fs root -> leads (walk [] cwd) folder w -> find_files_max_depth fuel cwd root glob folder max follow patterns = Found rs ->
  forall x, In x rs -> (exists top, matches glob patterns folder top /\ In x top) \/ exists d r, reach root w d /\ matches glob patterns (path_of d) r /\ In x r.
Proof.
  intros AC SF L H x I. pose proof (walker_sound cwd root glob patterns max follow SF AC fuel folder w [] L) as K. unfold find_files_max_depth in H.
  destruct (walker cwd root glob patterns max follow fuel folder []); inversion H; subst; [apply K, I|destruct K].
Qed.

(** ** Loops *)
Lemma path_inj a b : Forall possible a -> Forall possible b -> path_of a = path_of b -> a = b.
Proof. intros A B E. rewrite <- (path_walk a A), <- (path_walk b B), E. reflexivity. Qed.
Lemma mem_str_in x l : mem_str x l = true <-> In x l.
Proof.
  induction l as [|y l IH]; cbn [mem_str In]; [split; [discriminate|intros []]|]. destruct (str_eqb_spec x y) as [->|N]; [cbn; tauto|]. cbn [orb]. rewrite IH. split; [auto|]. intros [H|H]; [congruence|exact H].
Qed.
Section Loop.
Variable cwd : str.
Variable root : node.
Variable glob : str -> option (list str).
Variable patterns : list str.
Variable max : Z.
Variable w : place.
Hypothesis SF : sound_fs root.
Hypothesis AC : absolute cwd.
Hypothesis MAX : max <> 0%Z.
Hypothesis GL : forall p, glob p <> None.
Hypothesis LINKS : forall x e text, at_place root (e :: x ++ w) (Link text) -> leads (x ++ w) text w.

Lemma find_some f : exists r, find_files glob f patterns = Some r.
Proof.
  induction patterns as [|p ps (r & IH)]; [exists []; reflexivity|]. cbn [find_files]. destruct (glob (join2 f p)) as [l|] eqn:E; [|destruct (GL _ E)]. rewrite IH. eauto.
Qed.
Definition held (o : walked) : Prop := match o with Continue v _ => ~ In (path_of w) v | Endless => True | _ => False end.
Lemma visit_loop wk : (forall vis, ~ In (path_of w) vis -> wk (path_of w) vis = Endless) -> forall n x e vis rs, at_place root (e :: x ++ w) n -> ~ In (path_of w) vis ->
  held (visit cwd glob patterns max true wk (path_of w) n (path_of (e :: x ++ w)) vis rs) /\
  (forall text, n = Link text -> visit cwd glob patterns max true wk (path_of w) n (path_of (e :: x ++ w)) vis rs = Endless).
Proof.
  intro WK. refine (node_rect' _ _ _ _).
  - intros x e vis rs _ N. split; [exact N|discriminate].
  - intros text x e vis rs A N. assert (H : visit cwd glob patterns max true wk (path_of w) (Link text) (path_of (e :: x ++ w)) vis rs = Endless).
    { cbn [visit]. destruct (link_target cwd e (x ++ w) text (place_possible root SF _ _ A)) as (t & L & PT & ->). assert (t = w) by (eapply leads_unique; [exact L|apply (LINKS x e), A]). subst t.
      destruct (mem_str (path_of w) vis) eqn:ME; [apply mem_str_in in ME; contradiction|]. rewrite WK by exact N. reflexivity. }
    rewrite H. split; [exact I|reflexivity].
  - intros es IH x e vis rs A N. split; [|discriminate]. rewrite visit_dir. pose proof (place_possible root SF _ _ A) as PE.
    change (e :: x ++ w) with ((e :: x) ++ w) at 1. destruct (depth_of (e :: x) w PE ltac:(discriminate)) as (r & -> & ->).
    assert (NE : ~ In (path_of w) (path_of (e :: x ++ w) :: vis)).
    { intros [E|I]; [|exact (N I)]. apply path_inj in E; [|exact PE|change (e :: x ++ w) with ((e :: x) ++ w) in PE; apply Forall_app in PE; apply PE]. apply (f_equal (@length _)) in E. cbn [length] in E. rewrite app_length in E. lia. }
    destruct (max <? _)%Z; [exact NE|]. destruct (find_some (path_of (e :: x ++ w))) as (files & ->).
    generalize (rs ++ files) as rs'. revert NE. generalize (path_of (e :: x ++ w) :: vis) as vis'.
    assert (SUB : forall k m, In (k, m) es -> at_place root (k :: e :: x ++ w) m) by (intros k m I; econstructor; eassumption). clear A.
    induction es as [|[k m] es IHes]; intros vis' N' rs'; [exact N'|]. cbn [visit_all]. inversion IH as [|? ? IHm IH']; subst. cbn [snd] in IHm.
    pose proof (SUB k m (or_introl eq_refl)) as AK. pose proof (place_possible root SF _ _ AK) as PK. inversion PK; subst. rewrite join2_path by assumption.
    destruct (IHm (e :: x) k vis' rs' AK N') as [H _]. cbn [app] in H. destruct (visit cwd glob patterns max true wk (path_of w) m (path_of (k :: e :: x ++ w)) vis' rs'); cbn [held] in *; try exact H.
    apply IHes; [exact IH'| |exact H]. intros k' m' J. apply SUB. right. exact J.
Qed.
Lemma walker_loop name text es : at_place root w (Dir es) -> In (name, Link text) es ->
  forall fuel folder vis, leads (walk [] cwd) folder w -> ~ In (path_of w) vis -> walker cwd root glob patterns max true fuel folder vis = Endless.
Proof.
  intros A I. induction fuel as [|f IH]; intros folder vis L N; [reflexivity|]. cbn [walker]. destruct (find_some folder) as (top & ->). destruct (abs_leads cwd folder w AC L) as [-> PW].
  destruct (Z.eqb_spec max 0) as [E|_]; [contradiction|]. rewrite path_norm by exact PW. rewrite (place_look root SF _ _ A).
  assert (WK : forall vis, ~ In (path_of w) vis -> walker cwd root glob patterns max true f (path_of w) vis = Endless).
  { intros vis' N'. apply IH; [|exact N']. left. split; [apply path_absolute|symmetry; apply path_walk, PW]. }
  assert (SUB : forall k m, In (k, m) es -> at_place root (k :: w) m) by (intros k m J; econstructor; eassumption).
  clear IH A. assert (K : visit_all cwd glob patterns max true (walker cwd root glob patterns max true f) (path_of w) (path_of w) es vis top = Endless); [|rewrite K; reflexivity].
  generalize top as rs. clear top. revert vis N. induction es as [|[k m] es IHes]; intros vis N rs; [destruct I|]. cbn [visit_all].
  pose proof (SUB k m (or_introl eq_refl)) as AK. pose proof (place_possible root SF _ _ AK) as PK. inversion PK; subst. rewrite join2_path by assumption.
  destruct (visit_loop _ WK m [] k vis rs AK N) as [H E]. cbn [app] in H, E. destruct I as [I|I].
  - inversion I; subst. rewrite (E text eq_refl). reflexivity.
  - destruct (visit cwd glob patterns max true (walker cwd root glob patterns max true f) (path_of w) m (path_of (k :: w)) vis rs); cbn [held] in H; try contradiction; [|reflexivity].
    apply IHes; [exact I| |exact H]. intros k' m' J. apply SUB. right. exact J.
Qed.
End Loop.
Lemma search_loop cwd root glob folder max patterns w name text es :
  absolute cwd -> sound_fs root -> leads (walk [] cwd) folder w -> max <> 0%Z -> (forall p, glob p <> None) ->
  at_place root w (Dir es) -> In (name, Link text) es ->
  (forall x e text', at_place root (e :: x ++ w) (Link text') -> leads (x ++ w) text' w) ->
  forall fuel, find_files_max_depth fuel cwd root glob folder max true patterns = Forever.
Proof.
  intros AC SF L M GL A I LK fuel. unfold find_files_max_depth. rewrite (walker_loop cwd root glob patterns max w SF AC M GL LK name text es A I fuel folder [] L); [reflexivity|intros []].
Qed.
