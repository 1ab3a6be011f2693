(** Proofs about saving, loading and testing files. *)
From Coq Require Import String Ascii List ZArith NArith Bool Lia.
From Verif Require Import GoStr GoStrFacts ValueModel ValueFacts PathModel PathSpec PathProofs SearchModel FsModel FsSpec FsProofs.
Import ListNotations.

(** ** What is written *)
Section Contents.
Context {V : Env}.
Lemma as_bytes_of l s : Forall2 byte_of l s -> as_bytes l = Some s.
Proof. induction 1 as [|v c l s E F IH]; [reflexivity|]. rewrite E. cbn [as_bytes]. rewrite IH, N2Z.id, ascii_N_embedding. reflexivity. Qed.
Lemma as_bytes_not l x : In x l -> (forall z, x <> VScal (SInt KUint8 z)) -> as_bytes l = None.
Proof.
  intros I NB. induction l as [|v l IH]; [destruct I|]. destruct I as [->|I].
  - destruct x as [|[|[]| |]| | | | | |]; try reflexivity. exfalso. eapply NB. reflexivity.
  - cbn [as_bytes]. rewrite (IH I). destruct v as [|[|[]| |]| | | | | |]; reflexivity.
Qed.
Lemma conv_not_byte i v : (forall z, v <> VScal (SInt KUint8 z)) -> forall z, conv i v <> VScal (SInt KUint8 z).
Proof. intros NB z. destruct v; cbn [conv]; try exact (NB z); try discriminate; destruct (existsb _ _); discriminate. Qed.
Lemma saved_contents v s : saved_as v s -> contents v = s.
Proof.
  intros [v' l s' I F|v' NN NB]; unfold contents.
  - assert (B : existsb need_conv l = false). { clear I. induction F as [|x c l0 s0 E F IH]; [reflexivity|]. cbn [existsb]. rewrite E. exact IH. }
    destruct I as [t l|i l]; cbn [c_try_as_list try_as_list conv]; [rewrite B|]; rewrite (as_bytes_of l s' F); reflexivity.
  - destruct v' as [|sc|t l|t m|t m|j l|j m|a b c]; try reflexivity; [congruence| |].
    + destruct (NB l (i_slice t l)) as (x & IX & NX). cbn [c_try_as_list try_as_list conv]. destruct (existsb need_conv l); [|rewrite (as_bytes_not l x IX NX); reflexivity]. rewrite (as_bytes_not _ (conv dflt x) (in_map _ _ _ IX) (conv_not_byte _ _ NX)). reflexivity.
    + destruct (NB l (i_list j l)) as (x & IX & NX). cbn [c_try_as_list]. rewrite (as_bytes_not l x IX NX). reflexivity.
Qed.
End Contents.

Section Fs.
Variables (here : place) (user umask : N).
Notation lookup := (lookup user).
Notation stat := (stat here user).
Notation follow := (follow here).
Notation there := (there user).
Notation reachable := (reachable user).
Notation save := (save here user umask).
Context {V : Env}.

Lemma not_folder name e : ends_with name e -> of_folder name = false.
Proof.
  intros (N1 & N2 & N3 & N4 & X). unfold of_folder. apply Bool.orb_false_iff.
  assert (L : exists a, name = a ++ e) by (destruct X as [->|(a & ->)]; [exists []; reflexivity | exists (a ++ $"/"); apply app_assoc]). split.
  - destruct (has_suffix $"/" name) eqn:H; [|reflexivity]. exfalso. apply has_suffix_iff in H. destruct H as (y & H). destruct L as (a & L). destruct (exists_last N1) as (e' & c & ->). rewrite H in L. rewrite app_assoc in L. apply (app_inj_tail y (a ++ e') "/"%char c) in L. destruct L as (_ & <-). apply N4. apply in_or_app. right. left. reflexivity.
  - destruct (has_suffix $"/." name) eqn:H; [|reflexivity]. exfalso. apply has_suffix_iff in H. destruct H as (y & H). destruct (exists_last N1) as (e' & c & ->). rewrite H in X.
    assert (Y : forall b, y ++ $"/." = b ++ e' ++ [c] -> c = "."%char /\ y ++ $"/" = b ++ e'). { intros b E. change $"/." with ($"/" ++ ["."%char]) in E. rewrite !app_assoc in E. apply (app_inj_tail (y ++ $"/") (b ++ e') "."%char c) in E. destruct E as (E1 & E2). split; [symmetry; exact E2 | exact E1]. }
    assert (Z : forall b, y ++ $"/" = b ++ e' -> e' = []). { intros b E. destruct e' as [|x e'' _] using rev_ind; [reflexivity|]. exfalso. rewrite app_assoc in E. apply (app_inj_tail y (b ++ e'') "/"%char x) in E. destruct E as (_ & <-). apply N4. rewrite <- app_assoc. apply in_or_app. right. left. reflexivity. }
    destruct X as [X|(b & X)].
    + destruct (Y [] X) as (-> & X2). rewrite (Z [] X2) in *. apply N2. reflexivity.
    + rewrite app_assoc in X. destruct (Y _ X) as (-> & X2). rewrite (Z _ X2) in *. apply N2. reflexivity.
Qed.
Lemma ends_nonempty name e : ends_with name e -> name <> [].
Proof. intros (N1 & _ & _ & _ & [->|(a & ->)]); [exact N1|]. destruct a; discriminate. Qed.
(** Names of folders as path_dir gives them. *)
Lemma stat_inl f name e : ends_with name e -> forall x, there f (follow name) x -> stat f name = inl x.
Proof.
  intros E x T. unfold FsModel.stat. pose proof (ends_nonempty name e E) as N. destruct name as [|c name]; [congruence|]. rewrite (proj2 (lookup_there user f _ x) T), (not_folder _ e E). reflexivity.
Qed.
Lemma stat_missing f name : name <> [] -> reachable f (follow name) -> f (follow name) = None -> stat f name = inr NotExist.
Proof. intros N R M. unfold FsModel.stat. destruct name; [congruence|]. rewrite (lookup_missing user f _ R M). reflexivity. Qed.
Lemma stat_dir f name x : name <> [] -> there f (follow name) x -> n_dir x = true -> stat f name = inl x.
Proof. intros N T D. unfold FsModel.stat. destruct name; [congruence|]. rewrite (proj2 (lookup_there user f _ x) T), D, Bool.andb_false_r. reflexivity. Qed.

Lemma create_ok f w e d : there f (List.tl w) d -> n_dir d = true -> may user 1 d -> may user 0 d -> create user f w e = inl (put w e f).
Proof. intros T D M1 M0. unfold create. rewrite (proj2 (lookup_there user f _ d) T), D, (proj2 (allowed2 user d) M1), (proj2 (allowed1 user d) M0). reflexivity. Qed.

Lemma mkdir_create f name mode : name <> [] -> stat f name = inr NotExist -> mkdir here user umask f name mode = create user f (follow name) (Entry true [] (N.ldiff mode umask) user).
Proof. intros N S. unfold mkdir. rewrite S. destruct name; [congruence|reflexivity]. Qed.
(** Writing in a folder that is there. *)
Lemma write_there f name e s : ends_with name e -> open_folder user f (List.tl (follow name)) ->
  (f (follow name) = None \/ exists x, f (follow name) = Some x /\ n_dir x = false /\ may user 1 x) ->
  exists x, write_file here user umask f name s 420 = inl (put (follow name) x f) /\ n_dir x = false /\ n_bytes x = s /\
    (forall y, f (follow name) = Some y -> n_mode x = n_mode y /\ n_owner x = n_owner y) /\ (f (follow name) = None -> n_mode x = N.ldiff 420 umask /\ n_owner x = user).
Proof.
  intros E (d & T & D & M1 & M0) C. destruct (follow_dir here name e E) as (FN & _). rewrite FN in *. cbn [List.tl] in *.
  assert (R : reachable f (e :: follow (path_dir name))). { cbn [FsSpec.reachable]. destruct T as (R & F). split; [exact R|]. exists d. repeat split; assumption. }
  destruct C as [N|(x & F & ND & MW)].
  - exists (Entry false s (N.ldiff 420 umask) user). unfold write_file. rewrite (stat_missing f name (ends_nonempty _ _ E)); [|rewrite FN; assumption..]. pose proof (ends_nonempty _ _ E) as NE. destruct name as [|c name]; [congruence|]. rewrite (not_folder _ e E), FN.
    rewrite (create_ok f _ _ d); [|assumption..]. split; [reflexivity|]. split; [reflexivity|]. split; [reflexivity|]. split; [intros y Y; congruence | intros _; split; reflexivity].
  - exists (Entry false s (n_mode x) (n_owner x)). unfold write_file. rewrite (stat_inl f name e E x); [|rewrite FN; split; assumption]. rewrite ND, (proj2 (allowed2 user x) MW), FN. split; [reflexivity|]. split; [reflexivity|]. split; [reflexivity|]. split; [intros y Y; rewrite F in Y; injection Y as ->; split; reflexivity | intros N; congruence].
Qed.
Lemma save_there f name e v s w : ends_with name e -> leads here name w -> saved_as v s -> open_folder user f (List.tl w) ->
  (f w = None \/ exists x, f w = Some x /\ n_dir x = false /\ may user 1 x) ->
  exists f' x, save f name v = (f', None) /\ same_but (eq w) f f' /\ f' w = Some x /\ n_dir x = false /\ n_bytes x = s /\
    (forall y, f w = Some y -> n_mode x = n_mode y /\ n_owner x = n_owner y) /\ (f w = None -> n_mode x = N.ldiff 420 umask /\ n_owner x = user).
Proof.
  intros E L SA O C. apply follow_leads in L. subst w. destruct (write_there f name e s E O C) as (x & W & X). exists (put (follow name) x f), x.
  destruct O as (d & T & D & _). destruct (follow_dir here name e E) as (FN & NE). rewrite FN in T. cbn [List.tl] in T. unfold FsModel.save. rewrite (stat_dir f _ d NE T D). cbv zeta. rewrite (saved_contents v s SA), W. split; [reflexivity|].
  split; [intros u NU; apply put_other; congruence|]. split; [apply put_same | exact X].
Qed.
(** The folder is made when it is missing. *)
Lemma save_folder f name e v s w : ends_with name e -> leads here name w -> saved_as v s -> f w = None -> f (List.tl w) = None -> open_folder user f (List.tl (List.tl w)) ->
  user = 0%N \/ N.testbit umask 6 = false /\ N.testbit umask 7 = false ->
  exists f', save f name v = (f', None) /\ same_but (fun u => u = w \/ u = List.tl w) f f' /\
    f' (List.tl w) = Some (Entry true [] (N.ldiff 511 umask) user) /\ f' w = Some (Entry false s (N.ldiff 420 umask) user).
Proof.
  intros E L SA NW NF O UM. apply follow_leads in L. subst w. destruct (follow_dir here name e E) as (FN & NE). rewrite FN in *. cbn [List.tl] in *. set (w := follow (path_dir name)) in *.
  assert (WN : w <> []). { intros Z. rewrite Z in *. destruct O as (d & (_ & F) & _). cbn [List.tl] in F. congruence. }
  destruct O as (d & T & D & M1 & M0). assert (R : reachable f w). { destruct w as [|x w']; [congruence|]. cbn [List.tl] in T. destruct T as (R & F). cbn [FsSpec.reachable]. split; [exact R|]. exists d. repeat split; assumption. }
  set (fold := Entry true [] (N.ldiff 511 umask) user). assert (MK : mkdir here user umask f (path_dir name) 511 = inl (put w fold f)).
  { rewrite (mkdir_create f _ 511 NE (stat_missing f _ NE R NF)). apply (create_ok f w fold d); assumption. }
  assert (MF : may user 1 fold /\ may user 0 fold). { unfold may, has_bit, fold. cbn [n_owner n_mode]. destruct UM as [U|(U6 & U7)]; [split; left; exact U|]. split; right; left; (split; [reflexivity|]); rewrite N.ldiff_spec; [change (1 + 6)%N with 7%N; rewrite U7 | change (0 + 6)%N with 6%N; rewrite U6]; reflexivity. }
  assert (O2 : open_folder user (put w fold f) (List.tl (follow name))). { rewrite FN. cbn [List.tl]. exists fold. split; [split; [apply reachable_put; [lia|exact R] | apply put_same] | split; [reflexivity | exact MF]]. }
  assert (NW2 : put w fold f (follow name) = None). { rewrite FN, put_other; [exact NW|]. intros Z. apply (f_equal (@List.length _)) in Z. cbn [List.length] in Z. unfold w in Z. lia. }
  destruct (write_there (put w fold f) name e s E O2 (or_introl NW2)) as ([xd xb xm xo] & W & ND & NB & _ & NM). cbn [n_dir n_bytes n_mode n_owner] in *. destruct (NM NW2) as (-> & ->). subst xd xb.
  eexists. split; [unfold FsModel.save; rewrite (stat_missing f _ NE R NF); cbv zeta; rewrite MK, (saved_contents v s SA), W; reflexivity|]. rewrite FN.
  split; [intros u NU; rewrite !put_other; [reflexivity | intros ->; apply NU; right; reflexivity | intros ->; apply NU; left; reflexivity]|].
  split; [|apply put_same]. rewrite put_other; [apply put_same|]. intros Z. apply (f_equal (@List.length _)) in Z. cbn [List.length] in Z. unfold w in Z. lia.
Qed.
Lemma save_missing f name e v w : ends_with name e -> leads here name w -> List.tl w <> [] -> reachable f (List.tl (List.tl w)) -> f (List.tl (List.tl w)) = None -> save f name v = (f, Some NotExist).
Proof.
  intros E L WN R NF. apply follow_leads in L. subst w. destruct (follow_dir here name e E) as (FN & NE). rewrite FN in *. cbn [List.tl] in *.
  assert (LU : lookup f (follow (path_dir name)) = inr NotExist). { destruct (follow (path_dir name)) as [|x w]; [congruence|]. cbn [List.tl FsModel.lookup] in *. rewrite (lookup_missing user f w R NF). reflexivity. }
  unfold FsModel.save. assert (S : stat f (path_dir name) = inr NotExist). { unfold FsModel.stat. destruct (path_dir name); [congruence|]. rewrite LU. reflexivity. }
  rewrite S. cbv zeta. rewrite (mkdir_create f _ 511 NE S). unfold create. rewrite (lookup_missing user f _ R NF). reflexivity.
Qed.

(** ** Reading what was written *)
Lemma write_read f name s mode f' : write_file here user umask f name s mode = inl f' -> exists x, f' (follow name) = Some x /\ n_bytes x = s /\ n_dir x = false /\ stat f' name = inl x /\ same_but (eq (follow name)) f f'.
Proof.
  assert (K : forall f w y d, there f (List.tl w) d -> n_dir d = true -> may user 0 d -> there (put w y f) w y).
  { intros g w y d (R & F) D M. split; [|apply put_same]. apply reachable_put; [lia|]. destruct w as [|x w]; [exact I|]. cbn [List.tl] in *. split; [exact R|]. exists d. repeat split; assumption. }
  unfold write_file. destruct (stat f name) as [e|er] eqn:S.
  - destruct (n_dir e) eqn:D; [discriminate|]. destruct (allowed user 2 e); [|discriminate]. intros H. injection H as <-. unfold FsModel.stat in S. destruct name as [|c name]; [discriminate S|]. destruct (lookup f (follow (c :: name))) as [x|] eqn:L; [|discriminate S]. rewrite Bool.andb_comm in S. destruct (of_folder (c :: name)) eqn:OF; [destruct (n_dir x) eqn:DX; cbn [negb andb] in S; [|discriminate S]; injection S as ->; congruence|].
    apply lookup_there in L. destruct L as (R & F). eexists. split; [apply put_same|]. split; [reflexivity|]. split; [reflexivity|]. split; [|intros u NU; apply put_other; congruence].
    unfold FsModel.stat. rewrite (proj2 (lookup_there user _ _ _) (conj (reachable_put user f _ _ _ (le_n _) R) (put_same _ _ f))), OF. reflexivity.
  - destruct er; try discriminate. destruct name as [|c name]; [discriminate|]. destruct (of_folder (c :: name)) eqn:OF; [discriminate|]. unfold create. destruct (lookup f (List.tl (follow (c :: name)))) as [d|] eqn:L; [|discriminate]. destruct (n_dir d) eqn:D; [|discriminate]. cbn [negb]. destruct (allowed user 2 d) eqn:A2; [|discriminate]. destruct (allowed user 1 d) eqn:A1; [|discriminate]. cbn [andb]. intros H. injection H as <-.
    apply lookup_there in L. eexists. split; [apply put_same|]. split; [reflexivity|]. split; [reflexivity|]. split; [|intros u NU; apply put_other; congruence].
    unfold FsModel.stat. rewrite (proj2 (lookup_there user _ _ _) (K f _ _ d L D (proj1 (allowed1 user d) A1))), OF. reflexivity.
Qed.
Lemma save_load f name v s f' : saved_as v s -> save f name v = (f', None) -> exists x, f' (follow name) = Some x /\ n_dir x = false /\
  (may user 2 x -> read_file here user f' name = inl s) /\ (~ may user 2 x -> read_file here user f' name = inr Denied).
Proof.
  intros SA H. unfold FsModel.save in H. rewrite (saved_contents v s SA) in H. cbv zeta in H. destruct (match stat f (path_dir name) with inr NotExist => mkdir here user umask f (path_dir name) 511 | _ => inl f end) as [g|er]; [|discriminate H].
  destruct (write_file here user umask g name s 420) as [h|er] eqn:W; [|discriminate H]. injection H as <-. destruct (write_read _ _ _ _ _ W) as (x & FX & BX & DX & ST & _). exists x. split; [exact FX|]. split; [exact DX|]. unfold read_file. rewrite ST, DX, BX. split; intros M.
  - rewrite (proj2 (allowed4 user x) M). reflexivity.
  - destruct (allowed user 4 x) eqn:A; [exfalso; apply M, allowed4; exact A | reflexivity].
Qed.
(** A failing save makes a folder at most. *)
Lemma save_fails f name v f' er e w : ends_with name e -> leads here name w -> save f name v = (f', Some er) -> same_but (eq (List.tl w)) f f' /\ (f' (List.tl w) <> f (List.tl w) -> f' (List.tl w) = Some (Entry true [] (N.ldiff 511 umask) user)).
Proof.
  intros E L H. apply follow_leads in L. subst w. destruct (follow_dir here name e E) as (FN & NE). rewrite FN. cbn [List.tl]. unfold FsModel.save in H. cbv zeta in H.
  assert (K : forall g er', (let '(a, b) := match write_file here user umask g name (contents v) 420 with inl h => (h, None) | inr e0 => (g, Some e0) end in (a, b)) = (f', Some er') -> f' = g).
  { intros g er'. destruct (write_file here user umask g name (contents v) 420); intros X; inversion X; reflexivity. }
  assert (SM : forall g, match write_file here user umask g name (contents v) 420 with inl h => (h, None) | inr e0 => (g, Some e0) end = (f', Some er) -> f' = g).
  { intros g. destruct (write_file here user umask g name (contents v) 420); intros X; inversion X; reflexivity. }
  destruct (stat f (path_dir name)) as [d|[]] eqn:S; try (apply SM in H; subst f'; split; [intros u _; reflexivity | congruence]).
  destruct (mkdir here user umask f (path_dir name) 511) as [g|er'] eqn:MK; [|inversion H; subst; split; [intros u _; reflexivity | congruence]].
  apply SM in H. subst f'. rewrite (mkdir_create f _ 511 NE S) in MK. unfold create in MK. destruct (FsModel.lookup user f (List.tl (follow (path_dir name)))) as [d|]; [|discriminate MK]. destruct (negb (n_dir d)); [discriminate MK|]. destruct (allowed user 2 d && allowed user 1 d); [|discriminate MK]. injection MK as <-.
  split; [intros u NU; apply put_other; congruence | intros _; apply put_same].
Qed.

(** ** Tests *)
Lemma tests f name e w x : ends_with name e -> leads here name w -> there f w x ->
  file_exists here user f name = inl true /\ is_dir here user f name = inl (n_dir x) /\ is_file here user f name = inl (negb (n_dir x)) /\ file_size here user f name = inl (Z.of_nat (List.length (n_bytes x))) /\
  is_readable here user f name = inl (N.testbit (n_mode x) 8) /\ is_writeable here user f name = inl (N.testbit (n_mode x) 7) /\ is_executable here user f name = inl (N.testbit (n_mode x) 6 && negb (n_dir x)).
Proof.
  intros E L T. apply follow_leads in L. subst w. pose proof (stat_inl f name e E x T) as S. unfold file_exists, is_file, is_dir, file_size, is_readable, is_writeable, is_executable, on_stat. rewrite S.
  assert (B : forall n k, n = N.shiftl 1 k -> negb (N.land (n_mode x) n =? 0)%N = N.testbit (n_mode x) k). { intros n k ->. rewrite N.land_comm, land_bit. apply Bool.negb_involutive. }
  rewrite (B 256%N 8%N eq_refl), (B 128%N 7%N eq_refl), (B 64%N 6%N eq_refl). repeat split; reflexivity.
Qed.
Lemma tests_missing f name w : name <> [] -> leads here name w -> reachable f w -> f w = None ->
  file_exists here user f name = inl false /\ is_dir here user f name = inr NotExist /\ is_file here user f name = inr NotExist /\ file_size here user f name = inr NotExist /\
  is_readable here user f name = inr NotExist /\ is_writeable here user f name = inr NotExist /\ is_executable here user f name = inr NotExist.
Proof.
  intros E L R N. apply follow_leads in L. subst w. unfold file_exists, is_file, is_dir, file_size, is_readable, is_writeable, is_executable, on_stat. rewrite (stat_missing f name E R N). repeat split; reflexivity.
Qed.
End Fs.
