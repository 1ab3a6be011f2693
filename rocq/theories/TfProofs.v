(** Formatting of terraform files. *)
From Coq Require Import String Ascii List ZArith NArith Bool PeanoNat Lia Permutation.
From Verif Require Import GoStr GoStrFacts ValueModel MathModel PathModel CliModel CliSpec CliProofs SearchModel SearchSpec SearchProofs FilesModel TfModel TfSpec.
Import ListNotations.

Lemma tf_iff : forall p, is_terraform p = true <-> tf_file p.
Proof.
  intros p. unfold is_terraform, tf_file. rewrite existsb_exists. split.
  - intros (e & I & H). apply has_suffix_iff in H. destruct H as (x & ->). exists x, e. split; [exact I | reflexivity].
  - intros (x & e & I & ->). exists e. split; [exact I|]. apply has_suffix_iff. exists x. reflexivity.
Qed.
Lemma folders_iff : forall files d, Forall (fun p => exists w, file_in w p) files -> In d (tf_folders files) <-> has_terraform files d.
Proof.
  intros files d F. unfold tf_folders. rewrite nodup_In, in_map_iff. split.
  - intros (p & D & I). apply filter_In in I. destruct I as (I & T). rewrite Forall_forall in F. destruct (F p I) as (w & n & P & ->). rewrite (path_dir_of n w P) in D.
    exists w, (path_of (n :: w)). split; [congruence|]. split; [exists n; split; [exact P | reflexivity]|]. split; [exact I | apply tf_iff; exact T].
  - intros (w & p & -> & (n & P & ->) & I & T). exists (path_of (n :: w)). split; [apply path_dir_of; exact P|]. apply filter_In. split; [exact I | apply tf_iff; exact T].
Qed.
Section Loop.
Variable run : str -> bool -> outcome.
Variable text : list str -> str.
Definition failed (d : str) : bool := match o_error (run d false) with Some _ => true | None => false end.
Lemma failed_iff : forall d, failed d = true <-> fails run d false.
Proof. intros d. unfold failed, fails. destruct (o_error (run d false)); split; intros H; try reflexivity; try congruence. Qed.
Definition runs (d : str) : list str := if failed d then [d] else [d; d].
Fixpoint errors (ds : list str) (errs : list str) : list str :=
  match ds with [] => errs | d :: r => errors r (errs ++ [text errs ++ $": " ++ trim_space (o_output (run d false))]) end.
Lemma loop_ok : forall order errs, (forall d, In d order -> ~ fails run d false -> ~ fails run d true) ->
  format_folders run text order errs = (concat (map runs order), Ok (errors (filter failed order) errs)).
Proof.
  induction order as [|d r IH]; intros errs H; [reflexivity|]. cbn [format_folders map concat filter].
  pose proof (H d (or_introl eq_refl)) as HD. pose proof (failed_iff d) as FI. unfold runs at 1. unfold failed in *. unfold fails in *. destruct (o_error (run d false)) eqn:O.
  - rewrite IH by (intros x I; apply H; right; exact I). reflexivity.
  - destruct (o_error (run d true)) eqn:O2; [exfalso; apply HD; congruence|]. rewrite IH by (intros x I; apply H; right; exact I). reflexivity.
Qed.
Lemma errors_grow : forall ds errs, exists l, errors ds errs = errs ++ l /\ length l = length ds.
Proof.
  induction ds as [|d r IH]; intros errs; cbn [errors]; [exists []; split; [symmetry; apply app_nil_r | reflexivity]|].
  destruct (IH (errs ++ [text errs ++ $": " ++ trim_space (o_output (run d false))])) as (l & -> & L). rewrite <- app_assoc. eexists. split; [reflexivity | cbn; lia].
Qed.
Lemma errors_nth : forall ds errs i d e, nth_error ds i = Some d -> nth_error (errors ds errs) (length errs + i) = Some e ->
  e = text (firstn (length errs + i) (errors ds errs)) ++ $": " ++ trim_space (o_output (run d false)).
Proof.
  induction ds as [|x r IH]; intros errs i d e D E; [destruct i; discriminate D|]. cbn [errors] in *. set (a := text errs ++ $": " ++ trim_space (o_output (run x false))) in *.
  destruct i as [|i].
  - cbn in D. injection D as ->. destruct (errors_grow r (errs ++ [a])) as (l & G & _). rewrite G in *. rewrite <- app_assoc in *. rewrite Nat.add_0_r in *.
    rewrite nth_error_app2 in E by lia. rewrite Nat.sub_diag in E. cbn in E. injection E as <-. rewrite firstn_app, Nat.sub_diag, firstn_all. cbn [firstn]. rewrite app_nil_r. reflexivity.
  - cbn in D. specialize (IH (errs ++ [a]) i d e D). rewrite app_length in IH. cbn [length] in IH. replace (length errs + 1 + i) with (length errs + S i) in IH by lia. exact (IH E).
Qed.
Lemma told_errors : forall ds, told text run ds (errors ds []).
Proof.
  intros ds. split.
  - destruct (errors_grow ds []) as (l & -> & L). exact L.
  - intros i d e D E. exists (trim_space (o_output (run d false))). split; [apply trim_trimmed|]. exact (errors_nth ds [] i d e D E).
Qed.
Lemma count_runs : forall order d, NoDup order -> count_occ text_dec (concat (map runs order)) d =
  if in_dec text_dec d order then (if failed d then 1 else 2) else 0.
Proof.
  induction order as [|x r IH]; intros d N; [reflexivity|]. inversion N as [|? ? NI N']; subst. cbn [map concat]. rewrite count_occ_app, (IH d N').
  destruct (list_eq_dec ascii_dec x d) as [->|NE].
  - assert (C : count_occ text_dec (runs d) d = if failed d then 1 else 2).
    { unfold runs. destruct (failed d); repeat (rewrite count_occ_cons_eq by reflexivity); reflexivity. }
    rewrite C. destruct (in_dec text_dec d r) as [I|_]; [contradiction|].
    destruct (in_dec text_dec d (d :: r)) as [_|I]; [lia | exfalso; apply I; left; reflexivity].
  - assert (C : count_occ text_dec (runs x) d = 0).
    { unfold runs. destruct (failed x); repeat (rewrite count_occ_cons_neq by exact NE); reflexivity. }
    rewrite C. destruct (in_dec text_dec d r) as [I|NI2]; destruct (in_dec text_dec d (x :: r)) as [I2|I2]; try reflexivity.
    + exfalso. apply I2. right; exact I.
    + destruct I2 as [I2|I2]; contradiction.
Qed.
Theorem format_ok : forall iter files, (forall l, Permutation l (iter l)) -> Forall (fun p => exists w, file_in w p) files ->
  (forall d, has_terraform files d -> ~ fails run d false -> ~ fails run d true) ->
  exists l failing errs, terraform_format run text true iter files = (l, Ok errs) /\
    (forall d, times run files d (count_occ text_dec l d)) /\
    NoDup failing /\ (forall d, In d failing <-> has_terraform files d /\ fails run d false) /\ told text run failing errs.
Proof.
  intros iter files PM F H. set (order := iter (tf_folders files)).
  assert (IN : forall d, In d order <-> has_terraform files d).
  { intros d. rewrite <- (folders_iff files d F). pose proof (PM (tf_folders files)) as P. split; apply Permutation_in; [symmetry; exact P | exact P]. }
  assert (ND : NoDup order) by (apply (Permutation_NoDup (PM (tf_folders files))); apply NoDup_nodup).
  exists (concat (map runs order)), (filter failed order), (errors (filter failed order) []). split; [|split; [|split; [|split]]].
  - unfold terraform_format. fold order. apply loop_ok. intros d I. apply H. apply IN. exact I.
  - intros d. rewrite (count_runs order d ND). unfold times. destruct (in_dec text_dec d order) as [I|I].
    + apply IN in I. pose proof (failed_iff d) as FI. destruct (failed d).
      * right. left. split; [exact I|]. split; [apply FI; reflexivity | reflexivity].
      * right. right. split; [exact I|]. split; [intros X; apply FI in X; discriminate X | reflexivity].
    + left. split; [intros X; apply I; apply IN; exact X | reflexivity].
  - apply NoDup_filter. exact ND.
  - intros d. rewrite filter_In, IN, failed_iff. reflexivity.
  - apply told_errors.
Qed.
Lemma loop_panic : forall order errs d, In d order -> ~ fails run d false -> fails run d true ->
  exists d' e, In d' order /\ ~ fails run d' false /\ o_error (run d' true) = Some e /\ snd (format_folders run text order errs) = Panic e.
Proof.
  induction order as [|x r IH]; intros errs d I A B; [destruct I|]. cbn [format_folders]. destruct (o_error (run x false)) eqn:O.
  - destruct I as [->|I]; [exfalso; apply A; unfold fails; congruence|]. set (es := errs ++ _). destruct (IH es d I A B) as (d' & e & I' & A' & B' & P). exists d', e.
    split; [right; exact I'|]. split; [exact A'|]. split; [exact B'|]. destruct (format_folders run text r es). exact P.
  - destruct (o_error (run x true)) eqn:O2.
    + exists x. eexists. split; [left; reflexivity|]. split; [unfold fails; congruence|]. split; [exact O2 | reflexivity].
    + destruct I as [->|I]; [exfalso; apply B; exact O2|]. destruct (IH errs d I A B) as (d' & e & I' & A' & B' & P). exists d', e.
      split; [right; exact I'|]. split; [exact A'|]. split; [exact B'|]. destruct (format_folders run text r errs). exact P.
Qed.
Theorem format_panic : forall iter files d, (forall l, Permutation l (iter l)) -> Forall (fun p => exists w, file_in w p) files ->
  has_terraform files d -> ~ fails run d false -> fails run d true ->
  exists d' e, has_terraform files d' /\ ~ fails run d' false /\ o_error (run d' true) = Some e /\ snd (terraform_format run text true iter files) = Panic e.
Proof.
  intros iter files d PM F T A B. unfold terraform_format. apply (folders_iff files d F) in T.
  pose proof (PM (tf_folders files)) as P. destruct (loop_panic (iter (tf_folders files)) [] d (Permutation_in _ P T) A B) as (d' & e & I & X).
  exists d', e. split; [|exact X]. apply (folders_iff files d' F). apply (Permutation_in _ (Permutation_sym P) I).
Qed.
End Loop.
