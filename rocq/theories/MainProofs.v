From Coq Require Import String Ascii List ZArith NArith Bool Lia.
From Verif Require Import GoStr GoStrFacts ValueModel TemplateModel CliModel CliSpec CliProofs MainModel MainSpec.
Import ListNotations.

Lemma excluded_fails abs pm file ps : (forall e, excluded abs pm file ps <> Ok e) -> exists q, In q ps /\ forall b, ~ hit abs pm file q b.
Proof.
  induction ps as [|p ps IH]; cbn [excluded]; intro X; [exfalso; exact (X false eq_refl)|].
  destruct (abs p) as [p'|m|m] eqn:Ap; cbn [bind] in X.
  - destruct (pm p' file) as [b|m|m] eqn:P; cbn [bind] in X.
    + destruct b; [exfalso; exact (X true eq_refl)|]. destruct (IH X) as (q & I & H). exists q. split; [right; exact I|exact H].
    + exists p. split; [left; reflexivity|]. intros b (p2 & A & B). congruence.
    + exists p. split; [left; reflexivity|]. intros b (p2 & A & B). congruence.
  - exists p. split; [left; reflexivity|]. intros b (p2 & A & B). congruence.
  - exists p. split; [left; reflexivity|]. intros b (p2 & A & B). congruence.
Qed.

Lemma keep_left abs pm ps files r ok : keep_until abs pm ps files = (r, ok) -> left_over abs pm ps files r ok.
Proof.
  revert r ok. induction files as [|f fs IH]; cbn [keep_until]; intros r ok H; [inversion H; subst; exact (kept_nil abs pm ps)|].
  destruct (abs f) as [file|m|m] eqn:A; cbn [bind] in H;
    [|inversion H; subst; exists [], f, fs; split; [reflexivity|]; split; [constructor|]; left; intros p E; congruence ..].
  assert (Bad : (forall e, excluded abs pm file ps <> Ok e) -> left_over abs pm ps (f :: fs) [] false).
  { intro X. exists [], f, fs. split; [reflexivity|]. split; [constructor|]. right. apply excluded_fails in X. destruct X as (q & I & N).
    exists file, q. split; [exact A|]. split; [exact I|exact N]. }
  destruct (excluded abs pm file ps) as [e|m|m] eqn:X; [|inversion H; subst; apply Bad; intros e E; discriminate ..]. clear Bad.
  destruct (keep_until abs pm ps fs) as [r0 ok0] eqn:K. specialize (IH _ _ eq_refl). apply excluded_ok in X.
  assert (T : forall before, kept abs pm ps before r0 -> kept abs pm ps (f :: before) (if e then r0 else f :: r0)).
  { intros before B. destruct e.
    - destruct X as (q & Iq & Hq). exact (kept_out abs pm ps f file q before r0 A Iq Hq B).
    - exact (kept_in abs pm ps f file before r0 A X B). }
  inversion H; subst. destruct ok; cbn [left_over] in *.
  - apply T. exact IH.
  - destruct IH as (b & bad & a & -> & B & U). exists (f :: b), bad, a. split; [reflexivity|]. split; [apply T; exact B|exact U].
Qed.

Lemma exclude_left abs pm files patterns r ok : exclude_until abs pm files patterns = (r, ok) ->
  ((forall q, ~ wanted patterns q) /\ r = files /\ ok = true) \/
  ((exists q, wanted patterns q) /\ exists ps, (forall q, In q ps <-> wanted patterns q) /\ left_over abs pm ps files r ok).
Proof.
  intro H. pose proof (extend_wanted patterns) as E. unfold exclude_until in H. destruct (extend patterns) as [|p l] eqn:X.
  - left. inversion H; subst. split; [intros q W; apply (proj2 (E q)) in W; exact W|]. split; reflexivity.
  - right. split; [exists p; apply E; left; reflexivity|]. exists (p :: l). split; [exact E|]. apply keep_left. exact H.
Qed.

(** ** Arguments *)

Lemma has_prefix_true p s : has_prefix p s = true <-> exists r, s = p ++ r.
Proof.
  revert s. induction p as [|c p IH]; intro s; [split; [exists s; reflexivity|reflexivity]|]. destruct s as [|d s]; cbn [has_prefix].
  - split; [discriminate|intros (r & E); discriminate].
  - rewrite andb_true_iff, IH. split.
    + intros (E & r & ->). apply Ascii.eqb_eq in E. subst. exists r. reflexivity.
    + intros (r & E). inversion E; subst. split; [apply Ascii.eqb_refl|exists r; reflexivity].
Qed.
Lemma trim_marked r : trim_prefix mark (mark ++ r) = r.
Proof. reflexivity. Qed.
Lemma trim_other s : (forall r, s <> mark ++ r) -> trim_prefix mark s = s.
Proof.
  intro H. unfold trim_prefix. destruct (has_prefix mark s) eqn:E; [|reflexivity]. apply has_prefix_true in E. destruct E as (r & ->). exfalso. exact (H r eq_refl).
Qed.
Lemma restored given read : Forall2 read_as given read -> Forall (fun a => forall r, a <> $"#!!" ++ r) given -> restore_templates read = given.
Proof.
  intros H F. induction H as [|g r given read R H IH]; [reflexivity|]. inversion F as [|? ? F1 F2]; subst. cbn [restore_templates map].
  fold (restore_templates read). rewrite IH by exact F2. f_equal. destruct R as [(x & -> & ->)|(N & ->)].
  - exact (trim_marked ($"@" ++ x)).
  - apply trim_other. exact F1.
Qed.
Lemma protect_reads args : Forall2 read_as args (protect_args args).
Proof.
  induction args as [|a args IH]; [constructor|]. cbn [protect_args map]. constructor; [|exact IH]. destruct (has_prefix $"@" a) eqn:E.
  - left. apply has_prefix_true in E. destruct E as (r & ->). exists r. split; reflexivity.
  - right. split; [|reflexivity]. intros r ->. assert (X : has_prefix $"@" ($"@" ++ r) = true) by (apply has_prefix_true; exists r; reflexivity). congruence.
Qed.
Lemma protect_never_at args : Forall (fun a => forall r, a <> $"@" ++ r) (protect_args args).
Proof.
  induction (protect_reads args) as [|a b l l' R H IH]; [constructor|]. constructor; [|exact IH]. destruct R as [(x & -> & ->)|(N & ->)]; [|exact N].
  intros r E. discriminate E.
Qed.

(** ** Options *)

Lemma oget_oset o k v j : oget (oset o k v) j = if Nat.eqb j k then v else oget o j.
Proof.
  induction o as [|(k', v') o IH]; [cbn [oset oget]; reflexivity|]. cbn [oset]. destruct (Nat.eqb k k') eqn:E.
  - apply Nat.eqb_eq in E. subst k'. cbn [oget]. destruct (Nat.eqb j k); reflexivity.
  - cbn [oget]. rewrite IH. destruct (Nat.eqb j k') eqn:E2; [|reflexivity]. apply Nat.eqb_eq in E2. subst k'. rewrite Nat.eqb_sym, E. reflexivity.
Qed.
Lemma oget_fold (g : nat -> bool) l : forall o j, oget (fold_left (fun o i => oset o i (g i)) l o) j = if existsb (Nat.eqb j) l then g j else oget o j.
Proof.
  induction l as [|i l IH]; intros o j; [reflexivity|]. cbn [fold_left existsb]. rewrite IH, oget_oset. destruct (Nat.eqb j i) eqn:E; cbn [orb].
  - apply Nat.eqb_eq in E. subst i. destruct (existsb (Nat.eqb j) l); reflexivity.
  - reflexivity.
Qed.
Lemma options_addon f i : i < o_on_by_default_count -> oget (build_options f) i = addon f i.
Proof.
  intro H. unfold build_options. rewrite oget_fold. replace (existsb (Nat.eqb i) (seq 0 o_on_by_default_count)) with true; [reflexivity|].
  symmetry. apply existsb_exists. exists i. split; [apply in_seq; lia|apply Nat.eqb_refl].
Qed.
Lemma options_flag f i b : option_flag f i = Some b -> oget (build_options f) i = b.
Proof.
  unfold option_flag. intro H. unfold build_options. rewrite oget_fold. unfold o_overwrite, o_output_stdout, o_rendering_disabled, o_accept_no_value, o_strict_error_check in *.
  do 5 (match type of H with (if Nat.eqb i ?k then _ else _) = _ => let X := fresh "X" in destruct (Nat.eqb i k) eqn:X;
    [apply Nat.eqb_eq in X; subst i; inversion H; subst; cbn [existsb Nat.eqb seq o_on_by_default_count orb]; rewrite !oget_oset; cbn [Nat.eqb]; reflexivity|] end).
  discriminate.
Qed.
Lemma options_rest f i : o_on_by_default_count <= i -> option_flag f i = None -> oget (build_options f) i = false.
Proof.
  unfold option_flag. intros L H. unfold build_options. rewrite oget_fold.
  replace (existsb (Nat.eqb i) (seq 0 o_on_by_default_count)) with false.
  2:{ symmetry. apply not_true_is_false. intro E. apply existsb_exists in E. destruct E as (x & I & E). apply in_seq in I. apply Nat.eqb_eq in E. lia. }
  rewrite !oget_oset.
  repeat match type of H with (if ?c then _ else _) = _ => destruct c eqn:?E; [discriminate H|] end.
  destruct (f_base f); [reflexivity|]. unfold default_options. rewrite (oget_fold (fun _ => true)).
  replace (existsb (Nat.eqb i) (seq 0 o_on_by_default_count)) with false; [reflexivity|].
  symmetry. apply not_true_is_false. intro X. apply existsb_exists in X. destruct X as (x & I & X). apply in_seq in I. apply Nat.eqb_eq in X. lia.
Qed.
Lemma addon_ok f i : (forall b, nth i (f_addons f) None = Some b -> addon f i = b) /\
  (nth i (f_addons f) None = None -> (addon f i = true <-> ~ In $"--base" (f_args f))).
Proof.
  unfold addon. split; [intros b ->; reflexivity|intros ->]. unfold load_all. rewrite negb_true_iff, <- not_true_iff_false, existsb_exists. split.
  - intros H I. apply H. exists $"--base". split; [exact I|]. reflexivity.
  - intros H (x & I & E). apply H. apply str_eqb_eq in E. rewrite E. exact I.
Qed.

(** ** The program *)

Lemma str_eqb_nil s : str_eqb s [] = true <-> s = [].
Proof. destruct s as [|c s]; [split; reflexivity|split; discriminate]. Qed.

Lemma found_patterns w f (arguments : list str) : (arguments = [] <-> f_templates f = []) -> forall q,
  In q (extend (f_patterns f ++ (if negb (f_stdin f || w_piped w) && match arguments with [] => true | _ => false end then [$"*.gt,*.template"] else []))) <-> looked_for w f q.
Proof.
  intros A q. rewrite extend_app, in_app_iff, (extend_wanted (f_patterns f)). unfold looked_for, takes_stdin.
  destruct (f_stdin f || w_piped w) eqn:O; cbn [negb andb].
  - apply orb_true_iff in O. split; [intros [H|[]]; left; exact H|]. intros [H|(H & _)]; [left; exact H|]. exfalso. exact (H O).
  - apply orb_false_iff in O. destruct O as [O1 O2]. rewrite O1, O2. destruct arguments as [|a l].
    + change (extend [$"*.gt,*.template"]) with [$"*.gt"; $"*.template"]. split.
      * intros [H|H]; [left; exact H|]. right. split; [intros [E|E]; discriminate|]. split; [apply A; reflexivity|exact H].
      * intros [H|(_ & _ & H)]; [left; exact H|right; exact H].
    + split; [intros [H|[]]; left; exact H|]. intros [H|(_ & E & _)]; [left; exact H|]. apply A in E. discriminate.
Qed.

Lemma placed_all w f l : Forall2 (placed w f) l (map (fun t => match w_relative w (source_of w f) t with Some r => r | None => t end) l).
Proof.
  induction l as [|t l IH]; [constructor|]. cbn [map]. constructor; [|exact IH]. unfold placed.
  destruct (w_relative w (source_of w f) t) as [r|]; [left; reflexivity|right; split; reflexivity].
Qed.
Lemma deep_ok f : deep f (if f_recursive f && (f_depth f =? 0)%Z then 65536%Z else f_depth f).
Proof.
  unfold deep. destruct (Z.eqb_spec (f_depth f) 0) as [E|E]; destruct (f_recursive f); cbn [andb]; repeat split; intros; congruence || reflexivity || lia.
Qed.

Section Run.
Variables (w : world) (f : flags).
Let o := build_options f.
Let s := source_of w f.
Definition lines : list str := f_substitutes f ++ (if f_remove_empty f then [$"/^\s*$/d"] else []).

Lemma run_version : f_version f = true -> run_program w f = Outcome 0 None.
Proof. intro H. unfold run_program. rewrite H. reflexivity. Qed.
Lemma run_missing : f_version f = false -> w_exists w s = false -> run_program w f = Outcome (if f_ignore_source f || f_ignore_paths f then 0 else 1) None.
Proof. intros H E. unfold run_program. unfold s, source_of in E. rewrite H, E. reflexivity. Qed.
End Run.

Definition run_tail (w : world) (f : flags) (content t : str) : outcome :=
  let o := build_options f in
  let s := source_of w f in
  match w_find w s (if f_recursive f && (f_depth f =? 0)%Z then 65536%Z else f_depth f) (f_links f)
     (extend (f_patterns f ++ (if negb (f_stdin f || w_piped w) && match restore_templates (f_templates f) with [] => true | _ => false end then [$"*.gt,*.template"] else []))) with
  | Ok found =>
      let (templates, kept_ok) := exclude_until (w_path w) (w_match w) (map (fun t => match w_relative w s t with Some r => r | None => t end) (found ++ restore_templates (f_templates f))) (f_excluded f) in
      let templates := templates ++ (if (f_stdin f || w_piped w) && str_eqb content [] then [w_stdin w] else []) in
      Outcome match w_process w o s t templates with Panic _ => -1 | Err _ => 1 | Ok _ => if kept_ok then 0 else 1 end (Some (o, s, t, templates))
  | _ => crash
  end.
Definition target_of (w : world) (f : flags) : str := w_abs w match f_target f with [] => f_source f | t => t end.
Lemma run_eq w f : f_version f = false -> w_exists w (source_of w f) = true ->
  run_program w f = match w_context w (f_ignore_import f || f_ignore_paths f) with
    | Panic _ => crash | Err _ => Outcome 1 None
    | Ok content => match w_template w (build_options f) (lines f) with
        | Panic _ => crash | Err _ => Outcome 3 None
        | Ok _ => if f_list f then Outcome 0 None else if w_chdir w (source_of w f) then run_tail w f content (target_of w f) else crash
        end end.
Proof.
  intros H E. unfold run_program. unfold source_of in E. rewrite H, E. cbn [negb].
  destruct (w_context w _); [|reflexivity..]. unfold lines. destruct (w_template w _ _); [|reflexivity..]. destruct (f_list f); [reflexivity|].
  unfold source_of. destruct (w_chdir w _); reflexivity.
Qed.
Lemma target_ok w f : target_is w f (target_of w f).
Proof. unfold target_is, target_of. destruct (f_target f) as [|c t]; [right; split; reflexivity|left; split; [discriminate|reflexivity]]. Qed.
Lemma restore_nil l : restore_templates l = [] <-> l = [].
Proof. destruct l as [|a l]; [split; reflexivity|split; discriminate]. Qed.

Lemma tail_call w f given content t : Forall2 read_as given (f_templates f) -> Forall (fun a => forall r, a <> $"#!!" ++ r) given ->
  forall code c, run_tail w f content t = Outcome code (Some c) ->
  exists ts, c = (build_options f, source_of w f, t, ts) /\ handed_over w f given t content code ts.
Proof.
  intros R F code c H. pose proof (found_patterns w f (restore_templates (f_templates f)) (restore_nil _)) as P.
  unfold run_tail in H. revert P H. generalize (extend (f_patterns f ++ (if negb (f_stdin f || w_piped w) && match restore_templates (f_templates f) with [] => true | _ => false end then [$"*.gt,*.template"] else []))).
  intros pats P H. rewrite (restored given _ R F) in H.
  destruct (w_find w (source_of w f) _ (f_links f) pats) as [found|m|m] eqn:Fi; [|discriminate H..].
  destruct (exclude_until _ _ _ _) as [left fine] eqn:X. cbv zeta in H. apply exclude_left in X. inversion H; subst code c. clear H.
  eexists. split; [reflexivity|]. exists (if f_recursive f && (f_depth f =? 0)%Z then 65536%Z else f_depth f), pats, found, (map (fun t => match w_relative w (source_of w f) t with Some r => r | None => t end) (found ++ given)), left, fine.
  split; [apply deep_ok|]. split; [exact P|]. split; [exact Fi|]. split; [apply placed_all|]. split; [exact X|].
  unfold takes_stdin. rewrite <- orb_true_iff. split; [intros E ->; rewrite E; reflexivity|]. split; [|reflexivity].
  intros [N|N].
  - destruct (f_stdin f || w_piped w); [exfalso; exact (N eq_refl)|]. cbn [andb]. apply app_nil_r.
  - replace (str_eqb content []) with false; [rewrite andb_false_r; apply app_nil_r|]. symmetry. apply not_true_is_false. intro E. apply str_eqb_nil in E. exact (N E).
Qed.

Lemma call_ok w f given : Forall2 read_as given (f_templates f) -> Forall (fun a => forall r, a <> $"#!!" ++ r) given ->
  forall code o s t ts, run_program w f = Outcome code (Some (o, s, t, ts)) ->
  f_version f = false /\ f_list f = false /\ o = build_options f /\ s = source_of w f /\ w_exists w s = true /\ target_is w f t /\
  exists content, w_context w (f_ignore_import f || f_ignore_paths f) = Ok content /\
    (exists u, w_template w o (f_substitutes f ++ (if f_remove_empty f then [$"/^\s*$/d"] else [])) = Ok u) /\
    w_chdir w s = true /\ handed_over w f given t content code ts.
Proof.
  intros R F code o s t ts H. destruct (f_version f) eqn:V; [rewrite run_version in H by exact V; discriminate|].
  destruct (w_exists w (source_of w f)) eqn:E; [|rewrite run_missing in H by assumption; discriminate].
  rewrite run_eq in H by assumption. destruct (w_context w _) as [content|m|m] eqn:C; [|discriminate..].
  destruct (w_template w _ _) as [u|m|m] eqn:T; [|discriminate..]. destruct (f_list f); [discriminate|]. destruct (w_chdir w _) eqn:D; [|discriminate].
  destruct (tail_call w f given content _ R F _ _ H) as (ts' & Q & HO). inversion Q; subst.
  split; [reflexivity|]. split; [reflexivity|]. split; [reflexivity|]. split; [reflexivity|]. split; [exact E|]. split; [apply target_ok|].
  exists content. split; [reflexivity|]. split; [exists u; exact T|]. split; [exact D|exact HO].
Qed.

Lemma called w f content u : f_version f = false -> f_list f = false -> w_exists w (source_of w f) = true ->
  w_context w (f_ignore_import f || f_ignore_paths f) = Ok content -> w_template w (build_options f) (lines f) = Ok u -> w_chdir w (source_of w f) = true ->
  (forall d pats, exists found, w_find w (source_of w f) d (f_links f) pats = Ok found) ->
  exists code c, run_program w f = Outcome code (Some c).
Proof.
  intros V L E C T D Fi. rewrite run_eq, C, T, L, D by assumption. unfold run_tail.
  destruct (Fi (if f_recursive f && (f_depth f =? 0)%Z then 65536%Z else f_depth f) (extend (f_patterns f ++ (if negb (f_stdin f || w_piped w) && match restore_templates (f_templates f) with [] => true | _ => false end then [$"*.gt,*.template"] else [])))) as (found & ->).
  destruct (exclude_until _ _ _ _) as [left fine]. eexists. eexists. reflexivity.
Qed.
