(** Proofs about the processing of files. *)
From Coq Require Import String Ascii List ZArith NArith Bool Arith Lia.
From Verif Require TextProofs ProcessProofs.
From Verif Require Import GoStr GoStrFacts PathModel PathSpec PathProofs TemplateModel TemplateSpec TemplateProofs ProcessModel FilesModel FilesSpec.
Import ListNotations.

(** ** File systems *)
Lemma place_eqb_eq a b : place_eqb a b = true <-> a = b.
Proof. unfold place_eqb. destruct (list_eq_dec (list_eq_dec ascii_dec) a b); split; congruence. Qed.
Lemma place_eqb_refl a : place_eqb a a = true.
Proof. apply place_eqb_eq. reflexivity. Qed.
Lemma place_eqb_ne a b : place_eqb a b = false <-> a <> b.
Proof. rewrite <- place_eqb_eq. destruct (place_eqb a b); split; congruence. Qed.
Lemma fget_fdel : forall s p q, fget (fdel s p) q = if place_eqb q p then None else fget s q.
Proof.
  intros s p q. unfold fdel. induction s as [|(k, f) s IH]; [cbn; destruct (place_eqb q p); reflexivity|]. cbn [filter fst]. destruct (place_eqb p k) eqn:E; cbn [negb].
  - apply place_eqb_eq in E. subst k. rewrite IH. cbn [fget]. destruct (place_eqb q p) eqn:Q; reflexivity.
  - cbn [fget]. rewrite IH. destruct (place_eqb q k) eqn:Q; [|reflexivity]. apply place_eqb_eq in Q. subst k. apply place_eqb_ne in E. destruct (place_eqb q p) eqn:R; [apply place_eqb_eq in R; congruence|reflexivity].
Qed.
Lemma fget_fset : forall s p f q, fget (fset s p f) q = if place_eqb q p then Some f else fget s q.
Proof. intros. unfold fset. cbn [fget]. rewrite fget_fdel. destruct (place_eqb q p); reflexivity. Qed.
Lemma fget_write : forall s p t m q, fget (write s p t m) q = if place_eqb q p then Some {| f_text := t; f_mode := match fget s p with Some f => f_mode f | None => m end |} else fget s q.
Proof. intros. unfold write. apply fget_fset. Qed.

(** ** Places *)
Lemma resolve_rev : forall cwd p, absolute cwd -> rev (resolve cwd p) = if is_abs p then walk [] p else walk (walk [] cwd) p.
Proof.
  intros cwd p A. unfold resolve. destruct (is_abs p) eqn:E.
  - apply abs_iff in E. rewrite <- abs_norm by exact E. reflexivity.
  - assert (N : absolute (cwd ++ [SLASH] ++ p)) by (destruct A as (r & ->); eexists; rewrite <- app_assoc; reflexivity). rewrite <- abs_norm by exact N. change (cwd ++ [SLASH] ++ p) with (cwd ++ SLASH :: p). apply walk_slash.
Qed.
Lemma leads_unique : forall here p w w', leads here p w -> leads here p w' -> w = w'.
Proof. intros here p w w' [(A & ->)|(A & ->)] [(B & ->)|(B & ->)]; congruence || contradiction. Qed.
Lemma resolve_leads : forall cwd p, absolute cwd -> leads (walk [] cwd) p (rev (resolve cwd p)).
Proof.
  intros cwd p A. rewrite resolve_rev by exact A. apply leads_fun.
Qed.
Lemma file_at_iff : forall cwd s p f, absolute cwd -> (file_at cwd s p f <-> fget s (resolve cwd p) = f).
Proof.
  intros cwd s p f A. split.
  - intros (w & L & <-). rewrite (leads_unique _ _ _ _ L (resolve_leads cwd p A)), rev_involutive. reflexivity.
  - intro H. exists (rev (resolve cwd p)). split; [apply resolve_leads; exact A|]. rewrite rev_involutive. exact H.
Qed.
Lemma reads_iff : forall cwd s p t, absolute cwd -> (reads cwd s p t <-> exists f, fget s (resolve cwd p) = Some f /\ f_text f = t).
Proof. intros cwd s p t A. unfold reads. split; intros (f & H & E); exists f; (split; [|exact E]); apply (file_at_iff cwd s p (Some f) A); exact H. Qed.
Lemma same_iff : forall cwd p q, absolute cwd -> (same_place cwd p q <-> resolve cwd p = resolve cwd q).
Proof.
  intros cwd p q A. split.
  - intros (w & L & M). apply rev_inj. rewrite <- (leads_unique _ _ _ _ L (resolve_leads cwd p A)). apply (leads_unique _ _ _ _ M (resolve_leads cwd q A)).
  - intro E. exists (rev (resolve cwd p)). split; [apply resolve_leads; exact A|]. rewrite E. apply resolve_leads. exact A.
Qed.

Lemma walk_one : forall w e, ~ In SLASH e -> e <> [] -> e <> $"." -> e <> $".." -> walk w e = e :: w.
Proof.
  intros w e N1 N2 N3 N4. unfold walk. change $"/" with [SLASH]. rewrite split1_notIn by exact N1. cbn [fold_left]. rewrite step_eq.
  apply str_eqb_neq in N2, N3, N4. rewrite N2, N3, N4. reflexivity.
Qed.
(** The place of a path with a name. *)
Lemma walk_named : forall a e, (a = [] \/ exists a', a = a' ++ $"/") -> ~ In SLASH e -> e <> [] -> e <> $"." -> e <> $".." -> forall w, walk w (a ++ e) = e :: walk w a.
Proof.
  intros a e Ha N1 N2 N3 N4 w. destruct Ha as [->|(a' & ->)].
  - cbn [app]. rewrite walk_one by assumption. rewrite walk_nil. reflexivity.
  - rewrite <- app_assoc. change ($"/" ++ e) with (SLASH :: e). rewrite walk_slash, walk_one by assumption. change (a' ++ $"/") with (a' ++ SLASH :: []). rewrite walk_slash, walk_nil. reflexivity.
Qed.
Lemma resolve_named : forall cwd a e, absolute cwd -> (a = [] \/ exists a', a = a' ++ $"/") -> ~ In SLASH e -> e <> [] -> e <> $"." -> e <> $".." ->
  exists w, forall e', ~ In SLASH e' -> e' <> [] -> e' <> $"." -> e' <> $".." -> resolve cwd (a ++ e') = w ++ [e'].
Proof.
  intros cwd a e A Ha N1 N2 N3 N4. exists (rev (walk (if is_abs (a ++ e) then [] else walk [] cwd) a)). intros e' M1 M2 M3 M4. apply rev_inj. rewrite resolve_rev by exact A. rewrite rev_app_distr, rev_involutive. cbn [rev app].
  assert (AB : is_abs (a ++ e') = is_abs (a ++ e)).
  { destruct Ha as [->|(a' & ->)].
    - cbn [app]. unfold is_abs. rewrite !has_prefix_1. destruct e as [|x e], e' as [|y e']; try congruence. rewrite (proj2 (Ascii.eqb_neq SLASH x)), (proj2 (Ascii.eqb_neq SLASH y)); [reflexivity| |]; intro; subst; [apply M1|apply N1]; left; reflexivity.
    - unfold is_abs. rewrite !has_prefix_1. destruct a'; reflexivity. }
  rewrite AB. destruct (is_abs (a ++ e)); apply walk_named; assumption.
Qed.

(** ** Instants *)
Lemma instant_nil : forall s s', instant s [] s' -> s' = s.
Proof. intros s s' H. inversion H. reflexivity. Qed.
Lemma instant_effects : forall es s, instant s es (effects s es).
Proof. induction es as [|e es IH]; intro s; [apply instant_now|]. apply instant_later. exact (IH (effect s e)). Qed.
Definition touches (e : event) : list (list str) := match e with Mkdir _ => [] | Rename a b => [a; b] | Write p _ _ => [p] | Remove p => [p] end.
Lemma effect_frame : forall s e q, ~ In q (touches e) -> fget (effect s e) q = fget s q.
Proof.
  intros s [p|a b|p t m|p] q N; cbn [touches effect] in *.
  - reflexivity.
  - destruct (fget s a); [|reflexivity]. rewrite fget_fset, fget_fdel. cbn in N. rewrite (proj2 (place_eqb_ne q b)), (proj2 (place_eqb_ne q a)); [reflexivity| |]; intro; subst; apply N; auto.
  - rewrite fget_write. rewrite (proj2 (place_eqb_ne q p)); [reflexivity|]. intro; subst; apply N; left; reflexivity.
  - rewrite fget_fdel. rewrite (proj2 (place_eqb_ne q p)); [reflexivity|]. intro; subst; apply N; left; reflexivity.
Qed.
Lemma instant_frame : forall s es s', instant s es s' -> forall q, ~ In q (flat_map touches es) -> fget s' q = fget s q.
Proof.
  intros s es s' H. induction H as [s es|s e es s' H IH|s p t u m es]; intros q N; [reflexivity| |].
  - cbn [flat_map] in N. rewrite IH by (intro I; apply N; apply in_or_app; right; exact I). apply effect_frame. intro I. apply N. apply in_or_app. left. exact I.
  - apply (effect_frame s (Write p t m)). intro I. apply N. cbn [flat_map]. apply in_or_app. left. exact I.
Qed.

Section WithEngine.
Context {G : Engine}.
Variables (cwd : str) (is_script : str -> bool).
Hypothesis cwd_abs : absolute cwd.
Notation process := (process_template cwd is_script).

(** The two ways of writing files. *)
Lemma events_save : forall h stack o d st s f src tgt, d_events (process h stack o d st s f src tgt) <> [] ->
  exists t result changed name, file_at cwd s f (Some t) /\
    (exists o' st', process_with h stack o d st f (f_text t) = (o', st', Ok (result, changed, None)) /\ result_name (oget o' o_overwrite) src tgt f result = Ok (Some name) /\
     oget o' o_output_stdout = false /\ (src = tgt -> changed = true) /\
     process h stack o d st s f src tgt = {| d_options := o'; d_state := st'; d_events := save cwd is_script o' src tgt f (f_mode t) name result; d_printed := []; d_result := Ok name |}).
Proof.
  intros h stack o d st s f src tgt. unfold process_template. destruct (fget s (resolve cwd f)) as [t|] eqn:F.
  - destruct (process_with h stack o d st f (f_text t)) as ((o', st'), [((result, changed), [e|])|e|e]) eqn:P; try (intro N; exfalso; apply N; reflexivity).
    destruct (result_name (oget o' o_overwrite) src tgt f result) as [[name|]|e|e] eqn:R; try (intro N; exfalso; apply N; reflexivity).
    destruct (oget o' o_output_stdout) eqn:O; [destruct (print_result name result); intro N; exfalso; apply N; reflexivity|].
    destruct (str_eqb src tgt && negb changed) eqn:X; [intro N; exfalso; apply N; reflexivity|]. intros _. exists t, result, changed, name. split; [apply file_at_iff; assumption|].
    exists o', st'. split; [exact P|]. split; [exact R|]. split; [exact O|]. split; [|reflexivity]. intros ->. rewrite str_eqb_refl in X. destruct changed; [reflexivity|discriminate].
  - destruct (is_code d f); [|intro N; exfalso; apply N; reflexivity]. destruct (process_with h stack o d st $"." f) as ((o', st'), [((result, changed), [e|])|e|e]); intro N; exfalso; apply N; reflexivity.
Qed.


Lemma process_frame : forall h stack o d st s f src tgt s', instant s (d_events (process h stack o d st s f src tgt)) s' ->
  forall q, ~ same_place cwd q f -> ~ same_place cwd q (f ++ $".original") ->
  (forall name, d_result (process h stack o d st s f src tgt) = Ok name -> ~ same_place cwd q name) ->
  forall t, file_at cwd s' q t <-> file_at cwd s q t.
Proof.
  intros h stack o d st s f src tgt s' H q N1 N2 N3 t. rewrite !file_at_iff by exact cwd_abs. rewrite same_iff in N1, N2 by exact cwd_abs.
  assert (E : fget s' (resolve cwd q) = fget s (resolve cwd q)); [|rewrite E; reflexivity]. apply (instant_frame _ _ _ H). intro I.
  destruct (d_events (process h stack o d st s f src tgt)) as [|e es] eqn:D; [destruct I|]. assert (NE : d_events (process h stack o d st s f src tgt) <> []) by (rewrite D; discriminate).
  destruct (events_save _ _ _ _ _ _ _ _ _ NE) as (t0 & result & changed & name & _ & o' & st' & _ & RN & _ & _ & P). rewrite <- D in I. rewrite P in I. cbn [d_events] in I. rewrite P in N3. cbn [d_result] in N3.
  unfold save in I. rewrite !flat_map_app in I. apply in_app_or in I. destruct I as [I|I]; [|apply in_app_or in I; destruct I as [I|I]].
  - destruct (negb (str_eqb src tgt)); [destruct I|]. destruct (negb (is_template f) && negb (oget o' o_overwrite)); [|destruct I]. cbn [flat_map touches app In] in I. intuition congruence.
  - cbn [flat_map touches app] in I. destruct I as [I|[]]. apply (N3 name eq_refl). apply same_iff; [exact cwd_abs|]. symmetry. exact I.
  - destruct (is_template f && oget o' o_overwrite && str_eqb src tgt); [|destruct I]. cbn [flat_map touches app In] in I. intuition congruence.
Qed.
Lemma process_untouched : forall h stack o d st s f src t o' st' result, file_at cwd s f (Some t) ->
  process_with h stack o d st f (f_text t) = (o', st', Ok (result, false, None)) -> d_events (process h stack o d st s f src src) = [].
Proof.
  intros h stack o d st s f src t o' st' result F P. destruct (d_events (process h stack o d st s f src src)) as [|e es] eqn:D; [reflexivity|]. exfalso.
  assert (NE : d_events (process h stack o d st s f src src) <> []) by (rewrite D; discriminate).
  destruct (events_save _ _ _ _ _ _ _ _ _ NE) as (t0 & r0 & changed & name & F0 & o1 & st1 & P0 & _ & _ & C & _). apply file_at_iff in F, F0; try exact cwd_abs. assert (t0 = t) by congruence. subst t0. specialize (C eq_refl). congruence.
Qed.
Lemma process_error : forall h stack o d st s f src tgt e, d_result (process h stack o d st s f src tgt) = Err e -> d_events (process h stack o d st s f src tgt) = [].
Proof.
  intros h stack o d st s f src tgt e R. destruct (d_events (process h stack o d st s f src tgt)) as [|x es] eqn:D; [reflexivity|]. exfalso.
  assert (NE : d_events (process h stack o d st s f src tgt) <> []) by (rewrite D; discriminate).
  destruct (events_save _ _ _ _ _ _ _ _ _ NE) as (t0 & r0 & changed & name & F0 & o1 & st1 & P0 & _ & _ & C & P). rewrite P in R. discriminate R.
Qed.

(** ** Places of results *)
Lemma walk_down : forall f w, ~ In $".." (split $"/" f) -> walk w f = walk [] f ++ w.
Proof.
  intros f w. unfold walk. generalize (split $"/" f). intros l N.
  assert (K : forall l w v, ~ In $".." l -> fold_left step l (v ++ w) = fold_left step l v ++ w).
  { clear. induction l as [|e l IH]; intros w v N; [reflexivity|]. cbn [fold_left]. rewrite !step_eq.
    destruct (str_eqb e [] || str_eqb e $"."); [apply IH; intro I; apply N; right; exact I|].
    destruct (str_eqb e $"..") eqn:E; [apply str_eqb_eq in E; exfalso; apply N; left; exact E|]. exact (IH w (e :: v) (fun I => N (or_intror I))). }
  exact (K l w [] N).
Qed.
Lemma absolute_ne : forall p, absolute p -> p <> [].
Proof. intros p (r & ->). discriminate. Qed.
Lemma target_clean : forall f src tgt n, absolute tgt -> get_target_file f src tgt = Ok n -> absolute n /\ n = clean n.
Proof.
  intros f src tgt n A GT. rewrite get_target in GT by (apply absolute_ne; exact A). destruct (relative src f) as [x| |]; try discriminate GT. cbn [bind] in GT. assert (X : n = join2 tgt x) by congruence. subst n.
  rewrite join2_eq by (apply absolute_ne; exact A). assert (B : absolute (tgt ++ SLASH :: x)) by (apply absolute_app; [apply absolute_ne; exact A|exact A]).
  split; [apply clean_absolute; exact B|]. symmetry. apply clean_unique; [apply clean_absolute; exact B|exact B|]. apply walk_clean. reflexivity.
Qed.
Lemma clean_named : forall n e w, absolute n -> n = clean n -> walk [] n = e :: w -> exists a, n = a ++ $"/" ++ e /\ walk [] a = w.
Proof.
  intros n e w A C W. assert (NN := norm_names n A). rewrite abs_norm in W by exact A. assert (E : norm n = rev w ++ [e]) by (rewrite <- (rev_involutive (norm n)), W; reflexivity).
  rewrite clean_abs, E in C by exact A. rewrite E in NN. apply Forall_app in NN. destruct NN as (NW & NE). destruct (rev w) as [|x l] eqn:R.
  - exists []. split; [exact C|]. apply (f_equal (@rev str)) in R. rewrite rev_involutive in R. rewrite R. reflexivity.
  - exists (SLASH :: join [SLASH] (x :: l)). split.
    + rewrite C. rewrite TextProofs.join_snoc by discriminate. reflexivity.
    + rewrite walk_abs_cons, walk_join, names_walk, app_nil_r; [rewrite <- R; apply rev_involutive|exact NW|apply name_elem; exact NW|discriminate].
Qed.
Lemma target_inside : forall f src tgt, absolute src -> absolute tgt -> inside cwd src f ->
  exists n d, get_target_file f src tgt = Ok n /\ absolute n /\ n = clean n /\ d <> [] /\ rev (resolve cwd f) = d ++ walk [] src /\ rev (resolve cwd n) = d ++ walk [] tgt.
Proof.
  intros f src tgt A B I. rewrite resolve_rev by exact cwd_abs. destruct I as [(F & d & N & W)|(F & C & U & N)].
  - destruct (target_absolute src tgt f F A B) as (n & t & GT & An & _ & _ & D). exists n, d. destruct (target_clean _ _ _ _ B GT) as (_ & Cn). repeat split; auto.
    + apply abs_iff in F. rewrite F. exact W.
    + rewrite resolve_rev by exact cwd_abs. apply abs_iff in An. rewrite An. apply D. exact W.
  - destruct (target_relative [] src tgt f (walk [] tgt) F (absolute_ne _ B) (or_introl (conj B eq_refl))) as (n & GT & L). destruct (target_clean _ _ _ _ B GT) as (An & Cn).
    exists n, (walk [] f). repeat split; auto.
    + destruct (is_abs f) eqn:X; [apply abs_iff in X; contradiction|]. rewrite C. apply walk_down. exact U.
    + rewrite resolve_rev by exact cwd_abs. rewrite (proj2 (abs_iff n) An). destruct L as [(_ & <-)|(X & _)]; [|contradiction]. apply walk_down. exact U.
Qed.

Lemma strip_suffix : forall f, if is_template f then exists x, f = strip_ext f ++ x /\ In x [$".gt"; $".template"; $".template.gt"] else strip_ext f = f.
Proof.
  intro f. destruct (is_template f) eqn:T.
  - apply is_template_iff in T. destruct T as [(a & ->)|(a & ->)].
    + destruct (has_suffix $".template" a) eqn:T.
      * apply ends_iff in T. destruct T as (b & ->). rewrite <- app_assoc. change ($".template" ++ $".gt") with $".template.gt". rewrite (proj1 (strip_cases b)). exists $".template.gt". split; [reflexivity|right; right; left; reflexivity].
      * apply ends_not in T. rewrite (proj1 (proj2 (strip_cases a)) T). exists $".gt". split; [reflexivity|left; reflexivity].
    + rewrite (proj1 (proj2 (proj2 (strip_cases a)))). exists $".template". split; [reflexivity|right; left; reflexivity].
  - apply (proj2 (proj2 (proj2 (strip_cases f)))); intro E; apply not_true_iff_false in T; apply T, is_template_iff; [left|right]; exact E.
Qed.
Definition plain (e : str) : Prop := ~ In SLASH e /\ e <> [] /\ e <> $"." /\ e <> $"..".
Lemma plain_app : forall e x, plain e -> ~ In SLASH x -> List.length x >= 2 -> plain (e ++ x).
Proof.
  intros e x (A & B & _ & _) N L. split; [intro I; apply in_app_or in I; destruct I; contradiction|]. destruct e as [|c e]; [contradiction|].
  assert (K : List.length ((c :: e) ++ x) >= 3) by (rewrite app_length; cbn [List.length]; lia). repeat split; intro E; rewrite E in K; cbn in K; lia.
Qed.
Lemma head_plain : forall p e w, absolute p -> walk [] p = e :: w -> plain e.
Proof.
  intros p e w A W. assert (N := norm_names p A). rewrite abs_norm in W by exact A. assert (E : norm p = rev w ++ [e]) by (rewrite <- (rev_involutive (norm p)), W; reflexivity). rewrite E in N. apply Forall_app in N. destruct N as (_ & N). apply Forall_inv in N. destruct N as ((N1 & N2 & N3) & N4). repeat split; assumption.
Qed.
(** The generated name is longer by ten letters, in the same folder. *)
Lemma generated_place : forall a e, plain e -> exists e', generated (a ++ $"/" ++ e) = a ++ $"/" ++ e' /\ plain e' /\ List.length e' = List.length e + 10.
Proof.
  intros a e Pe. pose proof (ext_exists (a ++ $"/" ++ e)) as X. set (p := a ++ $"/" ++ e) in *. destruct X as [(b & x & E & X & N1 & N2)|(b & x & E & X & N1 & N2 & B)].
  - assert (S : exists u, e = u ++ path_ext p).
    { rewrite X. assert (EA : b ++ ($"." ++ x) = (a ++ $"/") ++ e) by (rewrite <- app_assoc, <- E; reflexivity). destruct (app_eq_app _ _ _ _ EA) as (z & [(E1 & E2)|(E1 & E2)]).
      - exists z. exact E2.
      - destruct z as [|c z].
        + exists []. rewrite app_nil_r in E1. cbn [app] in E2 |- *. symmetry. exact E2.
        + exfalso. assert (I : In SLASH ($"." ++ x)). { rewrite E2. assert (LE : exists z', c :: z = z' ++ [SLASH]).
          { destruct (exists_last (l := c :: z) ltac:(discriminate)) as (z' & y & Z). exists z'. rewrite Z in E1 |- *. rewrite app_assoc in E1. change $"/" with [SLASH] in E1. apply app_inj_tail in E1. destruct E1 as (_ & <-). reflexivity. }
          destruct LE as (z' & ->). apply in_or_app. left. apply in_or_app. right. left. reflexivity. }
          destruct I as [I|I]; [discriminate I|contradiction]. }
    destruct S as (u & S). exists (u ++ $".generated" ++ path_ext p). assert (XF := ext_form p). split.
    + pose proof (ext_exists p) as XX. assert (EP : p = (a ++ $"/" ++ u) ++ path_ext p) by (unfold p at 1; rewrite S at 1; rewrite <- !app_assoc; reflexivity). rewrite EP at 1. rewrite generated_eq; [rewrite <- !app_assoc; reflexivity|]. rewrite <- EP. exact XX.
    + split; [|assert (SL := f_equal (@List.length ascii) S); rewrite SL; rewrite !app_length; change (List.length $".generated") with 10; lia]. assert (NU : ~ In SLASH u) by (intro I; apply (proj1 Pe); rewrite S; apply in_or_app; left; exact I).
      assert (NX : ~ In SLASH (path_ext p)) by (intro I; apply (proj1 Pe); rewrite S; apply in_or_app; right; exact I).
      split; [intro I; apply in_app_or in I; destruct I as [I|I]; [contradiction|]; apply in_app_or in I; destruct I as [I|I]; [cbn in I; intuition discriminate|contradiction]|].
      assert (K : List.length (u ++ $".generated" ++ path_ext p) >= 10) by (rewrite !app_length; change (List.length $".generated") with 10; lia).
      repeat split; intro Y; rewrite Y in K; cbn in K; lia.
  - exists (e ++ $".generated"). split; [|split].
    + assert (EP : p = p ++ path_ext p) by (rewrite X, app_nil_r; reflexivity). pose proof (ext_exists p) as XX. rewrite EP at 1. rewrite generated_eq by (rewrite <- EP; exact XX). rewrite X, app_nil_r. unfold p. rewrite <- !app_assoc. reflexivity.
    + apply plain_app; [exact Pe|cbn; intuition discriminate|cbn; lia].
    + rewrite app_length. reflexivity.
Qed.

Lemma named_form : forall p, named p -> exists a e, p = a ++ e /\ (a = [] \/ exists a', a = a' ++ $"/") /\ plain e.
Proof. intros p (a & e & E & A & N1 & N2 & N3 & N4). exists a, e. repeat split; assumption. Qed.
Lemma place_named : forall a e, (a = [] \/ exists a', a = a' ++ $"/") -> plain e -> exists w, forall e', plain e' -> resolve cwd (a ++ e') = w ++ [e'].
Proof. intros a e A (N1 & N2 & N3 & N4). destruct (resolve_named cwd a e cwd_abs A N1 N2 N3 N4) as (w & W). exists w. intros e' (M1 & M2 & M3 & M4). apply W; assumption. Qed.
Lemma original_apart : forall f, named f -> resolve cwd (f ++ $".original") <> resolve cwd f.
Proof.
  intros f N. destruct (named_form f N) as (a & e & -> & A & Pe). destruct (place_named a e A Pe) as (w & W). rewrite <- app_assoc. rewrite (W e Pe), (W (e ++ $".original")).
  - intro E. apply app_inv_head in E. inversion E as [[X]]. apply (f_equal (@List.length ascii)) in X. rewrite app_length in X. cbn in X. lia.
  - apply plain_app; [exact Pe|cbn; intuition discriminate|cbn; lia].
Qed.
Lemma in_split_last : forall a e, (a = [] \/ exists a', a = a' ++ $"/") -> ~ In SLASH e -> exists l, forall e', ~ In SLASH e' -> split $"/" (a ++ e') = l ++ [e'].
Proof.
  intros a e [->|(a' & ->)] N.
  - exists []. intros e' N'. change $"/" with [SLASH]. apply split1_notIn. exact N'.
  - exists (split [SLASH] a'). intros e' N'. change ((a' ++ $"/") ++ e') with ((a' ++ [SLASH]) ++ e'). rewrite <- app_assoc. cbn [app]. change $"/" with [SLASH]. rewrite split_slash. f_equal. apply split1_notIn. exact N'.
Qed.
Lemma inside_strip : forall src f, named f -> named (strip_ext f) -> inside cwd src f -> inside cwd src (strip_ext f).
Proof.
  intros src f Nf N I. assert (T := strip_suffix f). destruct (is_template f); [|rewrite T; exact I]. destruct T as (x & E & X). set (g := strip_ext f) in *. clearbody g. destruct (named_form g N) as (a & e & -> & A & Pe). rewrite <- app_assoc in E. subst f.
  assert (NX : ~ In SLASH x /\ List.length x >= 2) by (destruct X as [<-|[<-|[<-|[]]]]; (split; [cbn; intuition discriminate|cbn; lia])). destruct NX as (NX & LX).
  assert (Px := plain_app e x Pe NX LX). assert (W : forall w e', plain e' -> walk w (a ++ e') = e' :: walk w a) by (intros w e' (M1 & M2 & M3 & M4); apply walk_named; assumption).
  assert (AB : absolute (a ++ e ++ x) <-> absolute (a ++ e)).
  { destruct A as [->|(a' & ->)].
    - cbn [app]. destruct e as [|c e]; [destruct Pe as (_ & P & _); contradiction|]. split; intros (r & R); cbn in R; inversion R; eexists; cbn; reflexivity.
    - rewrite <- !app_assoc. destruct a' as [|c a']; split; intros (r & R); cbn in R; inversion R; eexists; cbn; reflexivity. }
  destruct I as [(Ab & d & D & I)|(Ab & C & U & I)].
  - left. split; [apply AB; exact Ab|]. rewrite (W [] _ Px) in I. destruct d as [|y d]; [contradiction|]. exists (e :: d). split; [discriminate|]. rewrite (W [] _ Pe). inversion I as [[I1 I2]]. rewrite I2. reflexivity.
  - right. split; [rewrite <- AB; exact Ab|]. split; [exact C|]. split; [|rewrite (W [] _ Pe); discriminate].
    destruct (in_split_last a e A (proj1 Pe)) as (l & L). rewrite (L _ (proj1 Px)) in U. rewrite (L _ (proj1 Pe)). intro J. apply U. apply in_app_or in J. apply in_or_app. destruct J as [J|[J|[]]]; [left; exact J|]. destruct Pe as (_ & _ & _ & Pe). contradiction.
Qed.
(** Where the result goes. *)
Lemma result_places : forall ov src tgt f result name, absolute src -> absolute tgt -> inside cwd src f -> named f -> named (strip_ext f) ->
  result_name ov src tgt f result = Ok (Some name) ->
  (is_template f = true -> resolve cwd name <> resolve cwd f) /\
  (is_template f = false -> src = tgt -> resolve cwd name = resolve cwd f) /\
  (is_template f = false -> walk [] src <> walk [] tgt -> resolve cwd name <> resolve cwd f).
Proof.
  intros ov src tgt f result name A B I Nf Ng R. assert (Ig := inside_strip _ _ Nf Ng I). destruct (target_inside (strip_ext f) src tgt A B Ig) as (n & d & GT & An & Cn & D & Pf & Pn).
  unfold result_name in R. rewrite GT in R. cbn [bind] in R. assert (T := strip_suffix f). destruct (is_template f) eqn:IT.
  - split; [|split; intro X; discriminate X]. intros _. destruct (str_eqb (_ ++ path_ext n) []); [discriminate|]. assert (name = if ov then n else generated n) by congruence. subst name.
    destruct T as (x & E & X). destruct (named_form _ Ng) as (a & e & Eg & Aa & Pe). destruct (place_named a e Aa Pe) as (w & W). rewrite Eg in Pf. rewrite (W e Pe), rev_app_distr in Pf. cbn [rev app] in Pf. destruct d as [|y d]; [contradiction|]. inversion Pf as [[Y Z]]. subst y.
    assert (NX : ~ In SLASH x /\ List.length x >= 2 /\ List.length x <> 10) by (destruct X as [<-|[<-|[<-|[]]]]; (split; [cbn; intuition discriminate|cbn; lia])). destruct NX as (NX & LX & LN).
    assert (Px := plain_app e x Pe NX LX). rewrite E, Eg, <- app_assoc. rewrite (W _ Px). intro Q. apply (f_equal (@rev str)) in Q. rewrite rev_app_distr in Q. cbn [rev app] in Q.
    destruct ov.
    + rewrite Pn in Q. cbn [app] in Q. inversion Q as [[Q1 Q2]]. apply (f_equal (@List.length ascii)) in Q1. rewrite app_length in Q1. lia.
    + rewrite resolve_rev in Pn by exact cwd_abs. rewrite (proj2 (abs_iff n) An) in Pn. cbn [app] in Pn. destruct (clean_named n e _ An Cn Pn) as (b & Eb & Wb). assert (Pe' := head_plain _ _ _ An Pn). destruct (generated_place b e Pe') as (e' & GE & Pe2 & LE). rewrite Eb, GE in Q. rewrite app_assoc in Q.
      destruct (place_named (b ++ $"/") e' (or_intror (ex_intro _ b eq_refl)) Pe2) as (w' & W'). rewrite (W' e' Pe2), rev_app_distr in Q. cbn [rev app] in Q. inversion Q as [[Q1 Q2]]. apply (f_equal (@List.length ascii)) in Q1. rewrite app_length in Q1. lia.
  - assert (name = n) by congruence. subst n. rewrite T in *. split; [intro X; discriminate X|]. split.
    + intros _ ->. apply rev_inj. rewrite Pn. symmetry. exact Pf.
    + intros _ N Q. rewrite Q in Pn. rewrite Pf in Pn. apply app_inv_head in Pn. contradiction.
Qed.
Lemma with_options : forall h stack o d st file source o' st' r k, process_with h stack o d st file source = (o', st', r) -> k <> o_output_stdout -> oget o' k = oget o k.
Proof.
  intros h stack o d st file source o' st' r k H N. unfold process_with in H. destruct (process_content stack o d st file source) as ((o1, st1), r1) eqn:P. assert (o' = o1).
  { destruct h as [h|]; [|congruence]. destruct r1 as [((a, b), c)| |]; try congruence. destruct (h st1 file source (a, b, c)) as (st2, ((x, y), z)). congruence. }
  subst o1. destruct (ProcessProofs.process_options _ _ _ _ _ _ _ _ _ k P) as [E|(E & _)]; [exact E|contradiction].
Qed.

(** ** The content of the template at every instant *)
Lemma instant_cons : forall s e es s', instant s (e :: es) s' -> s' = s \/ instant (effect s e) es s' \/ (exists p t u m, e = Write p (t ++ u) m /\ s' = write s p t m).
Proof. intros s e es s' H. inversion H; subst; [left; reflexivity|right; left; assumption|right; right; do 4 eexists; split; reflexivity]. Qed.
Lemma instant_one : forall s p t m s', instant s [Write p t m] s' -> forall q, q <> p -> fget s' q = fget s q.
Proof. intros s p t m s' H q N. apply (instant_frame _ _ _ H). cbn [flat_map touches app]. intros [E|[]]. congruence. Qed.

Lemma readable : forall h stack o d st s f src tgt t s',
  absolute src -> absolute tgt -> inside cwd src f -> named f -> named (strip_ext f) -> src = tgt \/ walk [] src <> walk [] tgt ->
  file_at cwd s f (Some t) -> instant s (d_events (process h stack o d st s f src tgt)) s' ->
  (oget o o_overwrite = false \/ src <> tgt -> (src <> tgt \/ is_template f = true -> file_at cwd s' f (Some t)) /\ (file_at cwd s' f (Some t) \/ file_at cwd s' (f ++ $".original") (Some t))) /\
  (is_template f = true -> src = tgt -> file_at cwd s' f (Some t) \/
     exists name, d_result (process h stack o d st s f src tgt) = Ok name /\ exists g, file_at cwd s' name (Some g) /\ exists o' st' changed, process_with h stack o d st f (f_text t) = (o', st', Ok (f_text g, changed, None))).
Proof.
  intros h stack o d st s f src tgt t s' A B I Nf Ng ST F H. rewrite !file_at_iff in * by exact cwd_abs.
  destruct (d_events (process h stack o d st s f src tgt)) as [|e es] eqn:DE. { apply instant_nil in H. subst s'. split; [intros _; split; [intros _; exact F|left; exact F]|intros _ _; left; exact F]. }
  assert (NE : d_events (process h stack o d st s f src tgt) <> []) by (rewrite DE; discriminate). rewrite <- DE in H. clear e es DE.
  destruct (events_save _ _ _ _ _ _ _ _ _ NE) as (t0 & result & changed & name & F0 & o' & st' & PW & RN & _ & _ & P). apply file_at_iff in F0; [|exact cwd_abs]. assert (t0 = t) by congruence. subst t0.
  rewrite P in *. cbn [d_events d_result] in *. clear P NE. assert (OV := with_options _ _ _ _ _ _ _ _ _ _ o_overwrite PW ltac:(discriminate)).
  destruct (result_places _ _ _ _ _ _ A B I Nf Ng RN) as (R1 & R2 & R3). assert (OA := original_apart f Nf). unfold save in H. rewrite OV in *. clear OV RN.
  destruct (str_eqb_spec src tgt) as [E|E]; cbn [negb app] in H.
  - subst tgt. rewrite andb_true_r in H. destruct (is_template f) eqn:IT; cbn [negb andb] in H.
    + specialize (R1 eq_refl). cbn [app] in H. apply instant_cons in H. destruct H as [->|[H|(p & u & v & m & E & ->)]].
      * split; [intros _; split; [intros _; exact F|left; exact F]|intros _ _; left; exact F].
      * assert (FW : fget (effect s (Write (resolve cwd name) result (if is_script result then 493%N else f_mode t))) (resolve cwd f) = Some t) by (cbn [effect]; rewrite fget_write, (proj2 (place_eqb_ne _ _)); [exact F|congruence]).
        assert (NW : exists g, fget (effect s (Write (resolve cwd name) result (if is_script result then 493%N else f_mode t))) (resolve cwd name) = Some g /\ f_text g = result) by (cbn [effect]; rewrite fget_write, place_eqb_refl; eexists; split; reflexivity).
        destruct NW as (g & NW & NG). split.
        -- intros [OV|E]; [|contradiction]. rewrite OV in H. apply instant_nil in H. subst s'. split; [intros _; exact FW|left; exact FW].
        -- intros _ _. right. exists name. split; [reflexivity|]. exists g. rewrite file_at_iff by exact cwd_abs. split; [|exists o', st', changed; rewrite NG; exact PW].
           rewrite (instant_frame _ _ _ H); [exact NW|]. destruct (oget o o_overwrite); cbn [flat_map touches app In]; intuition congruence.
      * assert (K : fget (write s p u m) (resolve cwd f) = Some t) by (inversion E; rewrite fget_write, (proj2 (place_eqb_ne _ _)); [exact F|congruence]). split; [intros _; split; [intros _; exact K|left; exact K]|intros _ _; left; exact K].
    + split; [|intro X; discriminate X]. specialize (R2 eq_refl eq_refl). intros [OV|X]; [|contradiction]. rewrite OV in H. cbn [negb app] in H. split; [intros [X|X]; [contradiction|discriminate X]|].
      apply instant_cons in H. destruct H as [->|[H|(p & u & v & m & E & _)]]; [left; exact F| |discriminate E]. right. rewrite (instant_one _ _ _ _ _ H) by congruence. cbn [effect]. rewrite F, fget_fset, place_eqb_refl. reflexivity.
  - destruct ST as [X|ST]; [contradiction|]. rewrite !andb_false_r in H. cbn [app] in H. split; [|intros _ X; contradiction]. intros _. assert (RF : resolve cwd name <> resolve cwd f) by (destruct (is_template f); auto).
    assert (K : fget s' (resolve cwd f) = Some t); [|split; [intros _; exact K|left; exact K]]. apply instant_cons in H. destruct H as [->|[H|(p & u & v & m & X & _)]]; [exact F| |discriminate X]. rewrite (instant_one _ _ _ _ _ H) by congruence. exact F.
Qed.
(** All done. *)
Lemma finished : forall h stack o d st s f src tgt, absolute src -> absolute tgt -> inside cwd src f -> named f -> named (strip_ext f) -> src = tgt \/ walk [] src <> walk [] tgt ->
  d_events (process h stack o d st s f src tgt) <> [] ->
  let s' := effects s (d_events (process h stack o d st s f src tgt)) in
  exists t result changed name o' st' mode, file_at cwd s f (Some t) /\ process_with h stack o d st f (f_text t) = (o', st', Ok (result, changed, None)) /\
    d_result (process h stack o d st s f src tgt) = Ok name /\ file_at cwd s' name (Some {| f_text := result; f_mode := mode |}) /\
    (file_at cwd s name None \/ (src = tgt /\ is_template f = false /\ oget o o_overwrite = false) -> mode = if is_script result then 493%N else f_mode t) /\
    (src = tgt -> if is_template f then if oget o o_overwrite then file_at cwd s' f None else file_at cwd s' f (Some t)
                  else same_place cwd name f /\ if oget o o_overwrite then True else file_at cwd s' (f ++ $".original") (Some t)) /\
    (src <> tgt -> file_at cwd s' f (Some t)).
Proof.
  intros h stack o d st s f src tgt A B I Nf Ng ST NE s'.
  destruct (events_save _ _ _ _ _ _ _ _ _ NE) as (t & result & changed & name & F & o' & st' & PW & RN & _ & _ & P). subst s'. rewrite P. cbn [d_events d_result]. clear P NE. assert (OV := with_options _ _ _ _ _ _ _ _ _ _ o_overwrite PW ltac:(discriminate)).
  destruct (result_places _ _ _ _ _ _ A B I Nf Ng RN) as (R1 & R2 & R3). assert (OA := original_apart f Nf). unfold save. rewrite OV in *. clear OV RN. assert (F' := F). rewrite file_at_iff in F' by exact cwd_abs.
  set (m := if is_script result then 493%N else f_mode t).
  exists t, result, changed, name, o', st', (match fget (if str_eqb src tgt && negb (is_template f) && negb (oget o o_overwrite) then fdel s (resolve cwd f) else s) (resolve cwd name) with Some g => f_mode g | None => m end).
  split; [exact F|]. split; [exact PW|]. split; [reflexivity|].
  destruct (str_eqb_spec src tgt) as [E|E]; cbn [negb app andb].
  - subst tgt. rewrite andb_true_r. destruct (is_template f) eqn:IT; cbn [negb andb app].
    + specialize (R1 eq_refl). destruct (oget o o_overwrite); cbn [effects fold_left effect app].
      * rewrite ?file_at_iff, ?same_iff by exact cwd_abs. rewrite !fget_fdel, !fget_write, !place_eqb_refl, (proj2 (place_eqb_ne (resolve cwd name) (resolve cwd f))) by congruence. repeat split; auto; [|contradiction]. intros [->|(_ & X & _)]; [reflexivity|discriminate X].
      * rewrite ?file_at_iff, ?same_iff by exact cwd_abs. rewrite !fget_write, !place_eqb_refl, (proj2 (place_eqb_ne (resolve cwd f) (resolve cwd name))) by congruence. repeat split; auto. intros [->|(_ & X & _)]; [reflexivity|discriminate X].
    + specialize (R2 eq_refl eq_refl). destruct (oget o o_overwrite); cbn [effects fold_left effect app negb].
      * rewrite ?file_at_iff, ?same_iff by exact cwd_abs. rewrite !R2, !fget_write, !place_eqb_refl, F'. repeat split; auto; try contradiction. intros [X|(_ & _ & X)]; discriminate X.
      * rewrite ?file_at_iff, ?same_iff by exact cwd_abs. rewrite !R2, F'. rewrite !fget_write, !place_eqb_refl, !fget_fset, place_eqb_refl, !fget_fdel, place_eqb_refl, (proj2 (place_eqb_ne _ _) OA), (proj2 (place_eqb_ne (resolve cwd f) (resolve cwd (f ++ $".original")))) by congruence. repeat split; auto. intro X; contradiction.
  - destruct ST as [X|ST]; [contradiction|]. rewrite !andb_false_r. cbn [effects fold_left effect app]. assert (RF : resolve cwd name <> resolve cwd f) by (destruct (is_template f); auto).
    destruct (is_template f), (oget o o_overwrite); rewrite ?file_at_iff, ?same_iff by exact cwd_abs; rewrite !fget_write, !place_eqb_refl, (proj2 (place_eqb_ne (resolve cwd f) (resolve cwd name))) by congruence; (repeat split; auto; try contradiction); (intros [->|(X & _)]; [reflexivity|contradiction]).
Qed.

(** ** Two runs *)
Lemma two_runs : forall h stack o d st h2 stack2 o2 d2 st2 s f src t, absolute src -> inside cwd src f -> named f -> named (strip_ext f) -> is_template f = false ->
  oget o o_overwrite = false -> oget o2 o_overwrite = false -> file_at cwd s f (Some t) ->
  let r1 := process h stack o d st s f src src in let s1 := effects s (d_events r1) in
  let r2 := process h2 stack2 o2 d2 st2 s1 f src src in let s2 := effects s1 (d_events r2) in
  d_events r1 <> [] -> d_events r2 <> [] ->
  exists t1 t2, (exists o' st' c, process_with h stack o d st f (f_text t) = (o', st', Ok (f_text t1, c, None))) /\
    (exists o' st' c, process_with h2 stack2 o2 d2 st2 f (f_text t1) = (o', st', Ok (f_text t2, c, None))) /\
    file_at cwd s2 f (Some t2) /\ file_at cwd s2 (f ++ $".original") (Some t1) /\
    forall q x, ~ same_place cwd q f -> ~ same_place cwd q (f ++ $".original") -> file_at cwd s2 q x <-> file_at cwd s q x.
Proof.
  intros h stack o d st h2 stack2 o2 d2 st2 s f src t A I Nf Ng IT O1 O2 F r1 s1 r2 s2 E1 E2.
  destruct (finished h stack o d st s f src src A A I Nf Ng (or_introl eq_refl) E1) as (t0 & res1 & c1 & n1 & o1' & st1' & m1 & F1 & P1 & D1 & W1 & _ & B1 & _).
  assert (t0 = t) by (rewrite !file_at_iff in * by exact cwd_abs; congruence). subst t0. fold r1 in D1, W1, B1. fold s1 in W1, B1. specialize (B1 eq_refl). rewrite IT, O1 in B1. destruct B1 as (S1 & B1).
  destruct (finished h2 stack2 o2 d2 st2 s1 f src src A A I Nf Ng (or_introl eq_refl) E2) as (t1 & res2 & c2 & n2 & o2' & st2' & m2 & F2 & P2 & D2 & W2 & _ & B2 & _).
  fold r2 in D2, W2, B2. fold s2 in W2, B2. specialize (B2 eq_refl). rewrite IT, O2 in B2. destruct B2 as (S2 & B2).
  assert (T1 : t1 = {| f_text := res1; f_mode := m1 |}) by (rewrite !file_at_iff in * by exact cwd_abs; apply same_iff in S1; [|exact cwd_abs]; rewrite S1 in W1; congruence). subst t1.
  exists {| f_text := res1; f_mode := m1 |}, {| f_text := res2; f_mode := m2 |}. split; [exists o1', st1', c1; exact P1|]. split; [exists o2', st2', c2; exact P2|].
  split; [rewrite !file_at_iff in * by exact cwd_abs; apply same_iff in S2; [|exact cwd_abs]; rewrite S2 in W2; exact W2|]. split; [exact B2|].
  intros q x Q1 Q2. assert (SN : forall n, same_place cwd n f -> ~ same_place cwd q n) by (intros n X Y; apply Q1; rewrite same_iff in * by exact cwd_abs; congruence).
  transitivity (file_at cwd s1 q x).
  - apply (process_frame h2 stack2 o2 d2 st2 s1 f src src s2 (instant_effects _ _) q Q1 Q2). intros n N. apply SN. fold r2 in N. congruence.
  - apply (process_frame h stack o d st s f src src s1 (instant_effects _ _) q Q1 Q2). intros n N. apply SN. fold r1 in N. congruence.
Qed.

(** ** Batches *)
Lemma effects_app : forall a b s, effects s (a ++ b) = effects (effects s a) b.
Proof. intros. unfold effects. apply fold_left_app. Qed.
Lemma process_all_chain : forall h stack print d src tgt l b, b_panic b = None -> let b' := process_all cwd is_script h stack print d src tgt l b in
  exists rs, chain cwd is_script h stack print d src tgt (b_options b) (b_state b) (b_fs b) l rs /\
    b_files b' = b_files b ++ files_of rs /\ b_errors b' = b_errors b ++ errors_of rs /\ b_printed b' = b_printed b ++ flat_map d_printed rs /\
    b_fs b' = effects (b_fs b) (flat_map d_events rs) /\ (b_panic b' = None <-> List.length rs = List.length l /\ forall r m, In r rs -> d_result r <> Panic m).
Proof.
  intros h stack print d src tgt l. induction l as [|f l IH]; intros b N b'.
  - exists []. cbn in b'. subst b'. rewrite !app_nil_r. repeat split; try constructor; auto.
  - cbn [process_all] in b'. set (o := oset (b_options b) o_output_stdout print) in *. set (r := process h stack o d (b_state b) (b_fs b) f src tgt) in *.
    assert (OG : forall k, oget o k = if Nat.eqb k o_output_stdout then print else oget (b_options b) k) by (intro k; apply oget_oset).
    destruct (d_result r) as [n|e|m] eqn:R.
    + match goal with b' := process_all _ _ _ _ _ _ _ _ _ ?x |- _ => destruct (IH x eq_refl) as (rs & C & F & E & P & S & X) end. fold b' in F, E, P, S, X. cbn [b_options b_state b_fs b_files b_errors b_printed] in *.
      exists (r :: rs). split; [eapply chain_next; [exact OG|reflexivity|fold r; rewrite R; discriminate|fold r; exact C]|]. cbn [files_of errors_of flat_map]. rewrite R. fold (files_of rs) (errors_of rs). rewrite F, E, P, S, effects_app, <- !app_assoc.
      repeat split; try (destruct n; reflexivity).
      * apply X in H. destruct H as (H1 & _). cbn [List.length]; rewrite H1; reflexivity.
      * apply X in H. destruct H as (_ & H2). intros r0 m [<-|I]; [rewrite R; discriminate|apply H2; exact I].
      * intros (H1 & H2). apply X. split; [cbn [List.length] in H1; lia|]. intros r0 m I. apply H2. right. exact I.
    + match goal with b' := process_all _ _ _ _ _ _ _ _ _ ?x |- _ => destruct (IH x eq_refl) as (rs & C & F & E & P & S & X) end. fold b' in F, E, P, S, X. cbn [b_options b_state b_fs b_files b_errors b_printed] in *.
      exists (r :: rs). split; [eapply chain_next; [exact OG|reflexivity|fold r; rewrite R; discriminate|fold r; exact C]|]. cbn [files_of errors_of flat_map]. rewrite R. fold (files_of rs) (errors_of rs). rewrite F, E, P, S, effects_app, <- !app_assoc.
      repeat split; try reflexivity.
      * apply X in H. destruct H as (H1 & _). cbn [List.length]; rewrite H1; reflexivity.
      * apply X in H. destruct H as (_ & H2). intros r0 m [<-|I]; [rewrite R; discriminate|apply H2; exact I].
      * intros (H1 & H2). apply X. split; [cbn [List.length] in H1; lia|]. intros r0 m I. apply H2. right. exact I.
    + exists [r]. subst b'. cbn [b_files b_errors b_printed b_fs b_panic]. split; [eapply chain_panic; [exact OG|reflexivity|exact R]|]. cbn [files_of errors_of flat_map]. rewrite R, !app_nil_r. repeat split; try discriminate.
      intros (_ & H). exfalso. exact (H r m (or_introl eq_refl) R).
Qed.
Lemma process_templates_chain : forall h stack o d st s folder src tgt l, src <> [] -> tgt <> [] -> let b := process_templates cwd is_script h stack o d st s folder src tgt l in
  exists rs, chain cwd is_script h stack (oget o o_output_stdout) d src tgt o st s l rs /\
    b_files b = files_of rs /\ b_errors b = errors_of rs /\ b_printed b = flat_map d_printed rs /\
    b_fs b = effects s (flat_map d_events rs) /\ (b_panic b = None <-> List.length rs = List.length l /\ forall r m, In r rs -> d_result r <> Panic m).
Proof.
  intros h stack o d st s folder src tgt l A B b. unfold process_templates in b. destruct src as [|c src]; [contradiction|]. destruct tgt as [|e tgt]; [contradiction|].
  match goal with b := process_all _ _ _ _ _ _ _ _ _ ?x |- _ => exact (process_all_chain h stack (oget o o_output_stdout) d (c :: src) (e :: tgt) l x eq_refl) end.
Qed.

(** ** Standard output *)
Lemma printed : forall h stack o d st s f src tgt t o' st' result changed name, file_at cwd s f (Some t) ->
  process_with h stack o d st f (f_text t) = (o', st', Ok (result, changed, None)) -> result_name (oget o o_overwrite) src tgt f result = Ok (Some name) -> oget o' o_output_stdout = true ->
  let r := process h stack o d st s f src tgt in d_events r = [] /\
  if existsb (fun e => has_suffix e name) [$".tf"; $".tf.json"; $".tfvars"] then (exists m, d_result r = Panic m) /\ d_printed r = [] else d_result r = Ok [] /\ d_printed r = [result].
Proof.
  intros h stack o d st s f src tgt t o' st' result changed name F P R O r. rewrite file_at_iff in F by exact cwd_abs. assert (OV := with_options _ _ _ _ _ _ _ _ _ _ o_overwrite P ltac:(discriminate)).
  subst r. unfold process_template. rewrite F, P, OV, R, O. unfold print_result. change (is_terraform name) with (existsb (fun e => has_suffix e name) [$".tf"; $".tf.json"; $".tfvars"]).
  destruct (existsb _ _); cbn [d_events d_result d_printed]; repeat split; try reflexivity. eexists; reflexivity.
Qed.
End WithEngine.

(** ** Statements with the vocabulary *)
Lemma bare_strip : forall f, bare f (strip_ext f).
Proof.
  intro f. assert (T := strip_suffix f). destruct (is_template f) eqn:IT.
  - apply is_template_iff in IT. unfold bare. destruct IT as [(a & ->)|(a & ->)].
    + destruct (has_suffix $".template" a) eqn:TS.
      * apply ends_iff in TS. destruct TS as (b & ->). rewrite <- app_assoc. change ($".template" ++ $".gt") with $".template.gt". rewrite (proj1 (strip_cases b)). left. reflexivity.
      * apply ends_not in TS. rewrite (proj1 (proj2 (strip_cases a)) TS). right. left. split; [reflexivity|exact TS].
    + rewrite (proj1 (proj2 (proj2 (strip_cases a)))). right. right. left. reflexivity.
  - right. right. right. split; [symmetry; exact T|]. split; intro E; apply not_true_iff_false in IT; apply IT, is_template_iff; [left|right]; exact E.
Qed.
Lemma not_template f : is_template f = false <-> ~ template_name f.
Proof. unfold template_name. rewrite <- is_template_iff. destruct (is_template f); split; intro; congruence || (exfalso; auto). Qed.
Section Statements.
Context {G : Engine}.
Variables (cwd : str) (is_script : str -> bool).
Notation process := (process_template cwd is_script).
Lemma files_readable : forall h stack o d st s f src tgt t s', usual cwd src tgt f -> file_at cwd s f (Some t) ->
  instant s (d_events (process h stack o d st s f src tgt)) s' -> oget o o_overwrite = false ->
  file_at cwd s' f (Some t) \/ (~ template_name f /\ src = tgt /\ file_at cwd s' (f ++ $".original") (Some t)).
Proof.
  intros h stack o d st s f src tgt t s' (C & A & B & I & Nf & Ng & ST) F H O. destruct (readable cwd is_script C h stack o d st s f src tgt t s' A B I Nf (Ng _ (bare_strip f)) ST F H) as (R & _).
  destruct (R (or_introl O)) as (R1 & R2). destruct (is_template f) eqn:IT; [left; apply R1; right; reflexivity|]. apply not_template in IT. destruct (str_eqb_spec src tgt) as [E|E]; [|left; apply R1; left; exact E].
  destruct R2 as [R2|R2]; [left; exact R2|right; repeat split; assumption].
Qed.
Lemma files_elsewhere : forall h stack o d st s f src tgt t s', usual cwd src tgt f -> file_at cwd s f (Some t) -> src <> tgt ->
  instant s (d_events (process h stack o d st s f src tgt)) s' -> file_at cwd s' f (Some t).
Proof.
  intros h stack o d st s f src tgt t s' (C & A & B & I & Nf & Ng & ST) F N H. destruct (readable cwd is_script C h stack o d st s f src tgt t s' A B I Nf (Ng _ (bare_strip f)) ST F H) as (R & _).
  apply (R (or_intror N)). left. exact N.
Qed.
Lemma files_template : forall h stack o d st s f src t s', usual cwd src src f -> file_at cwd s f (Some t) -> template_name f ->
  instant s (d_events (process h stack o d st s f src src)) s' -> file_at cwd s' f (Some t) \/
     exists name g o' st' changed, d_result (process h stack o d st s f src src) = Ok name /\ file_at cwd s' name (Some g) /\ process_with h stack o d st f (f_text t) = (o', st', Ok (f_text g, changed, None)).
Proof.
  intros h stack o d st s f src t s' (C & A & B & I & Nf & Ng & ST) F N H. destruct (readable cwd is_script C h stack o d st s f src src t s' A B I Nf (Ng _ (bare_strip f)) ST F H) as (_ & R).
  apply is_template_iff in N. destruct (R N eq_refl) as [R1|(name & D & g & W & o' & st' & c & P)]; [left; exact R1|right]. exists name, g, o', st', c. auto.
Qed.
Lemma files_final : forall h stack o d st s f src tgt, usual cwd src tgt f -> d_events (process h stack o d st s f src tgt) <> [] ->
  let s' := effects s (d_events (process h stack o d st s f src tgt)) in
  exists t result changed name o' st' mode, file_at cwd s f (Some t) /\ process_with h stack o d st f (f_text t) = (o', st', Ok (result, changed, None)) /\
    d_result (process h stack o d st s f src tgt) = Ok name /\ file_at cwd s' name (Some {| f_text := result; f_mode := mode |}) /\
    (file_at cwd s name None \/ (src = tgt /\ ~ template_name f /\ oget o o_overwrite = false) -> mode = if is_script result then 493%N else f_mode t) /\
    (src <> tgt -> file_at cwd s' f (Some t)) /\
    (src = tgt -> template_name f -> file_at cwd s' f (if oget o o_overwrite then None else Some t)) /\
    (src = tgt -> ~ template_name f -> same_place cwd name f /\ (oget o o_overwrite = false -> file_at cwd s' (f ++ $".original") (Some t))).
Proof.
  intros h stack o d st s f src tgt (C & A & B & I & Nf & Ng & ST) NE s'. destruct (finished cwd is_script C h stack o d st s f src tgt A B I Nf (Ng _ (bare_strip f)) ST NE) as (t & result & changed & name & o' & st' & mode & F & P & D & W & M & S & X).
  fold s' in W, S, X. exists t, result, changed, name, o', st', mode. split; [exact F|]. split; [exact P|]. split; [exact D|]. split; [exact W|]. split.
  { intros [Y|(Y & Z & V)]; apply M; [left; exact Y|right]. apply not_template in Z. repeat split; assumption. }
  split; [exact X|]. split.
  - intros E T. specialize (S E). apply is_template_iff in T. rewrite T in S. destruct (oget o o_overwrite); exact S.
  - intros E T. specialize (S E). apply not_template in T. rewrite T in S. destruct S as (S1 & S2). split; [exact S1|]. intro O. rewrite O in S2. exact S2.
Qed.
Lemma files_twice : forall h stack o d st h2 stack2 o2 d2 st2 s f src t, usual cwd src src f -> ~ template_name f ->
  oget o o_overwrite = false -> oget o2 o_overwrite = false -> file_at cwd s f (Some t) ->
  let r1 := process h stack o d st s f src src in let s1 := effects s (d_events r1) in
  let r2 := process h2 stack2 o2 d2 st2 s1 f src src in let s2 := effects s1 (d_events r2) in
  d_events r1 <> [] -> d_events r2 <> [] ->
  exists t1 t2, (exists o' st' c, process_with h stack o d st f (f_text t) = (o', st', Ok (f_text t1, c, None))) /\
    (exists o' st' c, process_with h2 stack2 o2 d2 st2 f (f_text t1) = (o', st', Ok (f_text t2, c, None))) /\
    file_at cwd s2 f (Some t2) /\ file_at cwd s2 (f ++ $".original") (Some t1) /\
    forall q x, ~ same_place cwd q f -> ~ same_place cwd q (f ++ $".original") -> file_at cwd s2 q x <-> file_at cwd s q x.
Proof.
  intros h stack o d st h2 stack2 o2 d2 st2 s f src t (C & A & B & I & Nf & Ng & ST) T O1 O2 F. apply not_template in T. exact (two_runs cwd is_script C h stack o d st h2 stack2 o2 d2 st2 s f src t A I Nf (Ng _ (bare_strip f)) T O1 O2 F).
Qed.
End Statements.
