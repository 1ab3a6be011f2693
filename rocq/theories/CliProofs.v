(** Proofs about the functions around the command line. *)
From Coq Require Import String Ascii List ZArith NArith Bool Lia.
From Verif Require Import GoStr GoStrFacts ValueModel Utf8 Utf8Facts QuoteSpec CliModel CliSpec.
Import ListNotations.

(** ** Trimming *)
Lemma white_all s : white s <-> all_space s.
Proof. rewrite all_space_forall. reflexivity. Qed.

Lemma chunks_app_white a b : white b -> chunks (a ++ b) = chunks a ++ chunks b.
Proof.
  intro W. destruct b as [|x b]; [rewrite !app_nil_r; reflexivity|]. apply chunks_app_cut. unfold white in W. rewrite chunks_cons in W by discriminate. inversion W as [|? ? H _]; subst.
  apply (decode_head x b). apply space_not_error. exact H.
Qed.
Lemma trim_unique s t : trimmed s t -> trim_space s = t.
Proof.
  intros (a & b & -> & A & B & [T1 T2]). unfold trim_space.
  assert (L : trim_left_space (a ++ t ++ b) = t ++ b \/ t = [] /\ trim_left_space (a ++ t ++ b) = []).
  { unfold trim_left_space. rewrite all_space_app by (apply white_all; exact A). destruct t as [|x t].
    - right. split; [reflexivity|]. cbn [app]. replace (chunks a ++ chunks b) with ((chunks a ++ chunks b) ++ []) by apply app_nil_r.
      rewrite span_space_intro; [reflexivity| |exact I]. apply Forall_app. split; assumption.
    - left. rewrite chunks_app_white by exact B. rewrite span_space_intro; [|exact A|].
      + cbn [snd]. rewrite bytes_app, !bytes_chunks. reflexivity.
      + destruct (chunks (x :: t)) as [|c r] eqn:C; [apply chunks_nil_iff in C; discriminate C|]. cbn [app]. exact (T1 c r eq_refl). }
  destruct L as [->|[-> ->]]; [|reflexivity]. unfold trim_right_space. rewrite chunks_app_white by exact B. rewrite rev_app_distr.
  rewrite span_space_intro; [cbn [snd]; rewrite rev_involutive, bytes_chunks; reflexivity|apply Forall_rev; exact B|].
  destruct (rev (chunks t)) as [|c r] eqn:C; [exact I|]. apply (T2 c (rev r)). rewrite <- (rev_involutive (chunks t)), C. reflexivity.
Qed.
Lemma trim_trimmed s : trimmed s (trim_space s).
Proof.
  unfold trim_space. set (u := trim_left_space s).
  assert (Cu : chunks u = snd (span_space (chunks s))).
  { unfold u, trim_left_space. apply (chunks_suffix (fst (span_space (chunks s))) s). symmetry. apply span_space_app. }
  assert (Fu : forall c r, chunks u = c :: r -> is_space_rune (fst c) = false).
  { intros c r H. pose proof (span_space_snd (chunks s)) as G. rewrite <- Cu, H in G. exact G. }
  set (R := span_space (rev (chunks u))).
  assert (Sp : chunks u = rev (snd R) ++ rev (fst R)).
  { rewrite <- rev_app_distr. unfold R. rewrite span_space_app, rev_involutive. reflexivity. }
  assert (Wf : Forall (fun c => sp_chunk c = true) (rev (fst R))) by (apply Forall_rev; apply span_space_fst).
  assert (Ct : chunks (trim_right_space u) = rev (snd R)).
  { unfold trim_right_space. fold R. apply (chunks_prefix _ u (rev (fst R)) Sp). destruct (rev (fst R)) as [|c r] eqn:C; [left; reflexivity|].
    right. exists c, r. split; [reflexivity|]. inversion Wf; subst. apply space_not_error. assumption. }
  exists (leading_space s), (bytes (rev (fst R))). split; [|split; [|split]].
  - unfold trim_right_space. fold R. rewrite <- bytes_app, <- Sp, bytes_chunks. unfold u. symmetry. apply leading_space_app.
  - apply white_all, leading_space_all.
  - unfold white. rewrite (chunks_suffix _ u _ Sp). exact Wf.
  - split; intros c r H; rewrite Ct in H.
    + apply (Fu c (r ++ rev (fst R))). rewrite Sp, H. reflexivity.
    + pose proof (span_space_snd (rev (chunks u))) as G. fold R in G. apply (f_equal (@rev chunk)) in H. rewrite rev_involutive, rev_app_distr in H. cbn [rev app] in H.
      rewrite H in G. exact G.
Qed.

(** ** Patterns *)
Lemma pieces_split v ps : pieces v ps <-> split $"," v = ps.
Proof.
  split.
  - intros (N & F & ->). apply (split1_join ","%char); assumption.
  - intros <-. split; [apply split_nonnil|split; [apply (split1_fields ","%char)|symmetry; apply join_split; discriminate]].
Qed.
Lemma extend_wanted patterns q : In q (extend patterns) <-> wanted patterns q.
Proof.
  unfold extend, wanted. rewrite filter_In, in_map_iff. setoid_rewrite in_flat_map. split.
  - intros ((p & <- & (v & Iv & Ip)) & N). exists v, (split $"," v), p. split; [exact Iv|]. split; [apply pieces_split; reflexivity|]. split; [exact Ip|]. split; [apply trim_trimmed|].
    intro H. rewrite H in N. discriminate N.
  - intros (v & ps & p & Iv & Hp & Ip & T & N). split.
    + exists p. split; [apply trim_unique; exact T|]. exists v. split; [exact Iv|]. apply pieces_split in Hp. rewrite Hp. exact Ip.
    + destruct q; [contradiction|reflexivity].
Qed.
(** The patterns in order. *)
Lemma extend_app a b : extend (a ++ b) = extend a ++ extend b.
Proof. unfold extend. rewrite flat_map_app, map_app, filter_app. reflexivity. Qed.
Lemma extend_one v ps ts : pieces v ps -> Forall2 trimmed ps ts -> extend [v] = filter (fun t => if list_eq_dec ascii_dec t [] then false else true) ts.
Proof.
  intros H F. apply pieces_split in H. unfold extend. cbn [flat_map]. rewrite app_nil_r, H. clear H. induction F as [|p t ps ts T F IH]; [reflexivity|].
  cbn [map filter]. rewrite (trim_unique _ _ T), IH. destruct t; reflexivity.
Qed.
Lemma extend_nil patterns : (forall q, ~ wanted patterns q) -> extend patterns = [].
Proof. intro H. destruct (extend patterns) as [|q l] eqn:X; [reflexivity|]. exfalso. apply (H q), extend_wanted. rewrite X. left. reflexivity. Qed.

Lemma exclude_nothing abs pm files patterns : (forall q, ~ wanted patterns q) -> exclude abs pm files patterns = Ok files.
Proof. intro H. unfold exclude. rewrite extend_nil by exact H. reflexivity. Qed.

Lemma excluded_ok abs pm file ps b : excluded abs pm file ps = Ok b ->
  if b then exists q, In q ps /\ hit abs pm file q true else forall q, In q ps -> hit abs pm file q false.
Proof.
  induction ps as [|p ps IH]; cbn [excluded]; intro H; [inversion H; subst; intros q []|].
  destruct (abs p) as [p'| |] eqn:Ap; try discriminate H. cbn [bind] in H. destruct (pm p' file) as [[|]| |] eqn:Pm; try discriminate H; cbn [bind] in H.
  - inversion H; subst. exists p. split; [left; reflexivity|exists p'; auto].
  - specialize (IH H). destruct b.
    + destruct IH as (q & I & G). exists q. split; [right; exact I|exact G].
    + intros q [<-|I]; [exists p'; auto|apply IH; exact I].
Qed.
Lemma keep_kept abs pm ps files : forall r, keep_files abs pm ps files = Ok r -> kept abs pm ps files r.
Proof.
  induction files as [|f files IH]; intros r H; cbn [keep_files] in H; [inversion H; constructor|].
  destruct (abs f) as [file| |] eqn:Af; try discriminate H. cbn [bind] in H. destruct (excluded abs pm file ps) as [b| |] eqn:Ex; try discriminate H. cbn [bind] in H.
  destruct (keep_files abs pm ps files) as [r'| |] eqn:K; try discriminate H. cbn [bind] in H. inversion H; subst. apply excluded_ok in Ex. destruct b.
  - destruct Ex as (q & I & G). econstructor; eauto.
  - econstructor; eauto.
Qed.
Lemma exclude_kept abs pm files patterns r : (exists q, wanted patterns q) -> exclude abs pm files patterns = Ok r ->
  exists ps, (forall q, In q ps <-> wanted patterns q) /\ kept abs pm ps files r.
Proof.
  intros (q & W) H. exists (extend patterns). split; [intro; apply extend_wanted|]. unfold exclude in H. destruct (extend patterns) eqn:X; [apply extend_wanted in W; rewrite X in W; destruct W|].
  apply keep_kept. exact H.
Qed.

Lemma excluded_total abs pm file ps (m : str -> bool) : (forall q, In q ps -> hit abs pm file q (m q)) -> excluded abs pm file ps = Ok (existsb m ps).
Proof.
  induction ps as [|p ps IH]; intro H; [reflexivity|]. cbn [excluded existsb]. destruct (H p (or_introl eq_refl)) as (p' & -> & Pm). cbn [bind]. rewrite Pm. cbn [bind].
  destruct (m p); [reflexivity|]. apply IH. intros q I. apply H. right. exact I.
Qed.
Lemma exclude_total abs pm files patterns (m : str -> str -> bool) keep : (exists q, wanted patterns q) ->
  (forall f, In f files -> exists file, abs f = Ok file /\ forall q, wanted patterns q -> hit abs pm file q (m q f)) ->
  (forall f, In f files -> (keep f = true <-> forall q, wanted patterns q -> m q f = false)) ->
  exclude abs pm files patterns = Ok (filter keep files).
Proof.
  intros (q0 & W0) H K. unfold exclude. destruct (extend patterns) as [|p0 l] eqn:X; [apply extend_wanted in W0; rewrite X in W0; destruct W0|]. rewrite <- X.
  assert (G : forall fs, (forall f, In f fs -> In f files) -> keep_files abs pm (extend patterns) fs = Ok (filter keep fs)).
  { induction fs as [|f fs IH]; intro I; [reflexivity|]. cbn [keep_files filter]. destruct (H f (I f (or_introl eq_refl))) as (file & -> & Hf). cbn [bind].
    rewrite (excluded_total abs pm file _ (fun q => m q f)) by (intros q Iq; apply Hf, extend_wanted; exact Iq). cbn [bind].
    rewrite IH by (intros; apply I; right; assumption). cbn [bind]. specialize (K f (I f (or_introl eq_refl))). f_equal.
    destruct (existsb (fun q => m q f) (extend patterns)) eqn:Ex.
    - destruct (keep f); [|reflexivity]. exfalso. apply existsb_exists in Ex. destruct Ex as (q & Iq & M). rewrite (proj1 K eq_refl q) in M; [discriminate|]. apply extend_wanted. exact Iq.
    - replace (keep f) with true; [reflexivity|]. symmetry. apply K. intros q W. apply extend_wanted in W. destruct (m q f) eqn:M; [|reflexivity].
      rewrite <- Ex. symmetry. apply existsb_exists. exists q. auto. }
  apply G. auto.
Qed.

(** ** Substitutions *)
Section Substitute.
Context {RE : Type}.
Variable compile : str -> option RE.
Variable replace : RE -> str -> str -> str.
Notation init := (init_replacer compile).

Lemma byte_ascii c : ascii_char c -> byte_string c = [c].
Proof. intro H. unfold byte_string. apply N.ltb_lt in H. rewrite H. reflexivity. Qed.
Lemma byte_utf8 c : byte_string c = utf8 (N_of_ascii c).
Proof.
  unfold byte_string, utf8. destruct (N_of_ascii c <? 128)%N eqn:L; [cbn [map]; rewrite ascii_N_embedding; reflexivity|].
  pose proof (N_ascii_bounded c) as B. replace (N_of_ascii c <? 2048)%N with true by (symmetry; apply N.ltb_lt; lia). reflexivity.
Qed.
Lemma split2 x y a b : x <> y -> contains [x; y] a = false -> split [x; y] (a ++ [x; y] ++ b) = a :: split [x; y] b.
Proof.
  intros D. induction a as [|c a IH]; intro C; [apply (split_eq_sep [x; y] b); discriminate|]. change ((c :: a) ++ [x; y] ++ b) with (c :: (a ++ [x; y] ++ b)).
  assert (Ca : contains [x; y] a = false) by (change (c :: a) with ([c] ++ a) in C; apply contains_app_false in C; tauto). rewrite split_eq_nosep; [rewrite (IH Ca); reflexivity|].
  destruct (has_prefix [x; y] (c :: a ++ [x; y] ++ b)) eqn:E; [|reflexivity]. exfalso. apply has_prefix_iff in E as [t E]. cbn [app] in E. inversion E as [[E1 E2]]. subst c.
  destruct a as [|d a]; [cbn [app] in E2; inversion E2; congruence|]. cbn [app] in E2. inversion E2; subst d. assert (T : contains [x; y] (x :: y :: a) = true) by (apply contains_iff; exists [], a; reflexivity). congruence.
Qed.
Lemma init_latin s t c u a e r : trimmed s t -> ~ ascii_char c -> t = c :: u -> t = a ++ utf8 (N_of_ascii c) ++ e ++ utf8 (N_of_ascii c) ++ r ->
  contains (utf8 (N_of_ascii c)) a = false -> contains (utf8 (N_of_ascii c)) e = false -> contains (utf8 (N_of_ascii c)) r = false -> e <> [] -> r <> $"d" ->
  init s = match compile e with Some re => Ok (re, r) | None => Panic $"regexp: Compile" end.
Proof.
  intros T NA E1 E2 Ca Ce Cr Ne Nr. unfold init_replacer. rewrite (trim_unique s t T). rewrite E1. rewrite byte_utf8. rewrite <- E1, E2.
  assert (U : exists x y, utf8 (N_of_ascii c) = [x; y] /\ x <> y).
  { rewrite <- byte_utf8. unfold byte_string. destruct (N_of_ascii c <? 128)%N eqn:L; [apply N.ltb_lt in L; contradiction|]. do 2 eexists. split; [reflexivity|]. intro X. apply (f_equal N_of_ascii) in X.
    pose proof (N_ascii_bounded c) as B. apply N.ltb_ge in L. assert (M : (N_of_ascii c mod 64 < 64)%N) by (apply N.mod_lt; discriminate). assert (D : (N_of_ascii c / 64 < 4)%N) by (apply N.div_lt_upper_bound; lia).
    rewrite (N_ascii_embedding (192 + N_of_ascii c / 64)), (N_ascii_embedding (128 + N_of_ascii c mod 64)) in X; set (q := (N_of_ascii c / 64)%N) in *; set (m := (N_of_ascii c mod 64)%N) in *; clearbody q m; lia. }
  destruct U as (x & y & U & D). rewrite U in *. rewrite (split2 x y a _ D Ca), (split2 x y e _ D Ce), (split_no _ r Cr). destruct e as [|z e]; [contradiction|].
  change (str_eqb (z :: e) []) with false. cbv iota. destruct (str_eqb_spec r $"d") as [->|_]; [contradiction|]. reflexivity.
Qed.
Lemma split_substitution t c e r : substitution t c e r -> split [c] t = [[]; e; r].
Proof.
  intros (-> & N & He & Hr). cbn [app]. rewrite split1_cons_sep. rewrite split1_app by exact He. rewrite split1_notIn by exact Hr. reflexivity.
Qed.
Lemma init_parts s t c e r : trimmed s t -> ascii_char c -> substitution t c e r ->
  init s = let '(expression, replacement) :=
      if str_eqb r $"d" then
        (if has_suffix $"$" e then if has_prefix $"(?m)" (e ++ $"\n") then e ++ $"\n" else $"(?m)" ++ e ++ $"\n" else e, [])
      else (e, r) in
    match compile expression with Some re => Ok (re, replacement) | None => Panic $"regexp: Compile" end.
Proof.
  intros T A H. unfold init_replacer. rewrite (trim_unique s t T). pose proof (split_substitution t c e r H) as Sp. destruct H as (-> & N & _ & _). cbn [app] in *.
  rewrite byte_ascii by exact A. rewrite Sp. destruct e as [|x e]; [contradiction|]. reflexivity.
Qed.
Definition compiled (expression replacement : str) : res (RE * str) :=
  match compile expression with Some re => Ok (re, replacement) | None => Panic $"regexp: Compile" end.

Lemma init_replace s t c e r : trimmed s t -> ascii_char c -> substitution t c e r -> r <> $"d" -> init s = compiled e r.
Proof. intros T A H N. rewrite (init_parts s t c e r T A H). destruct (str_eqb_spec r $"d"); [contradiction|]. reflexivity. Qed.
Lemma init_delete s t c e : trimmed s t -> ascii_char c -> substitution t c e $"d" -> (forall a, e <> a ++ $"$") -> init s = compiled e [].
Proof.
  intros T A H N. rewrite (init_parts s t c e $"d" T A H). change (str_eqb $"d" $"d") with true. cbv iota.
  replace (has_suffix $"$" e) with false; [reflexivity|]. symmetry. apply not_true_iff_false. rewrite has_suffix_iff. intros (a & Ea). exact (N a Ea).
Qed.
Lemma init_delete_lines s t c e : trimmed s t -> ascii_char c -> substitution t c (e ++ $"$") $"d" ->
  init s = compiled (if has_prefix $"(?m)" (e ++ $"$\n") then e ++ $"$\n" else $"(?m)" ++ e ++ $"$\n") [].
Proof.
  intros T A H. rewrite (init_parts s t c _ $"d" T A H). change (str_eqb $"d" $"d") with true. cbv iota.
  replace (has_suffix $"$" (e ++ $"$")) with true by (symmetry; apply has_suffix_iff; eexists; reflexivity). rewrite <- app_assoc. reflexivity.
Qed.
Lemma init_bad s t c u : trimmed s t -> ascii_char c -> t = c :: u -> (forall e r, ~ substitution t c e r) -> init s = Panic $"Bad replacer".
Proof.
  intros T A -> H. unfold init_replacer. rewrite (trim_unique s _ T). rewrite byte_ascii by exact A. rewrite split1_cons_sep.
  pose proof (split1_fields c u) as F. pose proof (join_split [c] u ltac:(discriminate)) as J.
  destruct (split [c] u) as [|e [|r [|x l]]]; try reflexivity. destruct e as [|y e]; [reflexivity|]. exfalso. apply (H (y :: e) r).
  inversion F as [|? ? Fe F']; subst. inversion F'; subst. split; [reflexivity|]. split; [discriminate|]. auto.
Qed.
Lemma init_blank s : trimmed s [] -> init s = Panic $"Bad replacer".
Proof. intro T. unfold init_replacer. rewrite (trim_unique s [] T). reflexivity. Qed.

Lemma init_all rs : forall xs, init_replacers compile rs = Ok xs <-> Forall2 (fun r x => init r = Ok x) rs xs.
Proof.
  induction rs as [|r rs IH]; intro xs; cbn [init_replacers].
  - split; [intro H; inversion H; constructor|intro H; inversion H; reflexivity].
  - split.
    + intro H. destruct (init r) as [x| |] eqn:I; try discriminate H. cbn [bind] in H. destruct (init_replacers compile rs) as [l| |] eqn:L; try discriminate H. cbn [bind] in H.
      inversion H; subst. constructor; [exact I|]. apply IH. reflexivity.
    + intro H. inversion H as [|? x ? l Hx Hl]; subst. rewrite Hx. cbn [bind]. apply IH in Hl. rewrite Hl. reflexivity.
Qed.
Lemma substitute_app a b : forall content, substitute replace content (a ++ b) = substitute replace (substitute replace content a) b.
Proof. induction a as [|[re r] a IH]; intro content; [reflexivity|]. cbn [app substitute]. apply IH. Qed.
Lemma substitute_one re r content : substitute replace content [(re, r)] = replace re content r.
Proof. reflexivity. Qed.
End Substitute.

(** ** Wildcards *)
Lemma wild_iff s : has_wildcard s = true <-> wild s.
Proof. unfold has_wildcard, wild. rewrite existsb_exists. split; intros (c & A & B); exists c; (split; [exact A|apply contains_byte_In; exact B]). Qed.
Lemma glob_app glob t a b : glob_func glob t (a ++ b) = glob_func glob t a ++ glob_func glob t b.
Proof. induction a as [|x a IH]; [reflexivity|]. cbn [app glob_func]. rewrite IH, app_assoc. reflexivity. Qed.
Lemma glob_one glob t a :
  (~ wild a -> glob_func glob t [a] = [a]) /\
  (wild a -> forall l, glob a = Some l -> glob_func glob t [a] = l) /\
  (wild a -> glob a = None -> glob_func glob t [a] = if t then [] else [a]).
Proof.
  cbn [glob_func]. rewrite app_nil_r. split; [|split].
  - intro H. destruct (has_wildcard a) eqn:W; [apply wild_iff in W; contradiction|reflexivity].
  - intros H l G. apply wild_iff in H. rewrite H, G. reflexivity.
  - intros H G. apply wild_iff in H. rewrite H, G. reflexivity.
Qed.
