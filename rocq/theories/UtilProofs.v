(** Lemmas on find, the assertions, the kinds of placeholder text and the default shell. *)
From Coq Require Import String Ascii List ZArith NArith Bool PeanoNat Sorted Lia.
From Verif Require Import GoStr GoStrFacts ValueModel ValueFacts CollSpec ListModel ListProofs TextModel TextSpec TextProofs TextProofs2 DataModel DataProofs AliasModel AliasSpec AliasProofs UtilModel UtilSpec.
Import ListNotations.

Section WithEnv.
Context {E : Env}.
Lemma find_text : forall strict n s e, tpl_find strict (VScal (SStr n s)) e = Ok (map (fun k => vint (Z.of_nat k)) (index_all s (sprint e))).
Proof. reflexivity. Qed.
Lemma find_list : forall l e, (forall n s, l <> VScal (SStr n s)) ->
  exists ps, tpl_find false l e = Ok (map vint ps) /\ Sorted Z.lt ps /\
  forall p, In p ps <-> exists n v, p = Z.of_nat n /\ nth_error (snd (c_as_list l)) n = Some v /\ same_text v e.
Proof.
  intros l e N. destruct (find_spec (snd (c_as_list l)) e) as (ps & A & B & C). exists ps. split; [|split; assumption].
  unfold tpl_find. rewrite A. destruct l as [|[b|k z|f|n s]| | | | | |]; try reflexivity. destruct (N n s eq_refl).
Qed.
Lemma find_list_strict : forall l e, (forall n s, l <> VScal (SStr n s)) -> (forall x, In x (snd (c_as_list l)) -> ~ same_uncomparable_type e x) ->
  exists ps, tpl_find true l e = Ok (map vint ps) /\ Sorted Z.lt ps /\
  forall p, In p ps <-> exists n v, p = Z.of_nat n /\ nth_error (snd (c_as_list l)) n = Some v /\ iface_eq e v = Ok true.
Proof.
  intros l e N U. destruct (find_strict_spec (snd (c_as_list l)) e U) as (ps & A & B & C). exists ps. split; [|split; assumption].
  unfold tpl_find. rewrite A. destruct l as [|[b|k z|f|n s]| | | | | |]; try reflexivity. destruct (N n s eq_refl).
Qed.
Lemma find_text_contains : forall n s e, sprint e <> [] -> (tpl_find false (VScal (SStr n s)) e = Ok [] <-> contains (sprint e) s = false).
Proof.
  intros n s e N. rewrite find_text. destruct (index_all_spec s (sprint e) N) as (A & _ & C). split.
  - intros H. injection H as H. apply map_eq_nil in H. destruct (contains (sprint e) s) eqn:X; [|reflexivity]. apply contains_iff in X. destruct X as (a & b & X).
    destruct (C (length a)) as (p & P & _); [exists a, b; split; [exact X | reflexivity]|]. rewrite H in P. destruct P.
  - intros X. destruct (index_all s (sprint e)) as [|k l]; [reflexivity|]. destruct (A k (or_introl eq_refl)) as (a & b & H & _).
    assert (Y : contains (sprint e) s = true) by (apply contains_iff; exists a, b; exact H). congruence.
Qed.
Lemma find_from_nil : forall e l k, find_from e k l = [] <-> existsb (fun item => str_eqb e (sprint item)) l = false.
Proof.
  intros e. induction l as [|v l IH]; intros k; [split; reflexivity|]. cbn [find_from existsb]. destruct (str_eqb e (sprint v)); cbn [orb]; [split; discriminate | apply IH].
Qed.
Lemma find_list_contains : forall l e, (forall n s, l <> VScal (SStr n s)) -> (tpl_find false l e = Ok [] <-> list_contains (snd (c_as_list l)) [e] = false).
Proof.
  intros l e N. replace (tpl_find false l e) with (@Ok (list value) (list_find (snd (c_as_list l)) e)) by (destruct l as [|[b|k z|f|n s]| | | | | |]; try reflexivity; destruct (N n s eq_refl)).
  unfold list_find, list_contains. cbn [forallb]. rewrite andb_true_r. split.
  - intros H. injection H as H. apply map_eq_nil in H. apply find_from_nil in H. rewrite H. reflexivity.
  - intros H. f_equal. replace (find_from (sprint e) 0 (snd (c_as_list l))) with (@nil Z); [reflexivity|]. symmetry. apply find_from_nil. apply andb_false_iff in H. destruct H as [H|H]; [exact H|].
    destruct (snd (c_as_list l)) as [|x r]; [reflexivity|]. exfalso. unfold zlen in H. cbn [length] in H. apply Z.ltb_ge in H. lia.
Qed.
End WithEnv.

Lemma is_zero_spec : forall nilp v, is_zero nilp v = true <-> zero_value nilp v.
Proof.
  intros nilp v. rewrite <- is_empty_value_spec. unfold is_zero, sprig_default. destruct (is_empty_value nilp v) eqn:X; [split; reflexivity|].
  split; [|discriminate]. intros H. destruct v as [|[b|k z|f|n s]| | | | | |]; cbn in H; try discriminate.
  apply andb_true_iff in H. destruct H as (_ & H). cbn in X. congruence.
Qed.
Lemma assert_error_spec : forall nilp message t args,
  (zero_value nilp t -> exists m, assert_error nilp message t args = Err m /\ (args = [] -> m = message [vstr $"Assertion failed"]) /\ (args <> [] -> m = message args)) /\
  (~ zero_value nilp t -> assert_error nilp message t args = Ok []).
Proof.
  intros nilp message t args. unfold assert_error. split; intros H.
  - apply is_zero_spec in H. rewrite H. exists (message (assertion_args args)). split; [reflexivity|]. destruct args; split; intros X; try reflexivity; congruence.
  - destruct (is_zero nilp t) eqn:Z; [apply is_zero_spec in Z; contradiction | reflexivity].
Qed.
Lemma assert_warning_spec : forall nilp message log t args, snd (assert_warning nilp message log t args) = [] /\
  (zero_value nilp t -> exists m, assert_error nilp message t args = Err m /\ fst (assert_warning nilp message log t args) = m :: log) /\
  (~ zero_value nilp t -> fst (assert_warning nilp message log t args) = log).
Proof.
  intros nilp message log t args. unfold assert_warning, assert_error. split; [destruct (is_zero nilp t); reflexivity|]. split; intros H.
  - apply is_zero_spec in H. rewrite H. eexists. split; reflexivity.
  - destruct (is_zero nilp t) eqn:Z; [apply is_zero_spec in Z; contradiction | reflexivity].
Qed.

(** Kinds *)
Lemma low_digit : forall c d, 48 <= nat_of_ascii d <= 57 -> low c = d -> c = d.
Proof. intros c d D <-. destruct c as [[] [] [] [] [] [] [] []]; try reflexivity; exfalso; cbv in D; lia. Qed.
Lemma lower_digit : forall name d, 48 <= nat_of_ascii d <= 57 -> (lower name = [d] <-> name = [d]).
Proof.
  intros name d D. split.
  - intros H. destruct name as [|c r]; [discriminate|]. destruct r as [|c1 r]; [cbn in H; injection H as H; rewrite (low_digit c d D H); reflexivity|].
    exfalso. cbn [lower] in H. destruct (Ascii.eqb c "196" && Ascii.eqb c1 "176").
    + injection H as H _. subst d. cbv in D. lia.
    + destruct r as [|c2 r].
      * change (lower [c1]) with [low c1] in H. discriminate.
      * destruct (Ascii.eqb c "226" && Ascii.eqb c1 "132" && Ascii.eqb c2 "170"); [injection H as H _; subst d; cbv in D; lia|].
        injection H as _ H. revert H. cbn [lower]. destruct (Ascii.eqb c1 "196" && Ascii.eqb c2 "176"); [discriminate|]. destruct r as [|c3 r]; [discriminate|].
        destruct (Ascii.eqb c1 "226" && Ascii.eqb c2 "132" && Ascii.eqb c3 "170"); discriminate.
  - intros ->. cbn. f_equal. destruct d as [[] [] [] [] [] [] [] []]; try reflexivity; exfalso; cbv in D; lia.
Qed.
Lemma lower_nil : forall name, lower name = [] <-> name = [].
Proof.
  intros name. split; [|intros ->; reflexivity]. destruct name as [|c r]; [reflexivity|]. cbn [lower]. destruct r as [|c1 r]; [discriminate|].
  destruct (Ascii.eqb c "196" && Ascii.eqb c1 "176"); [discriminate|]. destruct r as [|c2 r]; [discriminate|]. destruct (Ascii.eqb c "226" && Ascii.eqb c1 "132" && Ascii.eqb c2 "170"); discriminate.
Qed.
Lemma lower_word : forall name w, forallb (fun c => Nat.leb 97 (nat_of_ascii c) && Nat.leb (nat_of_ascii c) 122) w = true -> (lower name = w <-> written name w).
Proof.
  intros name w H. apply lower_written. rewrite Forall_forall. intros c I. rewrite forallb_forall in H. specialize (H c I). apply andb_true_iff in H. destruct H as (A & B).
  apply Nat.leb_le in A. apply Nat.leb_le in B. split; assumption.
Qed.
Lemma names_lower : forall name k, names_kind name k <-> In (lower name) (fst (kind_words k) :: (match k with Sentence => [[]] | _ => [] end) ++ snd (kind_words k)).
Proof.
  intros name k. unfold names_kind. cbn [In]. rewrite in_app_iff.
  assert (D : name = fst (kind_words k) <-> fst (kind_words k) = lower name) by (destruct k; cbn [kind_words fst]; (split; [intros ->; reflexivity | intros H; symmetry in H; refine (proj1 (lower_digit name _ _) H); cbv; lia])).
  assert (N : (name = [] /\ k = Sentence) <-> In (lower name) match k with Sentence => [[]] | _ => [] end).
  { destruct k; cbn [In]; split; try (intros (_ & Q); discriminate Q); try (intros []; fail).
    - intros (A & _). left. rewrite A. reflexivity.
    - intros [X|[]]. symmetry in X. split; [exact (proj1 (lower_nil name) X) | reflexivity]. }
  assert (W : (exists w, In w (snd (kind_words k)) /\ written name w) <-> In (lower name) (snd (kind_words k))).
  { assert (Y : forall w, In w (snd (kind_words k)) -> (lower name = w <-> written name w)).
    { intros w I. apply lower_word. destruct k; cbn [kind_words snd In] in I; repeat (destruct I as [<-|I]; [reflexivity|]); destruct I. }
    split; [intros (w & I & X); apply Y in X; [rewrite X; exact I | exact I] | intros I; exists (lower name); split; [exact I | apply Y; [exact I | reflexivity]]]. }
  rewrite D, N, W. tauto.
Qed.
Lemma kinds_apart : forall w k k', In w (fst (kind_words k) :: (match k with Sentence => [[]] | _ => [] end) ++ snd (kind_words k)) ->
  In w (fst (kind_words k') :: (match k' with Sentence => [[]] | _ => [] end) ++ snd (kind_words k')) -> k = k'.
Proof.
  intros w k k' A B. destruct k; cbn [kind_words fst snd app In] in A; repeat (destruct A as [<-|A]; [destruct k'; try reflexivity; exfalso; apply mem_str_In in B; vm_compute in B; discriminate B|]); destruct A.
Qed.
Lemma kind_spec : forall name k, get_lorem_kind name = Ok k <-> names_kind name k.
Proof.
  intros name k. rewrite names_lower. unfold get_lorem_kind. cbv zeta.
  assert (F : forall k', mem_str (lower name) (fst (kind_words k') :: (match k' with Sentence => [[]] | _ => [] end) ++ snd (kind_words k')) = true -> (Ok k' = Ok k <-> In (lower name) (fst (kind_words k) :: (match k with Sentence => [[]] | _ => [] end) ++ snd (kind_words k)))).
  { intros k' M. apply mem_str_In in M. split; [intros Q; injection Q as <-; exact M | intros I; f_equal; exact (kinds_apart _ _ _ M I)]. }
  destruct (mem_str (lower name) [$"1"; $"word"]) eqn:M1; [exact (F Word M1)|].
  destruct (mem_str (lower name) [$"2"; $""; $"words"; $"sentence"]) eqn:M2; [exact (F Sentence M2)|].
  destruct (mem_str (lower name) [$"3"; $"para"; $"paragraph"; $"sentences"]) eqn:M3; [exact (F Paragraph M3)|].
  destruct (mem_str (lower name) [$"4"; $"host"]) eqn:M4; [exact (F Host M4)|].
  destruct (mem_str (lower name) [$"5"; $"email"]) eqn:M5; [exact (F EMail M5)|].
  destruct (mem_str (lower name) [$"6"; $"url"]) eqn:M6; [exact (F URL M6)|].
  split; [discriminate|]. intros I. apply mem_str_In in I. destruct k; [destruct (diff_true_false (eq_trans (eq_sym I) M1)) | destruct (diff_true_false (eq_trans (eq_sym I) M2)) | destruct (diff_true_false (eq_trans (eq_sym I) M3)) | destruct (diff_true_false (eq_trans (eq_sym I) M4)) | destruct (diff_true_false (eq_trans (eq_sym I) M5)) | destruct (diff_true_false (eq_trans (eq_sym I) M6))].
Qed.
Lemma kind_unknown : forall name, (forall k, ~ names_kind name k) -> get_lorem_kind name = Err ($"undefined Lorem kind " ++ name).
Proof.
  intros name N. destruct (get_lorem_kind name) as [k|e|p] eqn:X; [apply kind_spec in X; destruct (N k X)| |];
    unfold get_lorem_kind in X; repeat match type of X with context [if ?b then _ else _] => destruct b end; try discriminate; symmetry; exact X.
Qed.

(** Shell *)
Lemma shells_fixed : forall windows c looks, c <> [] -> Forall (fun s => s = c) (shells windows c looks).
Proof.
  intros windows c looks N. induction looks as [|look r IH]; [constructor|]. cbn [shells]. assert (D : default_shell windows look c = c) by (destruct c; [congruence | reflexivity]). cbv zeta. rewrite D.
  constructor; [reflexivity | exact IH].
Qed.
Lemma shells_prefix : forall windows looks, exists n c, (n = length looks \/ c <> []) /\ n <= length looks /\ shells windows [] looks = repeat [] n ++ repeat c (length looks - n).
Proof.
  intros windows. induction looks as [|look r IH]; [exists 0, []; split; [left; reflexivity|]; split; reflexivity|].
  cbn [shells]. cbv zeta. destruct (default_shell windows look []) as [|x s] eqn:D.
  - destruct IH as (n & c & A & B & C). exists (S n), c. cbn [length repeat app]. rewrite C. split; [|split; [lia|reflexivity]]. destruct A as [->|A]; [left; reflexivity | right; exact A].
  - exists 0, (x :: s). split; [right; discriminate|]. split; [lia|]. cbn [repeat app length Nat.sub]. f_equal.
    pose proof (shells_fixed windows (x :: s) r ltac:(discriminate)) as F. assert (L : forall c l, length (shells windows c l) = length l) by (intros c l; revert c; induction l as [|y l IH2]; intros c; [reflexivity | cbn [shells length]; cbv zeta; cbn [length]; f_equal; apply IH2]).
    rewrite <- (L (x :: s) r). clear -F. induction F as [|y l Y F IH]; [reflexivity|]. cbn [length repeat]. rewrite Y, <- IH. reflexivity.
Qed.
Lemma first_found_spec : forall look names, (first_found look names = [] /\ (forall n, In n names -> look n = None \/ look n = Some [])) \/
  (exists pre n post, names = pre ++ n :: post /\ (forall m, In m pre -> look m = None) /\ look n = Some (first_found look names)).
Proof.
  intros look. induction names as [|n names IH]; [left; split; [reflexivity | intros n []]|]. cbn [first_found]. destruct (look n) as [p|] eqn:L.
  - right. exists [], n, names. split; [reflexivity|]. split; [intros m [] | exact L].
  - destruct IH as [(A & B)|(pre & m & post & A & B & C)].
    + left. split; [exact A|]. intros m [<-|I]; [left; exact L | apply B; exact I].
    + right. exists (n :: pre), m, post. split; [rewrite A; reflexivity|]. split; [intros k [<-|I]; [exact L | apply B; exact I] | exact C].
Qed.
