(** Proofs about lists of razor names left alone. *)
From Coq Require Import String Ascii List ZArith NArith Bool Lia ZifyBool ZifyN.
From Verif Require Import GoStr GoStrFacts Utf8 Utf8Facts ReModel ReSyntaxModel RazorAssignModel ReSound RegexSpec RegexProofs RegexProofs4 CliModel CliSpec CliProofs RazorWordsProofs IgnoreModel IgnoreSpec IgnoreProofs.
Import ListNotations.
Local Open Scope char_scope.

(** ** Trimming *)
Lemma low_chunks : forall r, Forall low_char r -> chunks r = map (fun c => (N_of_ascii c, [c])) r.
Proof. intros r F. induction F as [|c r L F IH]; [reflexivity|]. rewrite chunks_ascii by exact L. rewrite IH. reflexivity. Qed.
Definition solid (c : ascii) : Prop := low_char c /\ is_space_rune (N_of_ascii c) = false.
Lemma solid_tight : forall w, Forall solid w -> tight w.
Proof.
  intros w F. assert (L : Forall low_char w) by (eapply Forall_impl; [|exact F]; intros c (H & _); exact H). unfold tight. rewrite (low_chunks w L).
  assert (X : forall c, In c (map (fun c => (N_of_ascii c, [c])) w) -> is_space_rune (fst c) = false).
  { intros c I. apply in_map_iff in I. destruct I as (y & <- & I). rewrite Forall_forall in F. exact (proj2 (F y I)). }
  split; intros c r E; apply X; rewrite E; [left; reflexivity | apply in_or_app; right; left; reflexivity].
Qed.
Lemma word_solid : forall c, word_char c = true -> solid c.
Proof. intros [[] [] [] [] [] [] [] []] H; try (vm_compute in H; discriminate H); split; reflexivity. Qed.
Lemma words_solid : forall w, Forall (fun c => word_char c = true) w -> Forall solid w.
Proof. intros w F. eapply Forall_impl; [|exact F]. apply word_solid. Qed.
Lemma ends_not : forall x w, Forall (fun c => word_char c = true) w -> word_char x = false -> has_suffix [x] w = false.
Proof.
  intros x w F X. unfold has_suffix. cbn [rev app]. destruct (rev w) as [|c r] eqn:E; [reflexivity|]. cbn [has_prefix]. destruct (Ascii.eqb_spec x c) as [->|_]; [|reflexivity].
  exfalso. assert (I : In c w) by (apply in_rev; rewrite E; left; reflexivity). rewrite Forall_forall in F. rewrite (F c I) in X. discriminate X.
Qed.

Section Ignore.
Variable beyond : N -> bool.
Lemma compiled_name : forall d w, plain_delim d -> is_name w -> exists c, compile beyond ([d] ++ w ++ $"\b") = Some c /\ same (c_re c) (bytes_then (RSeq RBound RNil) (d :: w)).
Proof.
  intros d w (L & N & _) (_ & F). destruct (compiled_syn beyond (letters_then (SAtom ABoundary QOne SEnd) (d :: w))) as (c & C & S & _).
  { apply letters_ok; [constructor; [split; assumption | eapply Forall_impl; [|exact F]; apply word_plain] | cbn; repeat split]. }
  rewrite letters_text in C. exists c. split; [exact C|]. rewrite (letters_alts beyond (SAtom ABoundary QOne SEnd) (RSeq RBound RNil) (d :: w) eq_refl) in S. exact S.
Qed.
Lemma compiled_prefix : forall d w, plain_delim d -> is_name w ->
  exists c, compile beyond ([d] ++ (w ++ $".*?") ++ $"\b") = Some c /\ same (c_re c) (bytes_then (RSeq (RStar false any_char) (RSeq RBound RNil)) (d :: w)).
Proof.
  intros d w (L & N & _) (_ & F). destruct (compiled_syn beyond (letters_then (SAtom AAny (QStar true) (SAtom ABoundary QOne SEnd)) (d :: w))) as (c & C & S & _).
  { apply letters_ok; [constructor; [split; assumption | eapply Forall_impl; [|exact F]; apply word_plain] | cbn; repeat split]. }
  rewrite letters_text in C. exists c. split; [rewrite <- C; f_equal; cbn [app]; rewrite <- app_assoc; reflexivity|].
  rewrite (letters_alts beyond (SAtom AAny (QStar true) (SAtom ABoundary QOne SEnd)) (RSeq (RStar false any_char) (RSeq RBound RNil)) (d :: w) eq_refl) in S. exact S.
Qed.
Lemma delim_facts : forall d, plain_delim d -> low d = true /\ word_char d = false.
Proof. intros d (L & _ & W). split; [|exact W]. unfold low_char in L. unfold low. lia. Qed.
Lemma ignore_name : forall d a w b s, plain_delim d -> is_name w -> white a -> white b ->
  ignore_one beyond [d] (a ++ w ++ b) s = Some (hide d literal_at (fun x => str_eqb (name_of x) w) s).
Proof.
  intros d a w b s D W A B. unfold ignore_one. pose proof W as (NE & F). rewrite (trim_unique (a ++ w ++ b) w) by (exists a, b; repeat split; try assumption; apply (solid_tight w (words_solid w F))).
  replace (str_eqb w []) with false by (symmetry; apply not_true_is_false; intros E; apply str_eqb_eq in E; exact (NE E)).
  change $"*" with ["*"]. change $"+" with ["+"]. rewrite !ends_not by (exact F || reflexivity). cbn [orb]. destruct (compiled_name d w D W) as (c & C & S). rewrite C. f_equal. destruct (delim_facts d D). apply finds_replace; [assumption..|]. exact (finds_name _ d w W S).
Qed.
Lemma ignore_prefix : forall d a w b s, plain_delim d -> is_name w -> white a -> white b ->
  ignore_one beyond [d] (a ++ (w ++ $".*") ++ b) s = Some (hide d literal_at (begins w) s).
Proof.
  intros d a w b s D W A B. unfold ignore_one. pose proof W as (NE & F).
  rewrite (trim_unique (a ++ (w ++ $".*") ++ b) (w ++ $".*")).
  2: { exists a, b. split; [reflexivity|]. split; [exact A|]. split; [exact B|]. apply solid_tight. apply Forall_app. split; [exact (words_solid w F) | repeat constructor; reflexivity]. }
  replace (str_eqb (w ++ $".*") []) with false by (symmetry; apply not_true_is_false; intros E; apply str_eqb_eq in E; destruct w; discriminate E).
  replace (has_suffix $"*" (w ++ $".*")) with true by (unfold has_suffix; rewrite rev_app_distr; reflexivity). cbn [orb].
  destruct (compiled_prefix d w D W) as (c & C & S). replace ((w ++ $".*") ++ $"?") with (w ++ $".*?") by (rewrite <- app_assoc; reflexivity). rewrite C. f_equal. destruct (delim_facts d D). apply finds_replace; [assumption..|]. exact (finds_prefix _ d w W S).
Qed.

(** ** Lists *)
Lemma name_hide : forall d mark h r, (forall x t, r = x ++ d :: t -> ~ Forall (fun c => word_char c = true) x) -> name_of (hide d mark h r) = name_of r.
Proof.
  intros d mark h. induction r as [|c r IH]; intros A; [reflexivity|]. cbn [hide]. destruct (Ascii.eqb_spec c d) as [->|NE]; [exfalso; apply (A [] r eq_refl); constructor|]. cbn [andb app name_of].
  destruct (word_char c) eqn:W; [|reflexivity]. f_equal. apply IH. intros x t E F. apply (A (c :: x) t); [rewrite E; reflexivity | constructor; assumption].
Qed.
Lemma hide_twice : forall d mark l w s, ~ In d mark -> apart d s ->
  hide d mark (fun x => str_eqb (name_of x) w) (hide d mark (named l) s) = hide d mark (named (l ++ [w])) s.
Proof.
  intros d mark l w s N. induction s as [|c r IH]; intros A; [reflexivity|].
  assert (AR : apart d r) by (intros u x t E; apply (A (c :: u) x t); rewrite E; reflexivity). cbn [hide]. unfold named in *. rewrite existsb_app. cbn [existsb]. rewrite orb_false_r. destruct (Ascii.eqb_spec c d) as [->|NE].
  - cbn [andb]. destruct (existsb (str_eqb (name_of r)) l) eqn:X.
    + cbn [orb]. rewrite hide_other by exact N. rewrite IH by exact AR. reflexivity.
    + cbn [orb app hide]. rewrite Ascii.eqb_refl. cbn [andb]. rewrite name_hide by (intros x t E; apply (A [] x t); rewrite E; reflexivity). rewrite IH by exact AR. reflexivity.
  - cbn [andb app hide]. destruct (Ascii.eqb_spec c d) as [->|_]; [contradiction|]. cbn [andb app]. rewrite IH by exact AR. reflexivity.
Qed.
Lemma hide_none : forall d mark s, hide d mark (named []) s = s.
Proof. intros d mark. induction s as [|c s IH]; [reflexivity|]. cbn [hide named existsb]. rewrite andb_false_r. cbn [app]. rewrite IH. reflexivity. Qed.
Lemma name_trivial : forall d w s, plain_delim d -> is_name w -> ignore_one beyond [d] w s = Some (hide d literal_at (fun x => str_eqb (name_of x) w) s).
Proof. intros d w s D W. pose proof (ignore_name d [] w [] s D W) as H. cbn [app] in H. rewrite app_nil_r in H. apply H; constructor. Qed.
Lemma ignore_names : forall d l s, plain_delim d -> d <> "=" -> d <> "!" -> Forall is_name l -> apart d s ->
  ignore_all beyond [d] l s = Some (hide d literal_at (named l) s).
Proof.
  intros d l s D N1 N2 F A. assert (NL : ~ In d literal_at).
  { destruct D as (_ & _ & W). intros I. cbn in I. repeat (destruct I as [<-|I]; [first [discriminate W | apply N1; reflexivity | apply N2; reflexivity]|]). destruct I. }
  assert (X : forall l done, Forall is_name l -> ignore_all beyond [d] l (hide d literal_at (named done) s) = Some (hide d literal_at (named (done ++ l)) s)).
  { clear l F. induction l as [|w l IH]; intros done F; [rewrite app_nil_r; reflexivity|]. inversion F as [|? ? W F']; subst. cbn [ignore_all]. rewrite name_trivial by assumption. rewrite hide_twice by assumption. rewrite IH by exact F'. rewrite <- app_assoc. reflexivity. }
  specialize (X l [] F). rewrite hide_none in X. exact X.
Qed.
Lemma ignore_empty : forall delim l s, ignore_all beyond delim (filter (fun e => negb (str_eqb e [])) l) s = ignore_all beyond delim l s.
Proof.
  intros delim l. induction l as [|e l IH]; intros s; [reflexivity|]. cbn [filter]. destruct (str_eqb e []) eqn:E; cbn [negb].
  - apply str_eqb_eq in E. subst e. exact (IH s).
  - cbn [ignore_all]. destruct (ignore_one beyond delim e s); [apply IH | reflexivity].
Qed.

(** ** The environment *)
Definition texts (T : separator -> str) (l : list (str * list separator)) : str := flat_map (fun x => fst x ++ flat_map T (snd x)) l.
Lemma replace_texts : forall old T T' l, old <> [] -> Forall (fun x => Forall (fun c => ~ In c old) (fst x)) l ->
  (forall x R, replace_all old $"," (T x ++ R) = T' x ++ replace_all old $"," R) -> replace_all old $"," (texts T l) = texts T' l.
Proof.
  intros old T T' l NE F H. induction F as [|[e q] l E F IH]; [reflexivity|].
  change (texts T ((e, q) :: l)) with ((e ++ flat_map T q) ++ texts T l). change (texts T' ((e, q) :: l)) with ((e ++ flat_map T' q) ++ texts T' l). cbn [fst] in E.
  rewrite <- !app_assoc. rewrite replace_pass; [|exact NE|intros x I; rewrite Forall_forall in E; exact (E x I)]. f_equal.
  rewrite <- IH. clear IH. generalize (texts T l). intros R0. induction q as [|x q IH]; [reflexivity|]. cbn [flat_map]. rewrite <- !app_assoc, H, IH. reflexivity.
Qed.
Definition after1 (x : separator) : str := match x with Blank => $" " | Newline => ["010"] | _ => $"," end.
Definition after2 (x : separator) : str := match x with Blank => $" " | _ => $"," end.
Definition after3 (x : separator) : str := $",".
Lemma entries_free : forall old l, (forall c, In c old -> In c [","; " "; "010"; "013"]) -> Forall (fun x => fst x <> [] /\ Forall entry_char (fst x)) l -> Forall (fun x : str * list separator => Forall (fun c => ~ In c old) (fst x)) l.
Proof. intros old l S F. eapply Forall_impl; [|exact F]. intros x (_ & E). eapply Forall_impl; [|exact E]. intros c N I. exact (N (S c I)). Qed.
Lemma split_texts : forall l, Forall (fun x => fst x <> [] /\ Forall entry_char (fst x)) l -> separated l ->
  filter (fun e => negb (str_eqb e [])) (split $"," (texts after3 l)) = map fst l.
Proof.
  intros l F. induction F as [|[e q] l (NE & E) F IH]; intros S; [reflexivity|]. cbn [fst] in *.
  assert (NI : ~ In "," e) by (intros I; rewrite Forall_forall in E; apply (E _ I); left; reflexivity).
  assert (K : negb (str_eqb e []) = true) by (apply negb_true_iff, not_true_is_false; intros Z; apply str_eqb_eq in Z; exact (NE Z)).
  assert (Q : forall q R, filter (fun e => negb (str_eqb e [])) (split $"," (flat_map after3 q ++ R)) = filter (fun e => negb (str_eqb e [])) (split $"," R)).
  { clear. induction q as [|x q IH]; intros R; [reflexivity|]. change (flat_map after3 (x :: q) ++ R) with ("," :: (flat_map after3 q ++ R)). change $"," with [","]. rewrite split1_cons_sep. cbn [filter]. exact (IH R). }
  change (texts after3 ((e, q) :: l)) with ((e ++ flat_map after3 q) ++ texts after3 l). rewrite <- app_assoc. cbn [map fst]. destruct q as [|x q].
  - destruct l as [|y l]; [|destruct S as (S & _); exfalso; apply S; reflexivity]. cbn [flat_map texts app]. rewrite app_nil_r. change $"," with [","]. rewrite split1_notIn by exact NI. cbn [filter]. rewrite K. reflexivity.
  - change (flat_map after3 (x :: q) ++ texts after3 l) with ("," :: (flat_map after3 q ++ texts after3 l)). change $"," with [","]. rewrite split1_app by exact NI. cbn [filter]. rewrite K. f_equal. change [","] with $",". rewrite Q. apply IH. destruct l as [|y l]; [exact I | exact (proj2 S)].
Qed.
Lemma env_list : forall convert c e q l, ascii_letter (N_of_ascii c) = true ->
  Forall (fun x => fst x <> [] /\ Forall entry_char (fst x)) ((c :: e, q) :: l) -> separated ((c :: e, q) :: l) ->
  exists found, env_ignored beyond convert (value_text ((c :: e, q) :: l)) = Some found /\ filter (fun e => negb (str_eqb e [])) found = map fst ((c :: e, q) :: l).
Proof.
  intros convert c e q l C F S. eexists. unfold env_ignored. change (value_text ((c :: e, q) :: l)) with (texts separator_text ((c :: e, q) :: l)).
  assert (L : letter beyond (N_of_ascii c) = true) by (revert C; unfold ascii_letter, is_in, letter, between; destruct (N.ltb_spec (N_of_ascii c) 128); lia).
  change (texts separator_text ((c :: e, q) :: l)) with (c :: ((e ++ flat_map separator_text q) ++ texts separator_text l)) at 1. cbn iota. rewrite L. split; [reflexivity|].
  change (split [","]) with (split $","). rewrite <- (split_texts _ F S). do 2 f_equal.
  rewrite (replace_texts ["013"; "010"] separator_text after1); [|discriminate|apply entries_free; [cbn; tauto | exact F]|].
  2: { intros [] R; [apply (replace_all_cons _ _ "," R); reflexivity | apply (replace_all_cons _ _ " " R); reflexivity | apply (replace_all_cons _ _ "010" R); reflexivity | apply (replace_all_sep ["013"; "010"] $"," R); discriminate]. }
  rewrite (replace_texts ["010"] after1 after2); [|discriminate|apply entries_free; [cbn; tauto | exact F]|].
  2: { intros [] R; [apply (replace_all_cons _ _ "," R); reflexivity | apply (replace_all_cons _ _ " " R); reflexivity | apply (replace_all_sep ["010"] $"," R); discriminate | apply (replace_all_cons _ _ "," R); reflexivity]. }
  apply (replace_texts $" " after2 after3); [discriminate|apply entries_free; [cbn; tauto | exact F]|].
  intros [] R; [apply (replace_all_cons _ _ "," R); reflexivity | apply (replace_all_sep $" " $"," R); discriminate | apply (replace_all_cons _ _ "," R); reflexivity | apply (replace_all_cons _ _ "," R); reflexivity].
Qed.
End Ignore.
