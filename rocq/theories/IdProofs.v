(** Proofs about the function id. *)
From Coq Require Import String Ascii List ZArith NArith Bool Lia ZifyBool ZifyN.
From Verif Require Import GoStr GoStrFacts Utf8 Utf8Facts ReModel ReSyntaxModel RazorWordsModel RazorAssignModel ReSound RegexSpec RegexProofs RegexProofs4 RegexProofs5 IdModel IdSpec.
Import ListNotations.
Local Open Scope char_scope.

(** ** Replacing single characters *)
Lemma next_taken : forall p : place, snd p <> [] -> taken p (next_place p) = firstn (snd (decode (snd p))) (snd p).
Proof. intros [b s] N. unfold taken, next_place. cbn [fst snd]. rewrite skipn_length. pose proof (decode_width s N) as W. f_equal. lia. Qed.
Definition is_char_re (r : re) (f : N -> bool) : Prop :=
  forall (p : place), match_at r p = match snd p with [] => None | _ => if f (fst (decode (snd p))) then Some (next_place p, []) else None end.
Lemma same_match : forall a b, same a b -> forall p, match_at a p = match_at b p.
Proof. intros a b H p. unfold match_at. apply H. Qed.
Lemma rune_re : forall c f, same c (RSeq (RRune (CTest f)) RNil) -> is_char_re c f.
Proof.
  intros c f H p. rewrite (same_match _ _ H). unfold match_at. cbn [rmatch]. destruct p as [b s]. cbn [snd]. destruct s as [|x s]; [reflexivity|]. unfold next_place. cbn [snd]. destruct (decode (x :: s)) as [n w]. cbn [fst snd in_class]. reflexivity.
Qed.
Lemma char_scan : forall r f repl s b last, is_char_re r f ->
  exists l, scan r last (b, s) l /\ flat_map (part_output repl) l = flat_map (fun c => if f (fst c) then repl (snd c) [] else snd c) (chunks s).
Proof.
  intros r f repl s. induction s as [s IH] using str_len_ind. intros b last H. destruct s as [|x s].
  - exists []. split; [|reflexivity]. apply sc_end; [reflexivity|]. intros q g (M & _). pose proof (eq_trans (eq_sym M) (H _)) as X. discriminate X.
  - assert (NE : x :: s <> []) by discriminate. pose proof (decode_width (x :: s) NE) as W. pose proof (H (b, x :: s)) as M. cbn [snd] in M. rewrite (chunks_cons (x :: s) NE). cbn [flat_map fst snd].
    set (w := snd (decode (x :: s))) in *. assert (L : length (skipn w (x :: s)) < length (x :: s)) by (rewrite skipn_length; lia).
    assert (T : taken (b, x :: s) (next_place (b, x :: s)) = firstn w (x :: s)) by (apply next_taken; discriminate).
    assert (TN : firstn w (x :: s) <> []) by (intros E; apply (f_equal (@length ascii)) in E; rewrite firstn_length in E; cbn [length] in *; lia).
    destruct (f (fst (decode (x :: s)))) eqn:F.
    + destruct (IH (skipn w (x :: s)) L (fst (next_place (b, x :: s))) true H) as (l & SC & O). exists (Matched (firstn w (x :: s)) [] :: l). split; [|cbn [flat_map part_output]; rewrite O; reflexivity].
      rewrite <- T. apply (sc_match r last (b, x :: s) (next_place (b, x :: s))); [split; [exact M | intros _; rewrite T; exact TN] | rewrite T; exact TN | exact SC].
    + destruct (IH (skipn w (x :: s)) L (fst (next_place (b, x :: s))) false H) as (l & SC & O). exists (Copied (firstn w (x :: s)) :: l). split; [|cbn [flat_map part_output]; rewrite O; reflexivity].
      apply (sc_copy r last (b, x :: s)); [discriminate | intros q g (MM & _); congruence | exact SC].
Qed.
Lemma char_replaced : forall r f repl s, is_char_re r f -> replace_re r repl s = flat_map (fun c => if f (fst c) then repl (snd c) [] else snd c) (chunks s).
Proof.
  intros r f repl s H. destruct (char_scan r f repl s None false H) as (l & SC & O). rewrite <- O. unfold replace_re. apply scan_search; [cbn [snd]; lia | exact SC].
Qed.
(** ** Replacing runs of a text *)
Definition is_text_re (a : re) (r : str) : Prop :=
  forall T (p : place) g (k : place -> groups -> option T), exists b, rmatch a p g k = if has_prefix r (snd p) then k (b, skipn (length r) (snd p)) g else None.
Lemma starts_iff : forall r s, has_prefix r s = true <-> starts r s.
Proof. intros r s. apply has_prefix_iff. Qed.
Lemma starts_not : forall r s, has_prefix r s = false <-> ~ starts r s.
Proof. intros r s. rewrite <- starts_iff. destruct (has_prefix r s); split; congruence. Qed.
Lemma skip_text : forall (r s : str), skipn (length r) (r ++ s) = s.
Proof. intros r s. rewrite skipn_app, skipn_all, Nat.sub_diag. reflexivity. Qed.
Definition got (p : place) (g : groups) : option (place * groups) := Some (p, g).
Lemma star_runs : forall a r, is_text_re a r -> r <> [] -> forall m t b g n, ~ starts r t -> length (repeated m r ++ t) <= n ->
  exists b', star_loop true (fun p g k => rmatch a p g k) got n (b, repeated m r ++ t) g = got (b', t) g.
Proof.
  intros a r A NE. induction m as [|m IH]; intros t b g n N L.
  - exists b. cbn [repeated app] in *. destruct n as [|n]; [reflexivity|]. cbn [star_loop].
    match goal with |- context[rmatch a ?p g ?k] => destruct (A _ p g k) as (b1 & E) end. rewrite E. cbn [snd]. apply starts_not in N. rewrite N. reflexivity.
  - cbn [repeated] in *. rewrite <- app_assoc in *. assert (LR : 0 < length r) by (destruct r; [contradiction | cbn; lia]). rewrite app_length in L. destruct n as [|n]; [lia|]. cbn [star_loop].
    match goal with |- context[rmatch a ?p g ?k] => destruct (A _ p g k) as (b1 & E) end. rewrite E. cbn [snd]. rewrite has_prefix_app, skip_text.
    assert (LT : Nat.ltb (length (repeated m r ++ t)) (length (r ++ repeated m r ++ t)) = true) by (apply Nat.ltb_lt; rewrite (app_length r); lia). rewrite LT.
    destruct (IH t b1 g n N) as (b' & S); [lia|]. exists b'. rewrite S. reflexivity.
Qed.
Lemma runs_match : forall c a r, same c (RSeq (RSeq a (RStar true a)) RNil) -> is_text_re a r -> r <> [] -> forall b s,
  (~ starts r s -> match_at c (b, s) = None) /\ (forall n t, s = repeated (S n) r ++ t -> ~ starts r t -> exists b', match_at c (b, s) = Some ((b', t), [])).
Proof.
  intros c a r S A NE b s. rewrite (same_match _ _ S). unfold match_at. cbn [rmatch]. match goal with |- context[rmatch a ?p ?g ?k] => destruct (A _ p g k) as (b1 & E) end. rewrite E. cbn [snd]. split.
  - intros N. apply starts_not in N. rewrite N. reflexivity.
  - intros n t -> N. cbn [repeated]. rewrite <- app_assoc, has_prefix_app, skip_text. apply (star_runs a r A NE n t b1 [] (length (repeated n r ++ t)) N). lia.
Qed.
Lemma repeated_length : forall n r, length (repeated n r) = n * length r.
Proof. induction n as [|n IH]; intros r; [reflexivity|]. cbn [repeated Nat.mul]. rewrite app_length, IH. reflexivity. Qed.
Lemma run_scan : forall c a r repl s u, same c (RSeq (RSeq a (RStar true a)) RNil) -> is_text_re a r -> r <> [] -> (forall m g, repl m g = r) -> collapsed r s u ->
  forall b last, exists l, scan c last (b, s) l /\ flat_map (part_output repl) l = u.
Proof.
  intros c a r repl s u S A NE RP C. induction C as [|n t u N C IH|s u NS N C IH]; intros b last.
  - exists []. split; [|reflexivity]. apply sc_end; [reflexivity|]. intros q g (M & _). destruct (runs_match c a r S A NE b []) as (X & _). rewrite X in M; [discriminate M|]. intros (t & E). destruct r; [contradiction | discriminate E].
  - destruct (runs_match c a r S A NE b (repeated (Datatypes.S n) r ++ t)) as (_ & X). destruct (X n t eq_refl N) as (b' & M). destruct (IH b' true) as (l & SC & O).
    assert (T : taken (b, repeated (Datatypes.S n) r ++ t) (b', t) = repeated (Datatypes.S n) r) by (unfold taken; cbn [snd]; rewrite app_length, Nat.add_sub, firstn_app, firstn_all, Nat.sub_diag, firstn_O, app_nil_r; reflexivity).
    assert (TN : repeated (Datatypes.S n) r <> []) by (cbn [repeated]; destruct r; [contradiction | discriminate]).
    exists (Matched (repeated (Datatypes.S n) r) [] :: l). split; [|cbn [flat_map part_output]; rewrite RP, O; reflexivity]. pose proof (sc_match c last (b, repeated (Datatypes.S n) r ++ t) (b', t) [] l) as SM. rewrite T in SM.
    apply SM; [split; [exact M | intros _; rewrite T; exact TN] | exact TN | exact SC].
  - destruct (IH (fst (next_place (b, s))) false) as (l & SC & O). exists (Copied (firstn (snd (decode s)) s) :: l). split; [|cbn [flat_map part_output]; rewrite O; reflexivity].
    apply (sc_copy c last (b, s)); [exact NS | intros q g (M & _); destruct (runs_match c a r S A NE b s) as (X & _); pose proof (eq_trans (eq_sym M) (X N)) as Y; discriminate Y | exact SC].
Qed.
Lemma runs_replaced : forall c a r repl s u, same c (RSeq (RSeq a (RStar true a)) RNil) -> is_text_re a r -> r <> [] -> (forall m g, repl m g = r) -> collapsed r s u -> replace_re c repl s = u.
Proof.
  intros c a r repl s u S A NE RP C. destruct (run_scan c a r repl s u S A NE RP C None false) as (l & SC & O). rewrite <- O. unfold replace_re. apply scan_search; [cbn [snd]; lia | exact SC].
Qed.
Lemma collapsed_exists : forall r s, r <> [] -> exists u, collapsed r s u.
Proof.
  intros r s NE. assert (LR : 0 < length r) by (destruct r; [contradiction | cbn; lia]).
  assert (RUN : forall s : str, exists (n : nat) (t : str), s = repeated n r ++ t /\ ~ starts r t).
  { intros x. pattern x. apply str_len_ind. clear x. intros x IH. destruct (has_prefix r x) eqn:H; [|exists 0, x; split; [reflexivity | apply starts_not; exact H]].
    apply starts_iff in H. destruct H as (t & ->). destruct (IH t) as (n & t' & E & N); [rewrite app_length; lia|]. exists (S n), t'. split; [cbn [repeated]; rewrite <- app_assoc, <- E; reflexivity | exact N]. }
  induction s as [s IH] using str_len_ind. destruct s as [|x s]; [exists []; apply co_end|]. destruct (RUN (x :: s)) as (n & t & E & N). destruct n as [|n].
  - cbn [repeated app] in E. subst t. pose proof (decode_width (x :: s)) as W. destruct (IH (skipn (snd (decode (x :: s))) (x :: s))) as (u & C); [rewrite skipn_length; specialize (W ltac:(discriminate)); lia|].
    eexists. apply co_char; [discriminate | exact N | exact C].
  - destruct (IH t) as (u & C); [rewrite E, app_length, repeated_length; lia|]. exists (r ++ u). rewrite E. apply co_run; assumption.
Qed.
(** ** The expressions of the code *)
Lemma bytes_text : forall r, is_text_re (fold_right (fun c x => RSeq (RByte (Ascii.eqb c)) x) RNil r) r.
Proof.
  induction r as [|c r IH]; intros T [b s] g k; cbn [fold_right rmatch snd].
  - exists b. destruct s; reflexivity.
  - destruct s as [|d s]; [exists b; reflexivity|]. cbn [has_prefix length skipn]. destruct (Ascii.eqb c d); [|exists b; reflexivity]. destruct (IH T (Some d, s) g k) as (b' & E). exists b'. rewrite E. reflexivity.
Qed.
Lemma one_text : forall c, is_text_re (RByte (Ascii.eqb c)) [c].
Proof.
  intros c T [b s] g k. cbn [rmatch snd]. destruct s as [|d s]; [exists b; reflexivity|]. cbn [has_prefix length skipn]. exists (Some d). destruct (Ascii.eqb c d); [|reflexivity]. destruct s; reflexivity.
Qed.
Section Id.
Variable beyond : N -> bool.
Lemma valid_ok : exists c, valid_chars beyond = Some c /\ is_char_re (c_re c) (fun n => negb (kept beyond n)).
Proof.
  destruct (compiled_syn beyond (SAtom (AClass true [ISet XLetter; ISet XDigit; IChar (XPlain "_")]) QOne SEnd)) as (c & C & S & _).
  { cbn. repeat split; try discriminate. repeat (apply Forall_cons; [cbn; try exact I|]); [split; [reflexivity | cbn; intuition discriminate] | apply Forall_nil]. }
  exists c. split; [exact C|]. apply rune_re in S. intros p. rewrite (S p). destruct (snd p) as [|x s]; [reflexivity|]. f_equal.
  assert (E : forall n, xorb true (existsb (fun i => item_has beyond i n) [ISet XLetter; ISet XDigit; IChar (XPlain "_")]) = negb (kept beyond n)); [|rewrite E; reflexivity].
  intros n. rewrite xorb_true_l. f_equal. cbn [existsb item_has set_has]. unfold ascii_letter, is_in, kept. change (char_code (XPlain "_")) with 95%N. lia.
Qed.
Definition escaped : str := $"+.?()[]{}\".
Lemma special_ok : exists c, regex_special beyond = Some c /\ is_char_re (c_re c) (fun n => existsb (fun d => N.eqb n (N_of_ascii d)) escaped).
Proof.
  destruct (compiled_syn beyond (SAtom (AClass false (map (fun d => IChar (XQuoted d)) escaped)) QOne SEnd)) as (c & C & S & _).
  { cbn. repeat split; try discriminate. repeat (apply Forall_cons; [split; [reflexivity | reflexivity]|]). apply Forall_nil. }
  exists c. split; [exact C|]. apply rune_re in S. intros p. rewrite (S p). destruct (snd p); [reflexivity|]. rewrite xorb_false_l. reflexivity.
Qed.
Lemma under_ok : exists c, duplicate_underscore beyond = Some c /\ same (c_re c) (RSeq (RSeq (RByte (Ascii.eqb "_")) (RStar true (RByte (Ascii.eqb "_")))) RNil).
Proof.
  destruct (compiled_syn beyond (SAtom (AChar (XPlain "_")) (QPlus false) SEnd)) as (c & C & S & _).
  { cbn. repeat split; try reflexivity. intuition discriminate. }
  exists c. split; [exact C | exact S].
Qed.
Definition written (c : ascii) : xchar := if existsb (fun d => N.eqb (N_of_ascii c) (N_of_ascii d)) escaped then XQuoted c else XPlain c.
Definition letters (r : str) : syn := fold_right (fun c x => SAtom (AChar (written c)) QOne x) SEnd r.
Lemma letters_ok : forall r, plain_replacement r -> syn_ok (letters r).
Proof.
  intros r (_ & F). induction F as [|c r (L & N) F IH]; [exact I|]. cbn [letters fold_right syn_ok]. split; [|split; [exact I | exact IH]]. cbn [atom_ok]. unfold written. destruct (existsb _ escaped) eqn:E.
  - split; [exact L|]. apply existsb_exists in E. destruct E as (d & I & E). apply N.eqb_eq in E. rewrite E. cbn in I. repeat (destruct I as [<-|I]; [reflexivity|]). destruct I.
  - split; [exact L|]. intros I. assert (J : In c ["*"; "|"; "^"; "$"] \/ In c escaped) by (cbn in I |- *; tauto). destruct J as [J|J]; [exact (N J)|].
    assert (X : existsb (fun d => N.eqb (N_of_ascii c) (N_of_ascii d)) escaped = true) by (apply existsb_exists; exists c; split; [exact J | apply N.eqb_refl]). congruence.
Qed.
Lemma letters_alts : forall r, alternatives beyond false false 0 (letters r) = [fold_right (fun c x => RSeq (RByte (Ascii.eqb c)) x) RNil r].
Proof.
  induction r as [|c r IH]; [reflexivity|]. cbn [letters fold_right alternatives atom_groups Nat.add]. change (fold_right (fun c0 x => SAtom (AChar (written c0)) QOne x) SEnd r) with (letters r). rewrite IH. cbn [quant_re atom_re].
  unfold written. destruct (existsb _ escaped); cbn [char_code]; rewrite ascii_N_embedding; reflexivity.
Qed.
Lemma chunks_low : forall r, Forall (fun c => (N_of_ascii c < 128)%N) r -> chunks r = map (fun c => (N_of_ascii c, [c])) r.
Proof. intros r F. induction F as [|c r L F IH]; [reflexivity|]. rewrite chunks_ascii by exact L. rewrite IH. reflexivity. Qed.
Lemma escaping : forall c r, plain_replacement r -> is_char_re (c_re c) (fun n => existsb (fun d => N.eqb n (N_of_ascii d)) escaped) -> replace_all_string c $"\$0" r = syn_text (letters r).
Proof.
  intros c r (NE & F) H. unfold replace_all_string. rewrite (char_replaced _ _ _ r H). rewrite chunks_low by (eapply Forall_impl; [|exact F]; intros x (L & _); exact L). clear NE F.
  induction r as [|x r IH]; [reflexivity|]. cbn [map flat_map fst snd letters fold_right syn_text atom_text quant_text]. change (fold_right (fun c0 y => SAtom (AChar (written c0)) QOne y) SEnd r) with (letters r). rewrite <- IH.
  unfold written. destruct (existsb (fun d => N.eqb (N_of_ascii x) (N_of_ascii d)) escaped) eqn:E; cbn [char_text app]; [|reflexivity].
  assert (X : expand (named_group (c_names c) [x] []) $"\$0" = ["\"; x]); [|rewrite X; reflexivity].
  change $"\$0" with (flat_map tpart_text [TText $"\"; TName $"0"]). rewrite expanded.
  - cbn [flat_map tpart_output]. change ($"0") with (itoa (Z.of_nat 0)). rewrite numbered_found. reflexivity.
  - cbn. repeat split; try discriminate; [intuition discriminate | repeat constructor].
Qed.
Lemma plain_expand : forall value r, ~ In "$" r -> expand value r = r.
Proof.
  intros value r N. pose proof (expanded value [TText r]) as E. cbn [flat_map tpart_text tpart_output] in E. rewrite app_nil_r in E. apply E. cbn. split; [exact N | exact I].
Qed.
Lemma id_replaced : forall s r u, plain_replacement r -> collapsed r (substituted beyond r s) u -> id_text beyond s r = Some u.
Proof.
  intros s r u P C. pose proof P as (NE & F). unfold id_text. replace (str_eqb r []) with false by (destruct r; [contradiction | reflexivity]).
  destruct valid_ok as (cv & -> & HV). destruct special_ok as (cs & -> & HS). destruct under_ok as (cu & -> & HU).
  assert (ND : ~ In "$" r) by (intros I; rewrite Forall_forall in F; destruct (F _ I) as (_ & X); apply X; cbn; tauto).
  assert (V : replace_all_string cv r s = substituted beyond r s).
  { unfold replace_all_string. rewrite (char_replaced _ _ _ s HV). unfold substituted. apply flat_map_ext. intros [n t]. rewrite plain_expand by exact ND. cbn [fst snd]. destruct (kept beyond n); reflexivity. }
  rewrite V. assert (D : exists d a, (if str_eqb r $"_" then Some cu else compile beyond ($"(?:" ++ replace_all_string cs $"\$0" r ++ $")+")) = Some d /\ same (c_re d) (RSeq (RSeq a (RStar true a)) RNil) /\ is_text_re a r).
  { destruct (str_eqb r $"_") eqn:E.
    - apply str_eqb_eq in E. subst r. exists cu, (RByte (Ascii.eqb "_")). split; [reflexivity|]. split; [exact HU | apply one_text].
    - rewrite (escaping cs r P HS). destruct (compiled_syn beyond (SAtom (APlain (letters r)) (QPlus false) SEnd)) as (d & CD & S & _).
      { cbn [syn_ok atom_ok quant_ok]. split; [exact (letters_ok r P) | split; exact I]. }
      exists d, (fold_right (fun c x => RSeq (RByte (Ascii.eqb c)) x) RNil r). split.
      + rewrite <- CD. f_equal. cbn [syn_text atom_text quant_text]. rewrite <- !app_assoc. reflexivity.
      + split; [|apply bytes_text]. cbn [alternatives atom_groups Nat.add atom_re] in S. rewrite letters_alts in S. exact S. }
  destruct D as (d & a & -> & S & A). f_equal. unfold replace_all_string. apply (runs_replaced _ a r); [exact S | exact A | exact NE | | exact C]. intros m g. apply plain_expand. exact ND.
Qed.
Lemma under_plain : plain_replacement $"_".
Proof. split; [discriminate|]. apply Forall_cons; [split; [reflexivity | cbn; intuition discriminate] | apply Forall_nil]. Qed.
Lemma id_default : forall s, id_text beyond s [] = id_text beyond s $"_".
Proof. reflexivity. Qed.
(** ** The default replacement *)
Hypothesis HE : beyond rune_error = false.
Lemma kept_valid : forall n, kept beyond n = true -> n <> rune_error.
Proof. intros n K E. subst n. unfold kept in K. rewrite HE in K. vm_compute in K. discriminate K. Qed.
Definition whole (s : str) : Prop := Forall (fun c => kept beyond (fst c) = true) (chunks s).
Lemma whole_app : forall a b, whole a -> whole b -> whole (a ++ b).
Proof.
  intros a b A B. unfold whole in *. rewrite chunks_app_valid; [apply Forall_app; split; assumption|]. eapply Forall_impl; [|exact A]. intros c K. exact (kept_valid _ K).
Qed.
Lemma whole_char : forall s, s <> [] -> kept beyond (fst (decode s)) = true -> whole (firstn (snd (decode s)) s).
Proof.
  intros s NE K. pose proof (decode_width s NE) as W. unfold whole. rewrite chunks_cons by (intros E; apply (f_equal (@length ascii)) in E; rewrite firstn_length in E; cbn [length] in E; lia). rewrite decode_firstn by exact NE.
  rewrite skipn_all2 by (rewrite firstn_length; lia). apply Forall_cons; [exact K | apply Forall_nil].
Qed.
Lemma whole_under : whole $"_".
Proof. apply Forall_cons; [reflexivity | apply Forall_nil]. Qed.
Lemma whole_subst : forall s, whole (substituted beyond $"_" s).
Proof.
  intros s. induction s as [s IH] using str_len_ind. destruct s as [|x s]; [apply Forall_nil|]. assert (NE : x :: s <> []) by discriminate. pose proof (decode_width _ NE) as W.
  unfold substituted. rewrite (chunks_cons _ NE). cbn [flat_map fst snd]. apply whole_app; [|apply IH; rewrite skipn_length; lia]. destruct (kept beyond (fst (decode (x :: s)))) eqn:K; [apply whole_char; assumption | exact whole_under].
Qed.
Lemma whole_rest : forall s, s <> [] -> whole s -> kept beyond (fst (decode s)) = true /\ whole (skipn (snd (decode s)) s).
Proof. intros s NE H. unfold whole in H. rewrite (chunks_cons _ NE) in H. inversion H; subst. split; assumption. Qed.
Lemma whole_after : forall a b, whole a -> whole (a ++ b) -> whole b.
Proof.
  intros a b A B. unfold whole in *. rewrite chunks_app_valid in B; [apply Forall_app in B; apply B|]. eapply Forall_impl; [|exact A]. intros c K. exact (kept_valid _ K).
Qed.
Lemma whole_runs : forall n, whole (repeated n $"_").
Proof. induction n as [|n IH]; [apply Forall_nil|]. cbn [repeated]. apply whole_app; [exact whole_under | exact IH]. Qed.
Lemma whole_collapsed : forall s u, collapsed $"_" s u -> whole s -> whole u.
Proof.
  intros s u C. induction C as [|n t u N C IH|s u NS N C IH]; intros H; [apply Forall_nil | |].
  - apply whole_app; [exact whole_under|]. apply IH. exact (whole_after _ _ (whole_runs (S n)) H).
  - destruct (whole_rest s NS H) as [K R]. apply whole_app; [apply whole_char; assumption | apply IH; exact R].
Qed.
Lemma subst_whole : forall s, whole s -> substituted beyond $"_" s = s.
Proof.
  intros s H. unfold substituted. rewrite <- (bytes_chunks s) at 2. unfold bytes. unfold whole in H. induction H as [|[n t] l K H IH]; [reflexivity|]. cbn [flat_map map concat fst snd] in *. rewrite K, IH. reflexivity.
Qed.
(** No two underscores follow each other. *)
Definition apart (s : str) : Prop := forall a b, s <> a ++ $"__" ++ b.
Lemma char_under : forall s, s <> [] -> ~ starts $"_" s -> ~ In "_" (firstn (snd (decode s)) s).
Proof.
  intros s NE N I. destruct s as [|c s]; [contradiction|]. destruct (low c) eqn:L.
  - rewrite (decode_low c s L) in I. cbn in I. destruct I as [I|[]]. apply N. subst c. exists s. reflexivity.
  - destruct (in_split _ _ I) as (a & b & E). assert (X : exists a', a = c :: a').
    { destruct a as [|y a]; [|exists a; pose proof (decode_width (c :: s) NE) as W; destruct (snd (decode (c :: s))); [lia|]; cbn in E; injection E as -> _; reflexivity].
      pose proof (decode_width (c :: s) NE) as W. destruct (snd (decode (c :: s))); [lia|]. cbn in E. injection E as E _. subst c. vm_compute in L. discriminate L. }
    destruct X as (a' & ->). pose proof (decode_cut (c :: a') "_" b ltac:(discriminate) eq_refl) as DC. rewrite <- app_comm_cons in E, DC. cbn [app] in E, DC.
    pose proof (decode_firstn (c :: s) NE) as DF. rewrite E in DF. assert (DD : decode (c :: a' ++ "_" :: b) = decode (c :: a')) by exact DC. rewrite DD in DF.
    pose proof (decode_width (c :: a') ltac:(discriminate)) as W1. rewrite DF in W1. apply (f_equal (@length ascii)) in E. rewrite firstn_length in E. cbn [length] in *. rewrite app_length in E. cbn [length] in E. lia.
Qed.
Lemma apart_collapsed : forall s u, collapsed $"_" s u -> apart u /\ (starts $"_" u -> starts $"_" s).
Proof.
  intros s u C. induction C as [|n t u N C (IH & IS)|s u NS N C (IH & IS)].
  - split; [intros a b E; destruct a; discriminate E | intros H; exact H].
  - split.
    + intros a b E. destruct a as [|x a]; [|cbn [app] in E; injection E as _ E; exact (IH a b E)]. injection E as E. apply N, IS. exists b. exact E.
    + intros _. cbn [repeated]. rewrite <- app_assoc. eexists. reflexivity.
  - pose proof (char_under s NS N) as NU. split.
    + intros a b E. set (w := firstn (snd (decode s)) s) in *. clearbody w. revert a E. induction w as [|x w IHw]; intros a E; [exact (IH a b E)|].
      destruct a as [|y a]; [cbn [app] in E; injection E as E _; apply NU; left; exact E|]. cbn [app] in E. injection E as _ E. apply (IHw (fun I => NU (or_intror I)) a E).
    + intros (t & E). pose proof (decode_width s NS) as W. destruct (firstn (snd (decode s)) s) as [|x w] eqn:EW.
      * apply (f_equal (@length ascii)) in EW. rewrite firstn_length in EW. cbn [length] in EW. lia.
      * cbn [app] in E. injection E as E _. exfalso. apply NU. left. exact E.
Qed.
Lemma collapsed_apart : forall s, apart s -> collapsed $"_" s s.
Proof.
  intros s. induction s as [s IH] using str_len_ind. intros H. destruct s as [|x s]; [apply co_end|]. destruct (has_prefix $"_" (x :: s)) eqn:P.
  - apply starts_iff in P. destruct P as (t & E). rewrite E. change ($"_" ++ t) with (repeated 1 $"_" ++ t) at 1. apply (co_run $"_" 0 t t).
    + intros (t' & E'). apply (H [] t'). rewrite E, E'. reflexivity.
    + apply IH; [rewrite E; cbn; lia|]. intros a b E'. apply (H ("_" :: a) b). rewrite E, E'. reflexivity.
  - assert (NE : x :: s <> []) by discriminate. pose proof (decode_width _ NE) as W. rewrite <- (firstn_skipn (snd (decode (x :: s))) (x :: s)) at 2. apply co_char; [exact NE | apply starts_not; exact P|]. apply IH; [rewrite skipn_length; lia|].
    intros a b E. apply (H (firstn (snd (decode (x :: s))) (x :: s) ++ a) b). rewrite <- app_assoc, <- E. symmetry. apply firstn_skipn.
Qed.
End Id.
