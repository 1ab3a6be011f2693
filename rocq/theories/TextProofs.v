(** Proofs: wrapping, centering, indentation, lines. *)
From Coq Require Import String Ascii List ZArith NArith Bool Lia.
From Verif Require Import GoStr GoStrFacts Utf8 Utf8Facts ValueModel ValueFacts TextModel TextSpec.
Import ListNotations.
Local Open Scope Z_scope.

Lemma white_all_space : forall s, white s <-> all_space s.
Proof.
  intro s. rewrite all_space_forall, Forall_forall. unfold white. split.
  - intros H [r b] Hin. exact (H r b Hin).
  - intros H r b Hin. exact (H (r, b) Hin).
Qed.

Lemma starts_solid_iff : forall s, starts_solid s <-> starts_nonspace s.
Proof.
  intro s. split.
  - intros (r & b & rest & H & Hr). exists (r, b), rest. split; assumption.
  - intros ([r b] & rest & H & Hr). exists r, b, rest. split; assumption.
Qed.

(** ** Wrapping *)

Lemma slen_app : forall a b, slen (a ++ b) = slen a + slen b.
Proof. intros. unfold slen. rewrite app_length. lia. Qed.
Lemma slen_nonneg : forall a, 0 <= slen a.
Proof. intro. unfold slen. lia. Qed.

Lemma join_snoc : forall sep l x, l <> [] -> join sep (l ++ [x]) = join sep l ++ sep ++ x.
Proof.
  intros sep l x. induction l as [|a l IH]; intro H; [congruence|].
  destruct l as [|b l]; [reflexivity|].
  change ((a :: b :: l) ++ [x]) with (a :: ((b :: l) ++ [x])).
  rewrite join_cons by (cbn [app]; congruence). rewrite IH by congruence.
  rewrite (join_cons sep a (b :: l)) by congruence. rewrite <- !app_assoc. reflexivity.
Qed.

Lemma wrap_words_concat : forall width words cur len,
  concat (wrap_words width words cur len) = cur ++ words.
Proof.
  intros width words. induction words as [|w ws IH]; intros cur len; cbn [wrap_words].
  - cbn [concat]. reflexivity.
  - destruct (_ && _).
    + cbn [concat]. rewrite IH. reflexivity.
    + rewrite IH, <- app_assoc. reflexivity.
Qed.

Lemma wrap_words_nonnil : forall width words cur len, wrap_words width words cur len <> [].
Proof.
  intros width words. induction words as [|w ws IH]; intros cur len; cbn [wrap_words]; [discriminate|].
  destruct (_ && _); [discriminate|apply IH].
Qed.

Lemma wrap_words_hd : forall width words cur len,
  exists more, hd [] (wrap_words width words cur len) = cur ++ more.
Proof.
  intros width words. induction words as [|w ws IH]; intros cur len; cbn [wrap_words].
  - exists []. cbn [hd]. rewrite app_nil_r. reflexivity.
  - destruct (_ && _).
    + exists []. cbn [hd]. rewrite app_nil_r. reflexivity.
    + destruct (IH (cur ++ [w]) (len + slen w + match cur with [] => 0 | _ => 1 end)) as [more ->].
      exists (w :: more). rewrite <- app_assoc. reflexivity.
Qed.

(** The groups are those of the specification. *)
Lemma wrap_words_groups : forall width (words cur : list str) base len,
  0 <= base -> Forall (fun w : str => w <> []) (cur ++ words) ->
  len = base + slen (join [SP] cur) ->
  ((2 <= List.length cur)%nat -> len <= width + 1) ->
  wrap_groups width base (wrap_words width words cur len).
Proof.
  intros width words. induction words as [|w ws IH]; intros cur base len Hb F Hlen H2; cbn [wrap_words].
  - cbn [wrap_groups]. unfold slen in Hlen. split; [|exact I]. intro G. specialize (H2 G). lia.
  - assert (Hw : w <> []).
    { rewrite Forall_forall in F. apply F. apply in_or_app. right. left. reflexivity. }
    assert (Lw : 0 < slen w) by (destruct w; [congruence|]; unfold slen; simpl; lia).
    destruct ((0 <? len) && (width <? len + slen w)) eqn:C.
    + apply andb_true_iff in C as [C1 C2]. apply Z.ltb_lt in C1, C2.
      destruct (wrap_words_hd width ws [w] (slen w)) as [more Hd].
      assert (G : wrap_groups width 0 (wrap_words width ws [w] (slen w))).
      { apply IH; [lia| |reflexivity|cbn [List.length]; lia].
        apply Forall_app in F as [_ F]. exact F. }
      destruct (wrap_words width ws [w] (slen w)) as [|g2 rest] eqn:W;
        [exfalso; exact (wrap_words_nonnil _ _ _ _ W)|].
      cbn [hd app] in Hd. subst g2.
      cbn [wrap_groups]. unfold slen in *. split; [intro K; specialize (H2 K); lia|].
      split; [lia|]. split; [lia|]. exact G.
    + assert (J : slen (join [SP] (cur ++ [w])) = slen (join [SP] cur) + slen w + match cur with [] => 0 | _ => 1 end).
      { destruct cur as [|k cur]; [cbn [app join]; unfold slen; simpl; lia|].
        rewrite join_snoc by discriminate. rewrite !slen_app. unfold slen. cbn [List.length]. lia. }
      apply IH.
      * exact Hb.
      * rewrite <- app_assoc. exact F.
      * rewrite J. lia.
      * intros K. destruct cur as [|k cur]; [simpl in K; lia|].
        assert (P : 0 < len).
        { assert (k <> []) by (inversion F; assumption).
          assert (Hk : 0 < slen k) by (destruct k; [congruence|]; unfold slen; simpl; lia).
          assert (slen k <= slen (join [SP] (k :: cur))).
          { destruct cur as [|k2 cur]; [cbn [join]; lia|]. rewrite join_cons by discriminate. rewrite slen_app.
            pose proof (slen_nonneg ([SP] ++ join [SP] (k2 :: cur))). lia. }
          lia. }
        apply andb_false_iff in C as [C|C]; [apply Z.ltb_ge in C; lia|]. apply Z.ltb_ge in C. lia.
Qed.

Lemma removelast_last_concat : forall (l : list (list str)), l <> [] ->
  concat (removelast l) ++ last l [] = concat l.
Proof.
  intros l H. rewrite (app_removelast_last [] H) at 3. rewrite concat_app. cbn [concat]. rewrite app_nil_r. reflexivity.
Qed.

Lemma words_nonnil : forall s, Forall (fun w => w <> []) (fields s).
Proof. intro s. eapply Forall_impl; [|apply fields_words]. intros w [H _]. exact H. Qed.

(** The shape of a wrapped line. *)
Lemma wrap_line_shape : forall width line,
  (white line /\ wrap_line width line = [[]]) \/
  (~ white line /\ exists ind groups,
     white ind /\ (exists rest, line = ind ++ rest /\ starts_solid rest) /\
     concat groups = fields line /\
     wrap_groups width (Z.of_nat (List.length ind)) groups /\
     wrap_line width line = map (join [SP]) (removelast groups) ++ [ind ++ join [SP] (last groups [])]).
Proof.
  intros width line. unfold wrap_line. destruct (is_blank line) eqn:B.
  - left. split; [|reflexivity]. apply white_all_space. exact B.
  - right. split; [rewrite white_all_space; unfold all_space; congruence|].
    exists (leading_space line), (wrap_words width (fields (trim_right_space line)) [] (slen (leading_space line))).
    split; [apply white_all_space; apply leading_space_all|].
    split.
    { exists (trim_left_space line). split; [symmetry; apply leading_space_app|].
      apply starts_solid_iff. unfold starts_nonspace, trim_left_space.
      pose proof (span_space_app (chunks line)) as A. pose proof (span_space_snd (chunks line)) as Hs.
      destruct (snd (span_space (chunks line))) as [|c r] eqn:E.
      - rewrite app_nil_r in A. pose proof (span_space_fst (chunks line)) as F. rewrite A in F.
        apply all_space_forall in F. unfold all_space in F. congruence.
      - exists c, r. split; [|exact Hs].
        apply (chunks_suffix (fst (span_space (chunks line))) line). symmetry. exact A. }
    split; [rewrite wrap_words_concat; apply fields_trim_right|].
    split; [|reflexivity].
    apply wrap_words_groups; [lia| | |cbn [List.length]; lia].
    + cbn [app]. apply words_nonnil.
    + cbn [join]. unfold slen. simpl. lia.
Qed.

Lemma flat_map_fields_join : forall gs, Forall (Forall is_word) gs ->
  flat_map fields (map (join [SP]) gs) = concat gs.
Proof.
  intros gs F. induction F as [|g gs H F IH]; [reflexivity|].
  cbn [map flat_map concat]. rewrite fields_join_words by exact H. rewrite IH. reflexivity.
Qed.

Lemma Forall_concat_words : forall gs, Forall is_word (concat gs) -> Forall (Forall is_word) gs.
Proof.
  induction gs as [|g gs IH]; intro H; [constructor|]. cbn [concat] in H. apply Forall_app in H as [H1 H2].
  constructor; [exact H1|]. apply IH. exact H2.
Qed.

Lemma wrap_groups_nonnil : forall w b gs, wrap_groups w b gs -> gs <> [].
Proof. intros w b gs H ->. exact H. Qed.

Lemma wrap_line_fields : forall width line, flat_map fields (wrap_line width line) = fields line.
Proof.
  intros width line. destruct (wrap_line_shape width line) as [[H ->]|(_ & ind & groups & Hi & _ & Hc & Hg & ->)].
  - cbn [flat_map]. rewrite (fields_blank line) by (apply white_all_space; exact H). reflexivity.
  - assert (N0 : groups <> []) by (eapply wrap_groups_nonnil; exact Hg).
    rewrite flat_map_app. cbn [flat_map]. rewrite app_nil_r.
    rewrite fields_space_left by (apply white_all_space; exact Hi).
    assert (F : Forall (Forall is_word) groups) by (apply Forall_concat_words; rewrite Hc; apply fields_words).
    rewrite (app_removelast_last [] N0) in F. apply Forall_app in F as [F1 F2].
    rewrite flat_map_fields_join by exact F1.
    rewrite fields_join_words by (inversion F2; assumption).
    rewrite removelast_last_concat by exact N0. exact Hc.
Qed.

Lemma wrap_string_fields : forall s width, fields (wrap_string s width) = fields s.
Proof.
  intros s width. unfold wrap_string. rewrite fields_join by reflexivity.
  rewrite <- (join_split [NL] s) at 2 by discriminate. rewrite fields_join by reflexivity.
  induction (split [NL] s) as [|l ls IH]; [reflexivity|].
  cbn [flat_map]. rewrite flat_map_app, wrap_line_fields, IH. reflexivity.
Qed.

Lemma wrap_string_lines : forall s width, exists parts,
  wrap_string s width = join [NL] (concat parts) /\
  Forall2 (fun line out =>
    (white line /\ out = [[]]) \/
    (~ white line /\ exists ind groups,
       white ind /\ (exists rest, line = ind ++ rest /\ starts_solid rest) /\
       concat groups = fields line /\ wrap_groups width (Z.of_nat (List.length ind)) groups /\
       out = map (join [SP]) (removelast groups) ++ [ind ++ join [SP] (last groups [])]))
    (split [NL] s) parts.
Proof.
  intros s width. exists (map (wrap_line width) (split [NL] s)). split.
  - unfold wrap_string. rewrite flat_map_concat_map. reflexivity.
  - induction (split [NL] s) as [|l ls IH]; [constructor|]. constructor; [|exact IH]. apply wrap_line_shape.
Qed.

(** ** Centering *)

Lemma SP_ascii : (N_of_ascii SP < 128)%N.
Proof. reflexivity. Qed.

Lemma rune_count_spaces : forall n s, rune_count (spaces n ++ s) = (n + rune_count s)%nat.
Proof.
  induction n as [|n IH]; intro s; [reflexivity|].
  unfold rune_count. cbn [spaces repeat app]. rewrite chunks_ascii by exact SP_ascii.
  cbn [List.length]. change (List.length (chunks (repeat SP n ++ s))) with (rune_count (spaces n ++ s)).
  rewrite IH. reflexivity.
Qed.

Lemma rune_count_spaces_end : forall s n, rune_count (s ++ spaces n) = (rune_count s + n)%nat.
Proof.
  intros s n. destruct n as [|n]; [cbn [spaces repeat]; rewrite app_nil_r; lia|].
  unfold rune_count, spaces. cbn [repeat]. rewrite chunks_app_cut by reflexivity.
  rewrite app_length. f_equal. change (SP :: repeat SP n) with (spaces (S n)).
  rewrite <- (app_nil_r (spaces (S n))). fold (rune_count (spaces (S n) ++ [])).
  rewrite rune_count_spaces. unfold rune_count. simpl. lia.
Qed.

Lemma center_short : forall s width, width < Z.of_nat (rune_count s) -> center_string s width = s.
Proof.
  intros s width H. unfold center_string. replace (width <? Z.of_nat (rune_count s)) with true; [reflexivity|].
  symmetry. apply Z.ltb_lt. exact H.
Qed.

Lemma center_spec : forall s width, Z.of_nat (rune_count s) <= width ->
  width - Z.of_nat (rune_count s) <= 2000000 ->
  exists a b, center_string s width = spaces a ++ s ++ spaces b /\ (b = a \/ b = S a) /\
              Z.of_nat (rune_count (center_string s width)) = width.
Proof.
  intros s width H1 H2. set (l := Z.of_nat (rune_count s)) in *.
  set (left := Z.quot (width - l) 2).
  assert (Q : 2 * left <= width - l <= 2 * left + 1 /\ 0 <= left).
  { unfold left. rewrite Z.quot_div_nonneg by lia.
    pose proof (Z.div_mod (width - l) 2 ltac:(lia)). pose proof (Z.mod_pos_bound (width - l) 2 ltac:(lia)). lia. }
  assert (P : center_string s width = spaces (Z.to_nat left) ++ s ++ spaces (Z.to_nat (width - left - l))).
  { unfold center_string. fold l. replace (width <? l) with false by (symmetry; apply Z.ltb_ge; lia).
    fold left. unfold pad.
    replace (1000000 <? left) with false by (symmetry; apply Z.ltb_ge; lia).
    replace (1000000 <? width - left - l) with false by (symmetry; apply Z.ltb_ge; lia). reflexivity. }
  exists (Z.to_nat left), (Z.to_nat (width - left - l)). split; [exact P|]. split; [lia|].
  rewrite P, rune_count_spaces, rune_count_spaces_end. unfold l in *. lia.
Qed.

(** ** Indentation *)

Lemma not_in_app : forall (c : ascii) a b, ~ In c (a ++ b) <-> ~ In c a /\ ~ In c b.
Proof. intros. rewrite in_app_iff. tauto. Qed.

Lemma indent_lines : forall s p, ~ In NL p -> split [NL] (indent s p) = map (fun l => p ++ l) (split [NL] s).
Proof.
  intros s p Hp. unfold indent. apply split1_join.
  - pose proof (split_nonnil [NL] s). destruct (split [NL] s); [congruence|discriminate].
  - apply Forall_map. eapply Forall_impl; [|apply split1_fields]. intros x Hx. cbv beta. apply not_in_app. split; [exact Hp|exact Hx].
Qed.

Lemma indent_indent : forall s p q, ~ In NL p -> indent (indent s p) q = indent s (q ++ p).
Proof.
  intros s p q Hp. unfold indent at 1. rewrite indent_lines by exact Hp. unfold indent.
  rewrite map_map. f_equal. apply map_ext. intro l. apply app_assoc.
Qed.

Lemma indent_nil : forall s, indent s [] = s.
Proof.
  intro s. unfold indent. rewrite map_ext with (g := fun l => l) by reflexivity.
  rewrite map_id. apply join_split. discriminate.
Qed.

(** A line after the loop of UnIndent. *)
Definition unindented (p l l' : str) : Prop := l = p ++ l' \/ (white l /\ l' = l).

Lemma trim_prefix_app : forall p s, trim_prefix p (p ++ s) = s.
Proof.
  intros p s. unfold trim_prefix. rewrite has_prefix_app, skipn_app, skipn_all, Nat.sub_diag. reflexivity.
Qed.
Lemma trim_prefix_no : forall p s, has_prefix p s = false -> trim_prefix p s = s.
Proof. intros p s H. unfold trim_prefix. rewrite H. reflexivity. Qed.

Lemma unindent_lines_some : forall p lines ls, unindent_lines (Some p) lines = Some ls ->
  Forall2 (unindented p) lines ls.
Proof.
  intros p. induction lines as [|l r IH]; intros ls H; cbn [unindent_lines] in H.
  - injection H as <-. constructor.
  - destruct (negb (has_prefix p l) && negb (is_blank l)) eqn:C; [discriminate|].
    destruct (unindent_lines (Some p) r) as [ls'|] eqn:E; [|discriminate].
    cbn [option_map] in H. injection H as <-. constructor; [|apply IH; reflexivity].
    destruct (has_prefix p l) eqn:P.
    + left. apply has_prefix_iff in P as [t ->]. rewrite trim_prefix_app. reflexivity.
    + right. rewrite trim_prefix_no by exact P. split; [|reflexivity]. apply white_all_space.
      cbn [negb andb] in C. apply negb_false_iff in C. exact C.
Qed.

Lemma unindent_lines_none : forall p lines, unindent_lines (Some p) lines = None ->
  exists l, In l lines /\ ~ white l /\ has_prefix p l = false.
Proof.
  intros p. induction lines as [|l r IH]; intros H; cbn [unindent_lines] in H; [discriminate|].
  destruct (negb (has_prefix p l) && negb (is_blank l)) eqn:C.
  - apply andb_true_iff in C as [C1 C2]. apply negb_true_iff in C1, C2. exists l. split; [left; reflexivity|].
    split; [|exact C1]. rewrite white_all_space. unfold all_space. congruence.
  - destruct (unindent_lines (Some p) r) as [ls'|] eqn:E; [discriminate|].
    destruct (IH eq_refl) as (x & Hx & W). exists x. split; [right; exact Hx|exact W].
Qed.

Lemma unindent_lines_start : forall lines ls, unindent_lines None lines = Some ls ->
  (Forall white lines /\ ls = lines) \/
  exists blanks l rest p ls', lines = blanks ++ l :: rest /\ Forall white blanks /\ ~ white l /\
    ls = blanks ++ ls' /\ white p /\ Forall2 (unindented p) (l :: rest) ls' /\
    match ls' with [] => False | x :: _ => starts_solid x /\ l = p ++ x end.
Proof.
  induction lines as [|l r IH]; intros ls H; cbn [unindent_lines] in H.
  - injection H as <-. left. split; [constructor|reflexivity].
  - destruct (is_blank l) eqn:B.
    + destruct (unindent_lines None r) as [ls'|] eqn:E; [|discriminate]. cbn [option_map] in H. injection H as <-.
      assert (W : white l) by (apply white_all_space; exact B).
      destruct (IH ls' eq_refl) as [[F ->]|(bl & l0 & rest & p & ls0 & -> & F & Hl & -> & Hp & F2 & M)].
      * left. split; [constructor; assumption|reflexivity].
      * right. exists (l :: bl), l0, rest, p, ls0. split; [reflexivity|]. split; [constructor; assumption|].
        split; [exact Hl|]. split; [reflexivity|]. split; [exact Hp|]. split; [exact F2|exact M].
    + destruct (unindent_lines (Some (leading_space l)) r) as [ls'|] eqn:E; [|discriminate].
      cbn [option_map] in H. injection H as <-. right.
      assert (T : trim_prefix (leading_space l) l = trim_left_space l).
      { rewrite <- (leading_space_app l) at 2. apply trim_prefix_app. }
      exists [], l, r, (leading_space l), (trim_prefix (leading_space l) l :: ls').
      split; [reflexivity|]. split; [constructor|].
      split; [rewrite white_all_space; unfold all_space; congruence|]. split; [reflexivity|].
      split; [apply white_all_space, leading_space_all|].
      rewrite T. split.
      * constructor; [left; symmetry; apply leading_space_app|]. apply unindent_lines_some. exact E.
      * split; [|symmetry; apply leading_space_app].
        destruct (wrap_line_shape 0 l) as [[Hw _]|(_ & ind & gs & Hi & (rest & El & Hs) & _)].
        { apply white_all_space in Hw. unfold all_space in Hw. congruence. }
        assert (L : leading_space l = ind).
        { rewrite El. rewrite leading_space_app_space by (apply white_all_space; exact Hi).
          rewrite leading_space_none by (apply starts_solid_iff; exact Hs). apply app_nil_r. }
        assert (R : trim_left_space l = rest).
        { apply (app_inv_head ind). rewrite <- El. rewrite <- L. apply leading_space_app. }
        rewrite R. exact Hs.
Qed.

Lemma unindented_no_nl : forall p l l', unindented p l l' -> ~ In NL l -> ~ In NL l'.
Proof.
  intros p l l' [->|[_ ->]] H; [|exact H]. intro K. apply H. apply in_or_app. right. exact K.
Qed.

(** UnIndent in general. *)
Lemma unindent_spec : forall s,
  unindent s = s \/
  exists blanks l rest p x ls, split [NL] s = blanks ++ l :: rest /\ Forall white blanks /\
    white p /\ l = p ++ x /\ starts_solid x /\
    split [NL] (unindent s) = blanks ++ x :: ls /\
    Forall2 (fun a b => a = p ++ b \/ (white a /\ b = a)) rest ls.
Proof.
  intro s. unfold unindent. destruct (Nat.leb (List.length (split [NL] s)) 1); [left; reflexivity|].
  destruct (unindent_lines None (split [NL] s)) as [ls|] eqn:E; [|left; reflexivity].
  destruct (unindent_lines_start _ _ E) as [[F ->]|(bl & l & rest & p & ls' & El & F & Hl & -> & Hp & F2 & M)].
  - left. apply join_split. discriminate.
  - right. destruct ls' as [|x ls0]; [contradiction|]. destruct M as [Hx Hlx].
    exists bl, l, rest, p, x, ls0. split; [exact El|]. split; [exact F|]. split; [exact Hp|].
    split; [exact Hlx|]. split; [exact Hx|]. inversion F2 as [|? ? ? ? U1 U2]; subst. split.
    + apply split1_join; [destruct bl; discriminate|].
      pose proof (split1_fields NL s) as N0. rewrite El in N0. apply Forall_app in N0 as [N1 N2].
      apply Forall_app. split; [exact N1|].
      inversion N2 as [|? ? N3 N4]; subst. constructor; [exact (unindented_no_nl _ _ _ U1 N3)|].
      clear - N4 U2. induction U2; [constructor|]. inversion N4; subst.
      constructor; [eapply unindented_no_nl; eassumption|]. apply IHU2. assumption.
    + exact U2.
Qed.

(** When UnIndent gives up. *)
Lemma unindent_keeps : forall s, unindent s = s \/ 
  Forall2 (fun a b => exists p, white p /\ a = p ++ b) (split [NL] s) (split [NL] (unindent s)).
Proof.
  intro s. destruct (unindent_spec s) as [H|(bl & l & rest & p & x & ls & E & F & Hp & Hl & Hx & E2 & F2)];
    [left; exact H|right].
  rewrite E, E2.
  assert (W0 : white []) by (intros r b []).
  apply Forall2_app.
  - clear - W0. induction bl; constructor; [exists []; split; [exact W0|reflexivity]|assumption].
  - constructor; [exists p; split; assumption|].
    clear - F2 Hp W0. induction F2 as [|a b ra rb H F2 IH]; constructor; [|exact IH].
    destruct H as [->|[_ ->]]; [exists p; split; [exact Hp|reflexivity]|exists []; split; [exact W0|reflexivity]].
Qed.

Lemma unindent_lines_prefixed : forall p ls, 
  unindent_lines (Some p) (map (fun l => p ++ l) ls) = Some ls.
Proof.
  intros p. induction ls as [|l ls IH]; [reflexivity|]. cbn [map unindent_lines].
  rewrite has_prefix_app. cbn [negb andb]. rewrite IH, trim_prefix_app. reflexivity.
Qed.

Lemma unindent_indent : forall s p l ls, white p -> ~ In NL p ->
  split [NL] s = l :: ls -> starts_solid l -> ls <> [] -> unindent (indent s p) = s.
Proof.
  intros s p l ls Hp Hn E Hl Hls. apply white_all_space in Hp. apply starts_solid_iff in Hl.
  unfold unindent. rewrite indent_lines by exact Hn. rewrite E. cbn [map List.length].
  rewrite map_length. destruct ls as [|l2 ls]; [congruence|]. cbn [List.length Nat.leb].
  cbn [unindent_lines].
  rewrite is_blank_app by exact Hp. rewrite (starts_nonspace_not_blank l Hl).
  rewrite leading_space_app_space by exact Hp. rewrite (leading_space_none l Hl), app_nil_r.
  rewrite unindent_lines_prefixed, trim_prefix_app. cbn [option_map].
  rewrite <- E. apply join_split. discriminate.
Qed.

(** ** Lines *)

Lemma split_lines_join : forall (E : Env) s, join_lines (split_lines (vstr s)) = trim_suffix [NL] s.
Proof.
  intros E s. unfold join_lines, split_lines. rewrite map_map.
  change (sprint (vstr s)) with s.
  rewrite map_ext with (g := fun l => l) by reflexivity. rewrite map_id. apply join_split. discriminate.
Qed.

Lemma last_two : forall (A : Type) (q : list A) a b d, last (q ++ [a; b]) d = b.
Proof.
  intros A q a b d. induction q as [|y q IH]; [reflexivity|].
  cbn [app last]. rewrite IH. destruct (q ++ [a; b]) eqn:Q; [destruct q; discriminate Q|reflexivity].
Qed.

Lemma last_join_suffix : forall ls, Forall (fun l => ~ In NL l) ls -> last ls [] <> [] ->
  has_suffix [NL] (join [NL] ls) = false.
Proof.
  intros ls F H. destruct (has_suffix [NL] (join [NL] ls)) eqn:E; [exfalso|reflexivity].
  apply has_suffix_iff in E as [t E].
  assert (N0 : ls <> []) by (intros ->; apply H; reflexivity).
  pose proof (split1_join NL ls N0 F) as J. rewrite E in J.
  rewrite split1_app_gen in J. change (split [NL] [NL]) with [[]; ([] : str)] in J.
  destruct (rev (split [NL] t)) as [|x r] eqn:R.
  - apply (f_equal (@rev _)) in R. rewrite rev_involutive in R. exact (split_nonnil _ _ R).
  - rewrite <- J in H. apply H.
    exact (last_two _ (rev r) (x ++ []) [] []).
Qed.

Lemma join_lines_split : forall (E : Env) ls, ls <> [] -> Forall (fun l => ~ In NL l) ls ->
  (last ls [] <> [] \/ List.length ls = 1%nat) ->
  split_lines (vstr (join_lines (map vstr ls))) = map vstr ls.
Proof.
  intros E ls N0 F H. unfold split_lines, join_lines. rewrite map_map.
  rewrite (map_ext (fun x => sprint (vstr x)) (fun l => l)) by reflexivity. rewrite map_id.
  change (sprint (vstr (join [NL] ls))) with (join [NL] ls). f_equal.
  rewrite trim_suffix_no; [apply split1_join; assumption|].
  destruct H as [H|H]; [apply last_join_suffix; assumption|].
  destruct ls as [|l [|]]; try discriminate H. cbn [join].
  destruct (has_suffix [NL] l) eqn:X; [exfalso|reflexivity]. apply has_suffix_iff in X as [t ->].
  inversion F as [|? ? F1 _]; subst. apply F1. apply in_or_app. right. left. reflexivity.
Qed.

Lemma split2_found : forall source sep a b, sep <> [] -> split2 source sep = (a, b) ->
  occurs_at sep source (List.length a) -> source = a ++ sep ++ b.
Proof.
  intros source sep a b Hs H O. unfold split2, split_n2 in H.
  destruct (index sep source) as [n|] eqn:I.
  - injection H as <- <-. apply index_Some in I as (x & y & -> & <- & _).
    rewrite firstn_app, firstn_all, Nat.sub_diag, firstn_O, app_nil_r. f_equal.
    rewrite app_assoc, skipn_app. rewrite (skipn_all2 (x ++ sep)) by (rewrite app_length; lia).
    rewrite app_length, Nat.sub_diag. reflexivity.
  - destruct O as (x & y & -> & _). exfalso.
    assert (C : contains sep (x ++ sep ++ y) = true) by (apply contains_iff; eauto).
    apply contains_false_index in I. congruence.
Qed.

Lemma split2_spec : forall source sep, sep <> [] ->
  (exists a b, split2 source sep = (a, b) /\ source = a ++ sep ++ b /\
     forall k, occurs_at sep source k -> (List.length a <= k)%nat) \/
  ((forall k, ~ occurs_at sep source k) /\ split2 source sep = (source, [])).
Proof.
  intros source sep Hs. unfold split2, split_n2. destruct (index sep source) as [n|] eqn:I.
  - left. pose proof I as I'. apply index_Some in I' as (x & y & E & L & F).
    exists x, y. subst n. split.
    + f_equal; rewrite E.
      * rewrite firstn_app, firstn_all, Nat.sub_diag, firstn_O, app_nil_r. reflexivity.
      * rewrite app_assoc, skipn_app. rewrite (skipn_all2 (x ++ sep)) by (rewrite app_length; lia).
        rewrite app_length, Nat.sub_diag. reflexivity.
    + split; [exact E|]. intros k (a & b & Ek & <-). destruct (Nat.le_gt_cases (List.length x) (List.length a)) as [G|G]; [exact G|].
      exfalso. specialize (F _ G). rewrite Ek, skipn_app, skipn_all, Nat.sub_diag in F. cbn [app skipn] in F.
      rewrite has_prefix_app in F. discriminate.
  - right. split; [|reflexivity]. intros k (a & b & -> & _).
    assert (C : contains sep (a ++ sep ++ b) = true) by (apply contains_iff; eauto).
    apply contains_false_index in I. congruence.
Qed.

Lemma concat_objects_spec : forall (E : Env) os, concat_objects os = concat (map sprint os).
Proof.
  intros E os. unfold concat_objects.
  assert (G : forall l acc, fold_left (fun acc o => acc ++ sprint o) l acc = acc ++ concat (map sprint l)).
  { induction l as [|o l IH]; intro acc; cbn [fold_left map concat]; [rewrite app_nil_r; reflexivity|].
    rewrite IH, app_assoc. reflexivity. }
  apply G.
Qed.

(** ** Line numbers *)

Lemma itoa_nonl : forall z, ~ In NL (itoa z).
Proof.
  intros z H. unfold itoa, lit in H.
  assert (G : forall u, ~ In NL (list_ascii_of_string (DecimalString.NilEmpty.string_of_uint u))).
  { induction u; simpl; try tauto; intros [K|K]; try discriminate K; tauto. }
  destruct (Z.to_int z) as [u|u]; simpl in H.
  - destruct u; simpl in H; try (exact (G _ H)); destruct H as [H|H]; try discriminate H; try tauto; exact (G _ H).
  - destruct H as [H|H]; [discriminate H|].
    destruct u; simpl in H; destruct H as [H|H]; try discriminate H; try tauto; exact (G _ H).
Qed.

Lemma spaces_nonl : forall n, ~ In NL (spaces n).
Proof. intros n H. apply repeat_spec in H. discriminate H. Qed.

Lemma number_lines_nth : forall width lines n i l, nth_error lines i = Some l ->
  nth_error (number_lines width n lines) i = Some (pad_number width (n + Z.of_nat i) ++ [SP] ++ l).
Proof.
  intros width. induction lines as [|x lines IH]; intros n i l H; [destruct i; discriminate|].
  destruct i as [|i]; cbn [nth_error number_lines] in *.
  - injection H as <-. rewrite Z.add_0_r. reflexivity.
  - rewrite (IH (n + 1) i l H). do 3 f_equal. lia.
Qed.
Lemma number_lines_length : forall width lines n, List.length (number_lines width n lines) = List.length lines.
Proof. intros width. induction lines as [|x lines IH]; intro n; [reflexivity|]. cbn [number_lines List.length]. rewrite IH. reflexivity. Qed.

Lemma pad_number_nonl : forall width n, ~ In NL (pad_number width n).
Proof.
  intros width n. unfold pad_number. destruct (1000000 <? width).
  - rewrite not_in_app. split; [|apply itoa_nonl]. vm_compute. intuition discriminate.
  - rewrite not_in_app. split; [apply spaces_nonl|apply itoa_nonl].
Qed.

Lemma add_line_number_lines : forall auto s space,
  split [NL] (add_line_number auto s space) =
  number_lines (if space <=? 0 then auto (List.length (split [NL] s)) else space) 1 (split [NL] s).
Proof.
  intros auto s space. unfold add_line_number. apply split1_join.
  - pose proof (split_nonnil [NL] s). destruct (split [NL] s); [congruence|discriminate].
  - pose proof (split1_fields NL s) as F. revert F. generalize 1 as n.
    generalize (if space <=? 0 then auto (List.length (split [NL] s)) else space) as width. intro width.
    induction (split [NL] s) as [|l ls IH]; intros n F; [constructor|]. inversion F; subst.
    cbn [number_lines]. constructor; [|apply IH; assumption].
    rewrite !not_in_app. split; [apply pad_number_nonl|]. split; [|assumption].
    intros [K|[]]. discriminate K.
Qed.

Lemma add_line_number_spec : forall auto s space, 0 < space <= 1000000 ->
  List.length (split [NL] (add_line_number auto s space)) = List.length (split [NL] s) /\
  forall i l, nth_error (split [NL] s) i = Some l ->
    exists k, nth_error (split [NL] (add_line_number auto s space)) i =
                Some (spaces k ++ itoa (Z.of_nat i + 1) ++ [SP] ++ l) /\
              Z.of_nat (List.length (spaces k ++ itoa (Z.of_nat i + 1))) =
                Z.max space (Z.of_nat (List.length (itoa (Z.of_nat i + 1)))).
Proof.
  intros auto s space H. rewrite add_line_number_lines.
  replace (space <=? 0) with false by (symmetry; apply Z.leb_gt; lia).
  split; [apply number_lines_length|]. intros i l Hl.
  rewrite (number_lines_nth _ _ 1 i l Hl). unfold pad_number.
  replace (1000000 <? space) with false by (symmetry; apply Z.ltb_ge; lia).
  replace (1 + Z.of_nat i) with (Z.of_nat i + 1) by lia.
  exists (Z.to_nat space - List.length (itoa (Z.of_nat i + 1)))%nat. split; [rewrite <- app_assoc; reflexivity|].
  rewrite app_length. unfold spaces. rewrite repeat_length. lia.
Qed.
