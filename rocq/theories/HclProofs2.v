(** Indented HCL documents. *)
From Coq Require Import String Ascii List ZArith NArith Bool Permutation Sorted Lia Arith.
From Verif Require Import GoStr GoStrFacts ValueModel ValueFacts CollSpec Utf8 Utf8Facts TextModel TextSpec TextProofs QuoteModel QuoteSpec QuoteProofs ConvModel ConvSpec ConvProofs SentinelFacts HclModel HclSpec HclProofs BashSpec BashProofs.
Import ListNotations.

Section WithEnv.
Context {E : Env} {P : PrintEnv}.

(** ** Heredocs *)
Lemma heredoc_form ind s : hcl_string ind s = go_quote s \/ exists u, hcl_string ind s = $"<<HCLVALUE" ++ NL :: u ++ NL :: $"HCLVALUE".
Proof.
  unfold hcl_string. destruct ind as [|c ind]; [left; reflexivity|]. destruct (contains $"\n" (go_quote s)); [|left; reflexivity]. cbv zeta.
  match goal with |- context [has_suffix [NL] ?u] => destruct (has_suffix [NL] u) eqn:S; [|left; reflexivity] end.
  right. apply has_suffix_iff in S. destruct S as (u & ->). exists u. rewrite <- app_assoc. reflexivity.
Qed.

Definition unit_of (c : ascii) : str := if Ascii.eqb c NL then $"\n" else if Ascii.eqb c CR then $"\r" else if Ascii.eqb c TAB then $"\t" else if Ascii.eqb c DQ then $"\""" else [c].
Definition unit_ok (u : str) : Prop := (exists c, u = [c] /\ c <> BSL) \/ (exists c, u = [BSL; c] /\ c <> BSL).
Definition swap (x y : ascii) (u : str) : str := if str_eqb u [BSL; x] then [y] else u.
Lemma replace_units : forall x y us, Forall unit_ok us -> replace_all [BSL; x] [y] (concat us) = concat (map (swap x y) us).
Proof.
  intros x y us F. induction F as [|u us U F IH]; [reflexivity|]. cbn [concat map]. rewrite <- IH. destruct U as [(c & -> & N)|(c & -> & N)]; unfold swap.
  - destruct (str_eqb_spec [c] [BSL; x]) as [X|_]; [discriminate|]. cbn [app]. apply replace_all_cons. cbn [has_prefix]. apply Ascii.eqb_neq in N. rewrite Ascii.eqb_sym in N. rewrite N. reflexivity.
  - destruct (str_eqb_spec [BSL; c] [BSL; x]) as [X|X].
    + inversion X. subst. change ([BSL; x] ++ concat us) with ([BSL; x] ++ concat us). apply replace_all_sep. discriminate.
    + cbn [app]. rewrite replace_all_cons.
      * f_equal. apply replace_all_cons. cbn [has_prefix]. apply Ascii.eqb_neq in N. rewrite Ascii.eqb_sym in N. rewrite N. reflexivity.
      * cbn [has_prefix]. rewrite Ascii.eqb_refl. cbn [andb]. destruct (Ascii.eqb_spec x c); [subst; contradiction|reflexivity].
Qed.
Lemma swap_ok x y us : y <> BSL -> Forall unit_ok us -> Forall unit_ok (map (swap x y) us).
Proof.
  intros N F. induction F as [|u us U F IH]; [constructor|]. cbn [map]. constructor; [|exact IH]. unfold swap. destruct (str_eqb u [BSL; x]); [left; exists y; auto|exact U].
Qed.
Lemma unit_ok_of c : c <> BSL -> unit_ok (unit_of c).
Proof.
  intro N. unfold unit_of. repeat match goal with |- context [if ?b then _ else _] => destruct b end; try (right; eexists; split; [reflexivity|discriminate]). left. exists c. auto.
Qed.
Definition plain_char (c : ascii) : Prop := In c [NL; TAB; CR] \/ ((32 <= N_of_ascii c <= 126)%N /\ c <> "\"%char).
Lemma quote_units s : Forall plain_char s -> go_quote s = DQ :: concat (map unit_of s) ++ [DQ].
Proof.
  intro F. unfold go_quote. f_equal. f_equal. induction F as [|x s C F IH]; [reflexivity|].
  assert (A : (N_of_ascii x < 128)%N) by (destruct C as [[<-|[<-|[<-|[]]]]|((_ & C) & _)]; [reflexivity..|lia]).
  rewrite chunks_ascii by exact A. cbn [map concat]. rewrite IH. f_equal. destruct C as [[<-|[<-|[<-|[]]]]|((C1 & C2) & C3)]; try reflexivity. unfold quote_chunk, unit_of.
  destruct (N_of_ascii x =? rune_error)%N eqn:X; [apply N.eqb_eq in X; unfold rune_error in X; lia|].
  destruct (Ascii.eqb_spec x NL) as [->|_]; [exfalso; cbn in C1; lia|]. destruct (Ascii.eqb_spec x CR) as [->|_]; [exfalso; cbn in C1; lia|]. destruct (Ascii.eqb_spec x TAB) as [->|_]; [exfalso; cbn in C1; lia|].
  destruct (Ascii.eqb_spec x DQ) as [->|N1]; [reflexivity|]. destruct ((N_of_ascii x =? 34) || (N_of_ascii x =? 92))%N eqn:Y.
  - exfalso. apply orb_true_iff in Y. destruct Y as [Y|Y]; apply N.eqb_eq in Y; [apply N1|apply C3]; rewrite <- (ascii_N_embedding x), Y; reflexivity.
  - unfold is_print. replace (N_of_ascii x <? 128)%N with true by (symmetry; apply N.ltb_lt; lia). replace (32 <=? N_of_ascii x)%N with true by (symmetry; apply N.leb_le; lia).
    replace (N_of_ascii x <=? 126)%N with true by (symmetry; apply N.leb_le; lia). reflexivity.
Qed.
Lemma plain_not_bsl c : plain_char c -> c <> BSL.
Proof. intros [[<-|[<-|[<-|[]]]]|(_ & N)]; [discriminate..|exact N]. Qed.
Lemma unquoted s : Forall plain_char s ->
  replace_all $"\t" [TAB] (replace_all $"\r" [CR] (replace_all $"\""" $"""" (replace_all $"\\" $"\" (replace_all $"\n" [NL] (concat (map unit_of s)))))) = s.
Proof.
  intro F. assert (U : Forall unit_ok (map unit_of s)) by (apply Forall_forall; intros u I; apply in_map_iff in I; destruct I as (c & <- & I); rewrite Forall_forall in F; apply unit_ok_of, plain_not_bsl, F; exact I).
  change $"\n" with [BSL; "n"%char]. change $"\\" with [BSL; BSL]. change $"\" with [BSL]. change $"\""" with [BSL; DQ]. change $"""" with [DQ]. change $"\r" with [BSL; "r"%char]. change $"\t" with [BSL; "t"%char].
  rewrite replace_units by exact U. assert (U1 := swap_ok "n" NL _ ltac:(discriminate) U).
  rewrite replace_units by exact U1. assert (U2 : Forall unit_ok (map (swap BSL BSL) (map (swap "n" NL) (map unit_of s)))).
  { apply Forall_forall. intros u I. apply in_map_iff in I. destruct I as (v & <- & I). rewrite Forall_forall in U1. specialize (U1 v I). unfold swap. destruct (str_eqb_spec v [BSL; BSL]) as [->|_]; [|exact U1]. destruct U1 as [(c & X & N)|(c & X & N)]; [discriminate|inversion X; subst; contradiction]. }
  rewrite replace_units by exact U2. assert (U3 := swap_ok DQ DQ _ ltac:(discriminate) U2). rewrite replace_units by exact U3. assert (U4 := swap_ok "r" CR _ ltac:(discriminate) U3). rewrite replace_units by exact U4.
  rewrite !map_map. clear -F. induction F as [|c s C F IH]; [reflexivity|]. cbn [map concat]. rewrite IH. change (c :: s) with ([c] ++ s). f_equal. apply plain_not_bsl in C. unfold unit_of.
  destruct (Ascii.eqb_spec c NL) as [->|N1]; [reflexivity|]. destruct (Ascii.eqb_spec c CR) as [->|N2]; [reflexivity|]. destruct (Ascii.eqb_spec c TAB) as [->|N3]; [reflexivity|]. destruct (Ascii.eqb_spec c DQ) as [->|N4]; [reflexivity|].
  unfold swap. repeat match goal with |- context [str_eqb [c] ?x] => destruct (str_eqb_spec [c] x); [discriminate|] end. reflexivity.
Qed.
Lemma solid_ascii c r : (N_of_ascii c < 128)%N -> ~ In c [" "%char; TAB; NL; CR] -> (32 <= N_of_ascii c)%N -> starts_solid (c :: r).
Proof.
  intros A N L. exists (N_of_ascii c), [c], (chunks r). rewrite chunks_ascii by exact A. split; [reflexivity|]. assert (X : (32 < N_of_ascii c)%N).
  { destruct (N.eq_dec (N_of_ascii c) 32) as [X|X]; [|lia]. exfalso. apply N. left. rewrite <- (ascii_N_embedding c), X. reflexivity. }
  clear -A X. revert A X. generalize (N_of_ascii c). intros n A X. unfold is_space_rune. repeat match goal with |- context [(?a =? ?b)%N] => destruct (N.eqb_spec a b); [lia|] end.
  repeat match goal with |- context [(?a <=? ?b)%N] => destruct (N.leb_spec a b); try lia end; reflexivity.
Qed.
Lemma unindent_solid s : plain_lines s -> unindent s = s.
Proof.
  intros (F & (c & r & Es & N) & (r' & Er)). assert (Hs : exists l ls, split [NL] s = l :: ls /\ starts_solid l /\ ls <> []).
  { assert (Hc : (N_of_ascii c < 128)%N /\ (32 <= N_of_ascii c)%N). { rewrite Es in F. apply Forall_inv in F. destruct F as [I|((A & B) & _)]; [exfalso; apply N; cbn in I |- *; intuition|lia]. }
    destruct (split [NL] s) as [|l ls] eqn:S; [exfalso; apply (f_equal (join [NL])) in S; rewrite join_split in S by discriminate; cbn in S; rewrite S in Es; discriminate|]. exists l, ls. split; [reflexivity|].
    assert (J : join [NL] (l :: ls) = s) by (rewrite <- S; apply join_split; discriminate). assert (LS : ls <> []).
    { intros ->. cbn [join] in J. assert (X : Forall (fun f => contains [NL] f = false) (split [NL] s)) by (apply split_fields_no; discriminate). rewrite S in X. apply Forall_inv in X. rewrite J, Er in X. assert (Y : contains [NL] (r' ++ [NL]) = true) by (apply contains_iff; exists r', []; reflexivity). congruence. }
    split; [|exact LS]. destruct l as [|d l].
    - exfalso. rewrite join_cons in J by exact LS. cbn [app] in J. rewrite Es in J. inversion J. apply N. right; right; left. congruence.
    - rewrite join_cons in J by exact LS. rewrite Es in J. cbn [app] in J. inversion J. subst d. apply solid_ascii; tauto. }
  destruct Hs as (l & ls & S & So & LS). pose proof (unindent_indent s [] l ls ltac:(intros ? ? []) ltac:(intros []) S So LS) as U. unfold indent in U. cbn [app] in U. rewrite map_id, join_split in U by discriminate. exact U.
Qed.
Lemma heredoc_plain ind s : ind <> [] -> plain_lines s -> hcl_string ind s = $"<<HCLVALUE" ++ NL :: s ++ $"HCLVALUE".
Proof.
  intros NI PL. assert (PL' := PL). destruct PL' as (F & _ & (r & Er)). unfold hcl_string. destruct ind as [|i ind]; [contradiction|]. rewrite (quote_units s F).
  assert (C : contains $"\n" (DQ :: concat (map unit_of s) ++ [DQ]) = true).
  { apply contains_iff. exists (DQ :: concat (map unit_of r)), [DQ]. rewrite Er at 1. rewrite map_app, concat_app. cbn [map concat app]. change (unit_of NL) with $"\n". rewrite app_nil_r, <- app_assoc. reflexivity. }
  rewrite C. cbn [tl]. rewrite removelast_last. cbv zeta. rewrite (unquoted s F), (unindent_solid s PL).
  replace (has_suffix [NL] s) with true; [reflexivity|]. symmetry. apply has_suffix_iff. exists r. exact Er.
Qed.

Lemma heredoc_text full head prefix ind s : marshal_hcl full head prefix ind (vstr s) = go_quote s \/
  exists u, marshal_hcl full head prefix ind (vstr s) = $"<<HCLVALUE" ++ NL :: u ++ NL :: $"HCLVALUE".
Proof. exact (heredoc_form ind s). Qed.
Lemma heredoc_lines full head prefix ind s : ind <> [] -> plain_lines s -> marshal_hcl full head prefix ind (vstr s) = $"<<HCLVALUE" ++ NL :: s ++ $"HCLVALUE".
Proof. exact (heredoc_plain ind s). Qed.

(** ** Layout *)
Definition item_of (e : hcl_entry) : item := let '(k, r, d) := e in {| i_key := hcl_id k; i_len := List.length k; i_text := r; i_block := d |}.
Lemma lines_of_iff e : lines_of (item_of e) = contains [NL] (snd (fst e)).
Proof.
  destruct e as ((k, r), d). unfold lines_of. cbn [item_of i_text fst snd]. destruct (in_dec ascii_dec NL r) as [I|I].
  - symmetry. apply contains_iff. apply in_split in I. destruct I as (a & b & ->). exists a, b. reflexivity.
  - symmetry. apply not_true_iff_false. intro C. apply contains_iff in C. destruct C as (a & b & ->). apply I. apply in_or_app. right. left. reflexivity.
Qed.
Lemma pass_single full ind es n : ind <> [] -> Forall (fun e : hcl_entry => free_of_marker (snd (fst e))) es -> forall items,
  fold_left (hcl_item full ind false) es (items, n) =
  (items ++ map (fun e => pad_right n (i_key e) ++ $" = " ++ i_text e) (filter (fun e => negb (lines_of e)) (map item_of es)), n).
Proof.
  intros NI F. induction F as [|((k, r), d) es M F IH]; intro items; [cbn; rewrite app_nil_r; reflexivity|]. cbn [fold_left map filter]. rewrite lines_of_iff. cbn [fst snd] in M |- *.
  apply marker_free, not_true_is_false in M. assert (SI : str_eqb ind [] = false) by (apply str_eqb_neq; exact NI). unfold hcl_item at 2. rewrite SI, M. destruct (contains [NL] r); cbn [Bool.eqb negb].
  - apply IH. 
  - cbn [andb]. rewrite IH. cbn [map item_of i_key i_text]. rewrite <- app_assoc. destruct (d && full); reflexivity.
Qed.
Lemma pass_multi full ind es : ind <> [] -> Forall (fun e : hcl_entry => free_of_marker (snd (fst e))) es -> forall items n, (items = [] -> n = 0) ->
  fst (fold_left (hcl_item full ind true) es (items, n)) =
  match items with [] => tl (flat_map (fun s => [[]; s]) (big_items full (map item_of es))) | _ => items ++ flat_map (fun s => [[]; s]) (big_items full (map item_of es)) end.
Proof.
  intros NI F. induction F as [|((k, r), d) es M F IH]; intros items n Hn; [destruct items; cbn; [|rewrite app_nil_r]; reflexivity|]. cbn [fold_left map]. unfold big_items. cbn [filter]. rewrite lines_of_iff. cbn [fst snd] in M |- *.
  apply marker_free, not_true_is_false in M. assert (SI : str_eqb ind [] = false) by (apply str_eqb_neq; exact NI). unfold hcl_item at 2. destruct (contains [NL] r); cbn [Bool.eqb].
  - rewrite SI, M. cbn [map flat_map item_of i_key i_text i_block]. fold (big_items full (map item_of es)). destruct items as [|x items]; cbn [negb andb].
    + rewrite (Hn eq_refl). rewrite IH by (intro X; destruct (app_eq_nil _ _ X); discriminate). cbn [app tl]. unfold pad_right. cbn [Nat.sub spaces repeat]. rewrite app_nil_r, (andb_comm d full). destruct (full && d); reflexivity.
    + rewrite IH by (intro X; destruct (app_eq_nil _ _ X); discriminate). cbn [app]. unfold pad_right. cbn [Nat.sub spaces repeat]. rewrite app_nil_r, (andb_comm d full). rewrite <- !app_assoc. cbn [app]. destruct (full && d); reflexivity.
  - fold (big_items full (map item_of es)). apply IH. exact Hn.
Qed.

Definition entries_items (f : value -> str) (es : list (str * value)) : list item :=
  map (fun kv => {| i_key := hcl_id (fst kv); i_len := List.length (fst kv); i_text := f (snd kv); i_block := block_value (snd kv) |}) es.
Lemma layout_pass full ind m es rendered : ind <> [] -> NoDup (mkeys m) -> in_order m es -> rendered = map (fun kv => (fst kv, marshal_hcl full false [] ind (snd kv))) m ->
  Forall (fun kv => native (snd kv)) m -> (forall k v, In (k, v) m -> free_of_marker (marshal_hcl full false [] ind v)) ->
  fst (fold_left (hcl_item full ind true) (map (fun k => (k, match mget rendered k with Some r => r | None => [] end, match try_as_dict Hcl (mget0 m k) with Some _ => true | None => false end)) (sort_strings (mkeys m)))
    (fold_left (hcl_item full ind false) (map (fun k => (k, match mget rendered k with Some r => r | None => [] end, match try_as_dict Hcl (mget0 m k) with Some _ => true | None => false end)) (sort_strings (mkeys m))) ([], hcl_key_len ind rendered)))
  = layout rune_count full (entries_items (marshal_hcl full false [] ind) es).
Proof.
  intros NI ND IO -> FN FM. set (f := marshal_hcl full false [] ind) in *.
  assert (Ks : sort_strings (mkeys m) = map fst es).
  { destruct IO as [Pm So]. rewrite (sort_strings_unique (mkeys m) (mkeys es)) by (apply Permutation_map; exact Pm). apply sort_strings_fixed. clear -So. induction So as [|e es So IH Hd]; [constructor|]. cbn [mkeys map] in *. constructor; [exact IH|]. destruct Hd; constructor; assumption. }
  rewrite Ks. destruct IO as [Pm _].
  assert (Es : map (fun k => (k, match mget (map (fun kv => (fst kv, f (snd kv))) m) k with Some r => r | None => [] end, match try_as_dict Hcl (mget0 m k) with Some _ => true | None => false end)) (map fst es)
             = map (fun kv => (fst kv, f (snd kv), block_value (snd kv))) es).
  { rewrite map_map. apply map_ext_in. intros (k, v) I. cbn [fst snd]. apply (Permutation_in _ (Permutation_sym Pm)) in I. pose proof (mget_In_NoDup m k v ND I) as GV. unfold mget0. rewrite GV.
    change (map (fun kv => (fst kv, f (snd kv))) m) with (map (onto f) m). rewrite mget_onto, GV. cbn [option_map]. f_equal. rewrite Forall_forall in FN. specialize (FN _ I). cbn [snd] in FN. inversion FN; reflexivity. }
  rewrite Es. clear Es Ks. assert (F : Forall (fun e : hcl_entry => free_of_marker (snd (fst e))) (map (fun kv => (fst kv, f (snd kv), block_value (snd kv))) es)).
  { apply Forall_forall. intros e I. apply in_map_iff in I. destruct I as ((k, v) & <- & I). cbn [fst snd]. apply (FM k). apply (Permutation_in _ (Permutation_sym Pm)). exact I. }
  assert (It : map item_of (map (fun kv => (fst kv, f (snd kv), block_value (snd kv))) es) = entries_items f es) by (rewrite map_map; reflexivity).
  assert (Wd : hcl_key_len ind (map (fun kv => (fst kv, f (snd kv))) m) = list_max (map i_len (filter (fun e => negb (lines_of e)) (entries_items f es)))).
  { unfold hcl_key_len. rewrite (proj2 (str_eqb_neq ind [])) by exact NI. rewrite map_map. cbn [fst snd].
    assert (PM : list_max (map (fun x => if contains [NL] (f (snd x)) then 0 else List.length (fst x)) m) = list_max (map (fun x => if contains [NL] (f (snd x)) then 0 else List.length (fst x)) es)).
    { clear -Pm. induction Pm as [|x l l' Pm IH|x y l|l l' l'' Pm IH Pm2 IH2]; cbn [map]; rewrite ?list_max_cons' in *; [reflexivity| | |congruence].
      - change (list_max (?a :: ?b)) with (Nat.max a (list_max b)). rewrite IH. reflexivity.
      - change (list_max (?a :: ?c :: ?b)) with (Nat.max a (Nat.max c (list_max b))). lia. }
    etransitivity; [exact PM|]. clear. unfold entries_items. induction es as [|(k, v) es IH]; [reflexivity|]. cbn [map filter fst snd].
    change {| i_key := hcl_id k; i_len := List.length k; i_text := f v; i_block := block_value v |} with (item_of (k, f v, block_value v)). rewrite lines_of_iff. cbn [fst snd]. destruct (contains [NL] (f v)); cbn [negb map].
    - change (list_max (0 :: ?b)) with (list_max b). exact IH.
    - change (list_max (?a :: ?b)) with (Nat.max a (list_max b)). rewrite IH. reflexivity. }
  rewrite (pass_single full ind _ _ NI F). cbn [app]. rewrite It. rewrite (pass_multi full ind _ NI F).
  - rewrite It, Wd. unfold layout, single_lines, padded, pad_right, spaces. cbv zeta. change SP with " "%char. destruct (filter (fun e => negb (lines_of e)) (entries_items f es)) eqn:Q; reflexivity.
  - intro Q. apply map_eq_nil in Q. rewrite Wd, Q. reflexivity.
Qed.
Lemma not_single (full : bool) m : (full = true -> forall k x, m <> [(k, VMap 0 x)]) -> full && negb (str_eqb (single_map m) []) = false.
Proof.
  intro H. destruct full; [|reflexivity]. specialize (H eq_refl). unfold single_map. destruct m as [|(k, v) [|? ?]]; try reflexivity. destruct v as [|s|t l|t x| | | |]; try reflexivity. cbn [is_map0]. destruct (N.eqb_spec t 0) as [->|]; [|reflexivity]. exfalso. exact (H k x eq_refl).
Qed.
Lemma hcl_document full prefix ind m es : ind <> [] -> native (VMap 0 m) -> in_order m es -> (full = true -> forall k x, m <> [(k, VMap 0 x)]) ->
  (forall k v, In (k, v) m -> free_of_marker (marshal_hcl full false [] ind v)) ->
  let lines := layout rune_count full (entries_items (marshal_hcl full false [] ind) es) in
  marshal_hcl full true prefix ind (VMap 0 m) = join [NL] lines /\
  marshal_hcl full false prefix ind (VMap 0 m) = match lines with [] => $"{}" | _ => $"{" ++ NL :: indent (join [NL] lines) (prefix ++ ind) ++ NL :: $"}" end.
Proof.
  intros NI NV IO NS FM lines. inversion NV as [| | | | | |m' ND FN]; subst m'. pose proof (layout_pass full ind m es _ NI ND IO eq_refl FN FM) as LP. fold lines in LP.
  assert (SI : str_eqb ind [] = false) by (apply str_eqb_neq; exact NI). split; cbn [marshal_hcl]; unfold hcl_map; rewrite (not_single full m NS); cbv zeta; rewrite LP, SI; [reflexivity|]. cbn [orb]. destruct lines; reflexivity.
Qed.
End WithEnv.
