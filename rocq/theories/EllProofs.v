From Coq Require Import String Ascii List ZArith NArith Bool Lia.
From Verif Require Import GoStr GoStrFacts ValueModel TextModel TextSpec TextProofs TextProofs3 EllModel EllSpec.
Import ListNotations.

Section WithRunner.
Context {R : Runner} {E : Env}.

Lemma data_of_text s text : data_function s (vstr text) =
  match run_text s text None with (s', (content, None)) => (s', converter content) | (s', (_, Some e)) => (s', Err e) end.
Proof. reflexivity. Qed.

Lemma taken_ok s text : let (s', r) := try_convert s text in
  (exists v, r = Ok v /\ taken s text s' v) \/ ((exists m, r = Panic m) /\ data_of s text s' VNil).
Proof.
  unfold try_convert. rewrite data_of_text. destruct (run_text s text None) as [s' [content [e|]]] eqn:X.
  - left. exists (vstr text). split; [reflexivity|]. exact (tk_error s text s' content e X).
  - unfold converter. destruct (as_data content) as [d|] eqn:D.
    + assert (O : data_of s text s' d) by (exists content; split; [exact X|exact D]). destruct d;
        try (left; eexists; split; [reflexivity|]; cbn [is_text]; apply tk_data; [exact O|discriminate|intros; discriminate]).
      * right. split; [eexists; reflexivity|exact O].
      * left. destruct s0; try (eexists; split; [reflexivity|]; cbn [is_text]; apply tk_data; [exact O|discriminate|intros; discriminate]).
        eexists. split; [reflexivity|]. cbn [is_text]. exact (tk_string s text s' _ _ O).
    + left. exists (vstr text). split; [reflexivity|]. exact (tk_other s text s' content X D).
Qed.

Lemma expanded_ok v : (forall l, expanded v = Some l <-> list_of v l).
Proof.
  intro l. split.
  - destruct v; cbn [expanded]; intro H; inversion H; subst; constructor.
  - intro H. destruct H; reflexivity.
Qed.

(** ** Names *)
Lemma words_flat (names : list str) : names <> [] -> $" " ++ join $" " (map (fun n => $"." ++ n) names) = flat_map (fun n => $" ." ++ n) names.
Proof.
  induction names as [|n names IH]; intro H; [congruence|]. destruct names as [|m names].
  - cbn [map join flat_map]. rewrite app_nil_r. reflexivity.
  - change (map (fun n => $"." ++ n) (n :: m :: names)) with (($"." ++ n) :: map (fun n => $"." ++ n) (m :: names)). rewrite join_cons by discriminate.
    cbn [flat_map]. rewrite <- app_assoc. change ($" " ++ $"." ++ n ++ $" " ++ join $" " (map (fun n => $"." ++ n) (m :: names)) = ($" " ++ $"." ++ n) ++ flat_map (fun n0 => $" ." ++ n0) (m :: names)).
    rewrite IH by discriminate. rewrite <- !app_assoc. reflexivity.
Qed.
Lemma template_call function names : call_text function names (left_delim ++ $" " ++ function ++ $" " ++ join $" " (map (fun n => $"." ++ n) names) ++ $" " ++ right_delim).
Proof.
  destruct names as [|n names].
  - exists $"  ". split; [discriminate|]. split; [repeat constructor|]. reflexivity.
  - exists $" ". split; [discriminate|]. split; [repeat constructor|]. rewrite <- (words_flat (n :: names)) by discriminate. rewrite <- !app_assoc. reflexivity.
Qed.

Lemma itoa_digit (i : nat) : Forall digit (itoa (Z.of_nat i)).
Proof.
  destruct (itoa_digits i) as [D _]. revert D. apply Forall_impl. intros c H. unfold digit. unfold is_digit in H. apply andb_true_iff in H. destruct H as [A B].
  apply N.leb_le in A. apply N.leb_le in B. split; assumption.
Qed.
Lemma arg_name_ok i : a_name (arg_name i).
Proof.
  exists "A"%char, ($"RG" ++ itoa (Z.of_nat i)). split; [reflexivity|]. split; [left; vm_compute; split; discriminate|].
  constructor; [left; left; vm_compute; split; discriminate|]. constructor; [left; left; vm_compute; split; discriminate|].
  pose proof (itoa_digit i) as H. revert H. apply Forall_impl. intros c D. right. exact D.
Qed.
Lemma arg_name_inj i j : arg_name i = arg_name j -> i = j.
Proof. unfold arg_name. intro H. apply app_inv_head in H. apply itoa_inj in H. lia. Qed.
Lemma map_fst_combine {A B} (l : list A) : forall (m : list B), length l = length m -> map fst (combine l m) = l.
Proof. induction l as [|a l IH]; intros [|b m] H; try discriminate; [reflexivity|]. cbn [combine map fst]. f_equal. apply IH. inversion H. reflexivity. Qed.
Lemma combine_in {A B} (l : list A) : forall (m : list B), length l = length m -> Forall2 (fun n v => In (n, v) (combine l m)) l m.
Proof.
  induction l as [|a l IH]; intros [|b m] H; try discriminate; [constructor|]. cbn [combine]. constructor; [left; reflexivity|].
  assert (H' : length l = length m) by (inversion H; reflexivity). specialize (IH m H'). revert IH. generalize (combine l m). clear.
  intros c F. induction F; constructor; [right; assumption|assumption].
Qed.

Lemma context_ok (all : list value) : let names := map (fun i => arg_name (S i)) (seq 0 (List.length all)) in
  Forall a_name names /\ maps (combine names all) names all.
Proof.
  intro names. assert (L : length names = length all) by (unfold names; rewrite map_length, seq_length; reflexivity). split.
  - unfold names. apply Forall_forall. intros x I. apply in_map_iff in I. destruct I as (i & <- & _). apply arg_name_ok.
  - split.
    + rewrite map_fst_combine by exact L. unfold names. apply FinFun.Injective_map_NoDup; [|apply seq_NoDup]. intros i j H. apply arg_name_inj in H. lia.
    + apply combine_in. exact L.
Qed.

Lemma short_ok e : shortened e (short_error e).
Proof.
  pose proof (split2_spec e $">: ") as H. specialize (H ltac:(discriminate)). unfold split2 in H. unfold short_error, shortened.
  unfold split_n2 in *. destruct (index $">: " e) as [n|] eqn:I.
  - destruct H as [(a & b & Q & -> & F)|(N & Q)].
    + injection Q as Qa Qb. left. exists a. split; [|exact F]. f_equal. f_equal. symmetry. exact Qb.
    + exfalso. apply index_Some in I. destruct I as (a & b & -> & L & _). apply (N n). exists a, b. split; [reflexivity|exact L].
  - right. split; [|reflexivity]. intros k (a & b & -> & _).
    assert (C : contains $">: " (a ++ $">: " ++ b) = true) by (apply contains_iff; eauto). apply contains_false_index in I. congruence.
Qed.

Lemma ellipsis_call function g : applies function g -> forall s init last l, list_of last l ->
  let (s1, out) := g s (init ++ l) in
  let (s2, r) := ellipsis s function (init ++ [last]) in
  (exists v e, r = Ok (v, e) /\ taken s1 (fst out) s2 v /\ match snd out, e with None, None => True | Some m, Some m' => shortened m m' | _, _ => False end) \/
  ((exists m, r = Panic m) /\ data_of s1 (fst out) s2 VNil).
Proof.
  intros A s init last l L. apply expanded_ok in L. unfold ellipsis. rewrite rev_app_distr. cbn [rev app]. rewrite L, rev_involutive.
  destruct (context_ok (init ++ l)) as (N & M). cbv zeta. rewrite (A s _ (init ++ l) _ _ N M (template_call _ _)).
  destruct (g s (init ++ l)) as [s1 [result err]]. pose proof (taken_ok s1 result) as T. destruct (try_convert s1 result) as [s2 r]. cbn [fst snd].
  destruct T as [(v & -> & T)|((m & ->) & D)].
  - left. exists v, (option_map short_error err). split; [reflexivity|]. split; [exact T|]. destruct err as [e|]; [apply short_ok|exact Logic.I].
  - right. split; [exists m; reflexivity|exact D].
Qed.
Lemma ellipsis_error s function args : (forall init last l, args = init ++ [last] -> ~ list_of last l) ->
  ellipsis s function args = (s, Ok (VNil, Some $"the last argument must be a slice")).
Proof.
  intro H. unfold ellipsis. destruct (rev args) as [|last init] eqn:X; [reflexivity|]. destruct (expanded last) as [l|] eqn:Y; [|reflexivity].
  exfalso. apply expanded_ok in Y. apply (H (rev init) last l); [|exact Y]. rewrite <- (rev_involutive args), X. reflexivity.
Qed.

(** ** The listing *)
Lemma number_listed lines : forall k, (0 <= k)%Z -> numbered k lines (List.concat (map (fun l => l ++ [NL]) (number_lines 4 k lines))).
Proof.
  induction lines as [|l lines IH]; intros k K; [constructor|]. cbn [number_lines map List.concat]. unfold pad_number. change (1000000 <? 4)%Z with false. cbv iota.
  replace (((spaces (Z.to_nat 4 - length (itoa k)) ++ itoa k) ++ [SP] ++ l) ++ [NL]) with (spaces (Z.to_nat 4 - length (itoa k)) ++ itoa k ++ $" " ++ l ++ [NL]) by (rewrite <- !app_assoc; reflexivity).
  rewrite <- !app_assoc. apply nb_cons.
  - unfold spaces. apply Forall_forall. intros c I. apply repeat_spec in I. exact I.
  - rewrite app_length. unfold spaces. rewrite repeat_length. destruct (Nat.le_gt_cases 4 (length (itoa k))) as [G|G].
    + left. replace (Z.to_nat 4 - length (itoa k)) with 0 by lia. reflexivity.
    + right. lia.
  - rewrite app_length. unfold spaces. rewrite repeat_length. lia.
  - apply IH. lia.
Qed.
End WithRunner.

Lemma pieces_nl_ok content : pieces_nl content (split [NL] (trim_suffix [NL] content)).
Proof.
  split; [|split].
  - apply split_nonnil.
  - apply split1_fields.
  - rewrite join_split by discriminate. unfold trim_suffix. destruct (has_suffix [NL] content) eqn:X.
    + left. apply has_suffix_iff in X. destruct X as (t & ->). rewrite app_length, Nat.add_sub, firstn_app, firstn_all, Nat.sub_diag, firstn_O, app_nil_r. reflexivity.
    + right. split; [reflexivity|]. intros a ->. assert (C : has_suffix [NL] (a ++ [NL]) = true) by (apply has_suffix_iff; exists a; reflexivity). congruence.
Qed.

Section Data.
Context {R : Runner} {E : Env}.
Lemma lines_of content : map sprint (split_lines (vstr content)) = split [NL] (trim_suffix [NL] content).
Proof.
  unfold split_lines. rewrite map_map. change (sprint (vstr content)) with content.
  generalize (split [NL] (trim_suffix [NL] content)). intro l. induction l as [|x l IH]; [reflexivity|]. cbn [map]. rewrite IH. reflexivity.
Qed.
Lemma taken_none s text : data_of s text (fst (try_convert s text)) VNil -> exists m, snd (try_convert s text) = Panic m.
Proof.
  intros (content & X & D). revert X. unfold try_convert. rewrite data_of_text. destruct (run_text s text None) as [s' [c [e|]]]; cbn [fst].
  - intro X. inversion X.
  - unfold converter. destruct (as_data c) as [d|] eqn:Y; intro X.
    + assert (c = content) by (destruct d; inversion X; reflexivity). subst c. rewrite D in Y. inversion Y; subst d. eexists. reflexivity.
    + cbn [fst] in X. inversion X; subst. congruence.
Qed.
Lemma ellipsis_nil function g : applies function g -> forall s init last l s1 text err s2, list_of last l ->
  g s (init ++ l) = (s1, (text, err)) -> data_of s1 text s2 VNil -> exists m, ellipsis s function (init ++ [last]) = (s2, Panic m).
Proof.
  intros A s init last l s1 text err s2 L Q D. apply expanded_ok in L. unfold ellipsis. rewrite rev_app_distr. cbn [rev app]. rewrite L, rev_involutive.
  destruct (context_ok (init ++ l)) as (N & M). cbv zeta. rewrite (A s _ (init ++ l) _ _ N M (template_call _ _)), Q.
  destruct D as (content & X & Y). unfold try_convert. rewrite data_of_text, X. unfold converter. rewrite Y. eexists. reflexivity.
Qed.

Lemma data_ok s :
  data_function s VNil = (s, Ok VNil) /\
  forall v, v <> VNil -> (forall t, v <> VScal (SStr true t)) ->
  let '(s1, (content, err)) := run_text s (sprint v) None in
  let (s2, r) := data_function s v in
  s2 = s1 /\
  match err with
  | Some e => r = Err e
  | None => (forall d, as_data content = Some d -> r = Ok d) /\
            (as_data content = None -> exists lines text, pieces_nl content lines /\ numbered 1 lines text /\ r = Err ([NL] ++ text ++ [NL] ++ data_error content))
  end.
Proof.
  split; [reflexivity|]. intros v N T.
  assert (Q : data_function s v = match run_text s (sprint v) None with (s', (content, None)) => (s', converter content) | (s', (_, Some e)) => (s', Err e) end).
  { destruct v; try reflexivity; [congruence|]. destruct s0; try reflexivity. destruct named; [exfalso; exact (T _ eq_refl)|reflexivity]. }
  rewrite Q. destruct (run_text s (sprint v) None) as [s1 [content [e|]]]; [split; reflexivity|]. split; [reflexivity|]. unfold converter.
  destruct (as_data content) as [d|].
  - split; [intros d' H; inversion H; reflexivity|discriminate].
  - split; [discriminate|]. intros _. exists (split [NL] (trim_suffix [NL] content)), (List.concat (map (fun l => l ++ [NL]) (number_lines 4 1 (split [NL] (trim_suffix [NL] content))))).
    split; [apply pieces_nl_ok|]. split; [apply number_listed; lia|]. unfold listing. rewrite lines_of, <- app_assoc. reflexivity.
Qed.
End Data.
