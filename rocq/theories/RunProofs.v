(** Proofs about commands run from a template. *)
From Coq Require Import String Ascii List ZArith NArith Bool Lia.
From Verif Require Import GoStr GoStrFacts ValueModel ListModel DictModel HeapModel PathModel CliModel ReModel ScriptModel IncludeModel IncludeProofs RunModel RunSpec.
Import ListNotations.

Section Run.
Context {E : Engine}.
Variable grow : nat -> nat -> nat.
Variable d : impl.
Variable constants : list str.
Variable folder : str.
Variable accept_no_value : bool.
Notation run := (run grow d constants folder accept_no_value).

(** The name of a file comes with the text of this file, after razor. *)
Lemma run_file : forall fuel clone source args st st' text filename, run fuel clone source args st = Some (st', Ret text filename None) -> filename <> [] ->
  exists content, read_file filename = Content content /\ text = razor content.
Proof.
  induction fuel as [|f IH]; intros clone source args st st' text filename H N; [discriminate H|]. cbn [IncludeModel.run] in H. destruct source as [|c source]; [injection H as _ _ <-; congruence|].
  destruct (setup grow d constants f clone args st) as [[st1 data]|]; [|discriminate H].
  destruct (find_template folder st1 (c :: source)) as [st2 [t src fname|fname e]] eqn:FT; [|discriminate H].
  assert (FN : fname <> [] -> exists content, read_file fname = Content content /\ src = razor content).
  { intros FN. unfold find_template in FT. destruct (mget (s_templates st1) (c :: source)) as [t0|]; [injection FT as _ _ _ <-; congruence|].
    destruct (contains [NL] (c :: source)).
    - destruct (parse (razor (c :: source))) as [[t0 defs]|]; [injection FT as _ _ _ <-; congruence | discriminate FT].
    - match type of FT with context [read_file ?x] => destruct (read_file x) as [content| |e0] eqn:RF end.
      + destruct (parse (razor content)) as [[t0 defs]|]; [|discriminate FT]. injection FT as _ _ <- <-. exists content. split; [exact RF | reflexivity].
      + destruct (parse (razor (c :: source))) as [[t0 defs]|]; [injection FT as _ _ _ <-; congruence | discriminate FT].
      + discriminate FT. }
  assert (FI : forall out err, finish accept_no_value src fname out err = Ret text filename None -> exists content, read_file filename = Content content /\ text = razor content).
  { intros out err X. unfold finish in X. cbv zeta in X. destruct (negb accept_no_value && contains no_value _); [discriminate X|].
    destruct (str_eqb (if accept_no_value then out else replace_all $"<nil>" no_value out) src) eqn:EQ; injection X as X1 X2; [|congruence]. apply str_eqb_eq in EQ. pose proof (eq_trans (eq_sym X1) EQ) as X3. rewrite X3. rewrite <- X2 in *. exact (FN N). }
  destruct (interpret _ _ _) as [[st3 o3]|]; [|discriminate H]. destruct o3 as [[out [e|]]|]; destruct clone; try discriminate H.
  - injection H as _ X. exact (FI out (Some e) X).
  - destruct (run f true src args (with_context (s_context st) st3)) as [[st4 o4]|] eqn:R; [|discriminate H]. injection H as _ ->. exact (IH _ _ _ _ _ _ _ R N).
  - injection H as _ X. exact (FI out None X).
  - injection H as _ X. exact (FI out None X).
Qed.
Lemma args_for : forall args args', for_command args args' -> command_args args = args'.
Proof. intros args args' [i p| |a A B]; [reflexivity..|]. destruct a as [|[] [|]]; try reflexivity; [exfalso; apply B; reflexivity | exfalso; eapply A; reflexivity]. Qed.
(** A text without templating comes back as it is. *)
Lemma run_plain : forall f s args st st1 data, plain_text folder s st -> accept_no_value = true \/ contains $"<nil>" s = false /\ contains no_value s = false ->
  setup grow d constants f false args st = Some (st1, data) -> s_templates st1 = s_templates st -> exists st', run (S f) false s args st = Some (st', Ret s [] None).
Proof.
  intros f s args st st1 data (NE & NT & RZ & FF & t & defs & PA & EX) NV SE TE. cbn [IncludeModel.run]. destruct s as [|c s]; [congruence|]. rewrite SE.
  assert (FT : exists st2, find_template folder st1 (c :: s) = (st2, Template t (c :: s) [])).
  { unfold find_template. rewrite TE, NT. destruct (contains [NL] (c :: s)) eqn:C; [rewrite RZ, PA; eexists; reflexivity|].
    destruct FF as [FF|FF]; [congruence|]. rewrite FF, RZ, PA. eexists. reflexivity. }
  destruct FT as (st2 & ->). rewrite (EX data). cbn [interpret]. eexists. f_equal. f_equal. unfold finish. cbv zeta.
  pose proof (proj2 (str_eqb_eq (c :: s) (c :: s)) eq_refl) as EQ. destruct NV as [->|(N1 & N2)]; [cbn [negb andb]; unfold str in *; rewrite EQ; reflexivity|].
  pose proof (replace_all_no $"<nil>" no_value (c :: s) N1) as X. destruct accept_no_value; cbn [negb andb]; unfold str in *; [rewrite EQ; reflexivity|]. rewrite X, N2, EQ. reflexivity.
Qed.
End Run.
