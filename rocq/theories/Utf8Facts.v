(** Facts on UTF-8 decoding and on the functions that split at white space. *)
From Coq Require Import String Ascii List ZArith NArith Bool Lia.
From Verif Require Import GoStr GoStrFacts Utf8.
Import ListNotations.
Local Open Scope N_scope.

Definition cont_byte (c : ascii) : bool := within 128 191 c.

Lemma within_spec : forall lo hi c, within lo hi c = true <-> lo <= N_of_ascii c <= hi.
Proof. intros. unfold within. rewrite andb_true_iff, N.leb_le, N.leb_le. tauto. Qed.

Lemma within_sub : forall lo hi c, cont_byte c = false -> 128 <= lo -> hi <= 191 -> within lo hi c = false.
Proof.
  intros lo hi c H L U. destruct (within lo hi c) eqn:E; [|reflexivity].
  apply within_spec in E. assert (W : cont_byte c = true) by (apply within_spec; lia). congruence.
Qed.

Lemma lo3 : forall b, 128 <= (if b =? 224 then 160 else 128).
Proof. intro b. destruct (b =? 224); lia. Qed.
Lemma hi3 : forall b, (if b =? 237 then 159 else 191) <= 191.
Proof. intro b. destruct (b =? 237); lia. Qed.
Lemma lo4 : forall b, 128 <= (if b =? 240 then 144 else 128).
Proof. intro b. destruct (b =? 240); lia. Qed.
Lemma hi4 : forall b, (if b =? 244 then 143 else 191) <= 191.
Proof. intro b. destruct (b =? 244); lia. Qed.

(** A byte that is not a continuation byte ends whatever came before it. *)
Lemma decode_cut : forall a x b, a <> [] -> cont_byte x = false -> decode (a ++ x :: b) = decode a.
Proof.
  intros a x b Ha Hx.
  assert (W3 : forall k, within (if k =? 224 then 160 else 128) (if k =? 237 then 159 else 191) x = false)
    by (intro; apply within_sub; auto using lo3, hi3).
  assert (W4 : forall k, within (if k =? 240 then 144 else 128) (if k =? 244 then 143 else 191) x = false)
    by (intro; apply within_sub; auto using lo4, hi4).
  assert (W : within 128 191 x = false) by exact Hx.
  destruct a as [|a0 a]; [congruence|].
  cbn [app]. unfold decode.
  destruct (N_of_ascii a0 <? 128); [reflexivity|].
  destruct ((194 <=? N_of_ascii a0) && (N_of_ascii a0 <=? 223)).
  { destruct a as [|a1 a]; cbn [app]; [rewrite W|]; reflexivity. }
  destruct ((224 <=? N_of_ascii a0) && (N_of_ascii a0 <=? 239)).
  { destruct a as [|a1 a]; cbn [app].
    { destruct b; [reflexivity|]. rewrite W3. reflexivity. }
    destruct a as [|a2 a]; cbn [app]; [|reflexivity].
    rewrite W, andb_false_r. reflexivity. }
  destruct ((240 <=? N_of_ascii a0) && (N_of_ascii a0 <=? 244)); [|reflexivity].
  destruct a as [|a1 a]; cbn [app].
  { destruct b as [|b0 b]; [reflexivity|]. destruct b as [|b1 b]; [reflexivity|]. rewrite W4. reflexivity. }
  destruct a as [|a2 a]; cbn [app].
  { destruct b as [|b0 b]; [reflexivity|]. rewrite W, andb_false_r. reflexivity. }
  destruct a as [|a3 a]; cbn [app]; [|reflexivity].
  rewrite W, andb_false_r. reflexivity.
Qed.

(** The width is at least one and stays inside the string. *)
Lemma decode_width : forall s, s <> [] -> (1 <= snd (decode s) <= List.length s)%nat.
Proof.
  intros s Hs. destruct s as [|a r]; [congruence|]. unfold decode.
  repeat match goal with
         | |- context [if ?c then _ else _] => destruct c
         | |- context [match ?x with [] => _ | _ => _ end] => destruct x
         end; simpl; lia.
Qed.

(** What is decoded without error does not depend on what follows. *)
Lemma decode_app : forall s t, fst (decode s) <> rune_error -> decode (s ++ t) = decode s.
Proof.
  intros s t H. destruct s as [|a r]; [simpl in H; congruence|]. cbn [app]. unfold decode in *.
  destruct (N_of_ascii a <? 128); [reflexivity|].
  destruct ((194 <=? N_of_ascii a) && (N_of_ascii a <=? 223)).
  { destruct r as [|b r]; cbn [app fst] in *; [congruence|reflexivity]. }
  destruct ((224 <=? N_of_ascii a) && (N_of_ascii a <=? 239)).
  { destruct r as [|b r]; cbn [app fst] in *; [congruence|].
    destruct r as [|c r]; cbn [app fst] in *; [congruence|reflexivity]. }
  destruct ((240 <=? N_of_ascii a) && (N_of_ascii a <=? 244)); [|reflexivity].
  destruct r as [|b r]; cbn [app fst] in *; [congruence|].
  destruct r as [|c r]; cbn [app fst] in *; [congruence|].
  destruct r as [|d r]; cbn [app fst] in *; [congruence|reflexivity].
Qed.

(** Cutting a valid sequence at its width keeps it. *)
Lemma decode_firstn : forall s, s <> [] -> decode (firstn (snd (decode s)) s) = decode s.
Proof.
  intros s Hs. destruct s as [|a r]; [congruence|]. unfold decode.
  destruct (N_of_ascii a <? 128) eqn:E0; [cbn [snd firstn]; rewrite E0; reflexivity|].
  destruct ((194 <=? N_of_ascii a) && (N_of_ascii a <=? 223)) eqn:E1.
  { destruct r as [|b r]; cbn [snd firstn]; [rewrite E0, E1; reflexivity|].
    destruct (within 128 191 b) eqn:E2; cbn [snd firstn]; rewrite E0, E1; [rewrite E2|]; reflexivity. }
  destruct ((224 <=? N_of_ascii a) && (N_of_ascii a <=? 239)) eqn:E2.
  { destruct r as [|b r]; cbn [snd firstn]; [rewrite E0, E1, E2; reflexivity|].
    destruct r as [|c r]; cbn [snd firstn]; [rewrite E0, E1, E2; reflexivity|].
    match goal with |- context [if ?c then _ else _] => destruct c eqn:E3 end; cbn [snd firstn];
      rewrite E0, E1, E2; [rewrite E3|]; reflexivity. }
  destruct ((240 <=? N_of_ascii a) && (N_of_ascii a <=? 244)) eqn:E3;
    [|cbn [snd firstn]; rewrite E0, E1, E2, E3; reflexivity].
  destruct r as [|b r]; cbn [snd firstn]; [rewrite E0, E1, E2, E3; reflexivity|].
  destruct r as [|c r]; cbn [snd firstn]; [rewrite E0, E1, E2, E3; reflexivity|].
  destruct r as [|d r]; cbn [snd firstn]; [rewrite E0, E1, E2, E3; reflexivity|].
  match goal with |- context [if ?c then _ else _] => destruct c eqn:E4 end; cbn [snd firstn];
    rewrite E0, E1, E2, E3; [rewrite E4|]; reflexivity.
Qed.

(** The first byte of anything but an error is not a continuation byte. *)
Lemma decode_head : forall a r, fst (decode (a :: r)) <> rune_error -> cont_byte a = false.
Proof.
  intros a r H. unfold decode in H. unfold cont_byte, within.
  destruct (N.ltb_spec (N_of_ascii a) 128).
  { replace (128 <=? N_of_ascii a) with false by (symmetry; apply N.leb_gt; lia). reflexivity. }
  destruct (N.leb_spec (N_of_ascii a) 191); [|rewrite andb_false_r; reflexivity].
  exfalso.
  replace (194 <=? N_of_ascii a) with false in H by (symmetry; apply N.leb_gt; lia).
  replace (224 <=? N_of_ascii a) with false in H by (symmetry; apply N.leb_gt; lia).
  replace (240 <=? N_of_ascii a) with false in H by (symmetry; apply N.leb_gt; lia).
  simpl in H. congruence.
Qed.

(** ** The runes of a string *)

Lemma chunks_f_fuel : forall f s, (List.length s <= f)%nat -> chunks_f f s = chunks s.
Proof.
  unfold chunks.
  assert (G : forall n f g s, (List.length s <= n)%nat -> (List.length s <= f)%nat -> (List.length s <= g)%nat ->
                              chunks_f f s = chunks_f g s).
  { induction n as [|n IH]; intros f g s Hn Hf Hg.
    - destruct s; [|simpl in Hn; lia]. destruct f, g; reflexivity.
    - destruct s as [|a r]; [destruct f, g; reflexivity|].
      destruct f as [|f]; [simpl in Hf; lia|]. destruct g as [|g]; [simpl in Hg; lia|].
      cbn [chunks_f]. pose proof (decode_width (a :: r) ltac:(congruence)) as W.
      destruct (decode (a :: r)) as [x w]. cbn [snd] in W. f_equal.
      apply IH; rewrite skipn_length; simpl List.length in *; lia. }
  intros f s H. apply (G (List.length s)); lia.
Qed.

Lemma chunks_cons : forall s, s <> [] ->
  chunks s = (fst (decode s), firstn (snd (decode s)) s) :: chunks (skipn (snd (decode s)) s).
Proof.
  intros s Hs. destruct s as [|a r]; [congruence|].
  pose proof (decode_width (a :: r) ltac:(congruence)) as W.
  unfold chunks at 1. cbn [List.length chunks_f]. destruct (decode (a :: r)) as [x w] eqn:D. cbn [fst snd] in *.
  f_equal. apply chunks_f_fuel. rewrite skipn_length. simpl List.length in *. lia.
Qed.

Lemma str_len_ind : forall (P : str -> Prop),
  (forall s, (forall t, (List.length t < List.length s)%nat -> P t) -> P s) -> forall s, P s.
Proof.
  intros P H s. assert (G : forall n t, (List.length t < n)%nat -> P t).
  { induction n as [|n IH]; intros t Ht; [lia|]. apply H. intros u Hu. apply IH. lia. }
  apply (G (S (List.length s))). lia.
Qed.

Lemma bytes_app : forall a b, bytes (a ++ b) = bytes a ++ bytes b.
Proof. intros. unfold bytes. rewrite map_app, concat_app. reflexivity. Qed.
Lemma bytes_cons : forall c b, bytes (c :: b) = snd c ++ bytes b.
Proof. reflexivity. Qed.

Lemma bytes_chunks : forall s, bytes (chunks s) = s.
Proof.
  refine (str_len_ind _ _). intros s IH. destruct s as [|a r]; [reflexivity|].
  rewrite chunks_cons by congruence. pose proof (decode_width (a :: r) ltac:(congruence)) as W.
  destruct (decode (a :: r)) as [x w]. cbn [fst snd] in *.
  rewrite bytes_cons. cbn [snd]. rewrite IH; [apply firstn_skipn|]. rewrite skipn_length. simpl List.length in *; lia.
Qed.

Lemma chunks_nil_iff : forall s, chunks s = [] <-> s = [].
Proof.
  intro s. split; intro H; [|subst; reflexivity].
  rewrite <- (bytes_chunks s), H. reflexivity.
Qed.

(** A piece of a string after its first runes. *)
Lemma chunks_suffix : forall cs1 s cs2, chunks s = cs1 ++ cs2 -> chunks (bytes cs2) = cs2.
Proof.
  induction cs1 as [|c cs1 IH]; intros s cs2 H.
  - cbn [app] in H. rewrite <- H, bytes_chunks. reflexivity.
  - destruct s as [|a r]; [discriminate|]. rewrite chunks_cons in H by congruence.
    cbn [app] in H. injection H as _ H. exact (IH _ _ H).
Qed.

(** The runes of a string cut before a byte that is not a continuation byte. *)
Lemma chunks_app_cut : forall a x b, cont_byte x = false -> chunks (a ++ x :: b) = chunks a ++ chunks (x :: b).
Proof.
  refine (str_len_ind _ _). intros a IH. intros x b Hx.
  destruct a as [|a0 a]; [reflexivity|].
  pose proof (decode_width (a0 :: a) ltac:(congruence)) as W.
  rewrite (chunks_cons ((a0 :: a) ++ x :: b)) by (cbn [app]; congruence).
  rewrite (chunks_cons (a0 :: a)) by congruence.
  rewrite decode_cut by (auto; congruence).
  set (w := snd (decode (a0 :: a))) in *.
  rewrite firstn_app, skipn_app.
  replace (w - List.length (a0 :: a))%nat with 0%nat by lia.
  cbn [firstn skipn]. rewrite app_nil_r.
  rewrite <- app_comm_cons. f_equal. apply IH; [|exact Hx].
  rewrite skipn_length. simpl List.length in *. lia.
Qed.

Lemma chunks_ascii : forall x b, (N_of_ascii x < 128) -> chunks (x :: b) = (N_of_ascii x, [x]) :: chunks b.
Proof.
  intros x b H. rewrite chunks_cons by congruence.
  assert (D : decode (x :: b) = (N_of_ascii x, 1%nat)).
  { unfold decode. replace (N_of_ascii x <? 128) with true by (symmetry; apply N.ltb_lt; exact H). reflexivity. }
  rewrite D. reflexivity.
Qed.

Lemma ascii_not_cont : forall x, N_of_ascii x < 128 -> cont_byte x = false.
Proof.
  intros x H. unfold cont_byte, within.
  replace (128 <=? N_of_ascii x) with false by (symmetry; apply N.leb_gt; lia). reflexivity.
Qed.

(** The first runes of a string alone, when the next rune is no error. *)
Lemma chunks_prefix : forall cs1 s cs2, chunks s = cs1 ++ cs2 ->
  (cs2 = [] \/ exists c r, cs2 = c :: r /\ fst c <> rune_error) -> chunks (bytes cs1) = cs1.
Proof.
  intros cs1 s cs2 H [->|(c & r & -> & Hc)].
  - rewrite app_nil_r in H. rewrite <- H, bytes_chunks. reflexivity.
  - pose proof (chunks_suffix _ _ _ H) as HS.
    pose proof (bytes_chunks s) as HB. rewrite H, bytes_app in HB.
    destruct (bytes (c :: r)) as [|x b] eqn:EB; [discriminate HS|].
    assert (Hx : cont_byte x = false).
    { apply (decode_head x b). rewrite chunks_cons in HS by congruence.
      injection HS as HS _. rewrite <- HS in Hc. exact Hc. }
    rewrite <- HB in H. rewrite chunks_app_cut in H by exact Hx. rewrite HS in H.
    apply app_inv_tail in H. exact H.
Qed.

Lemma space_not_error : forall r, is_space_rune r = true -> r <> rune_error.
Proof. intros r H ->. discriminate H. Qed.

(** Runes decoded without error before a string. *)
Lemma chunks_app_valid : forall p s, Forall (fun c => fst c <> rune_error) (chunks p) ->
  chunks (p ++ s) = chunks p ++ chunks s.
Proof.
  refine (str_len_ind _ _). intros p IH. intros s Hp.
  destruct p as [|a r]; [reflexivity|].
  pose proof (decode_width (a :: r) ltac:(congruence)) as W.
  rewrite (chunks_cons (a :: r)) in Hp |- * by congruence.
  inversion Hp as [|? ? H1 H2]; subst. cbn [fst] in H1.
  rewrite (chunks_cons ((a :: r) ++ s)) by (cbn [app]; congruence).
  rewrite decode_app by exact H1.
  set (w := snd (decode (a :: r))) in *.
  rewrite firstn_app, skipn_app.
  replace (w - List.length (a :: r))%nat with 0%nat by lia.
  cbn [firstn skipn]. rewrite app_nil_r, <- app_comm_cons. f_equal.
  apply IH; [|exact H2]. rewrite skipn_length. simpl List.length in *. lia.
Qed.

(** ** White space *)

Lemma span_space_app : forall cs, fst (span_space cs) ++ snd (span_space cs) = cs.
Proof.
  induction cs as [|c r IH]; [reflexivity|]. cbn [span_space]. destruct (sp_chunk c); [|reflexivity].
  destruct (span_space r) as [a b]. cbn [fst snd app] in *. rewrite IH. reflexivity.
Qed.
Lemma span_space_fst : forall cs, Forall (fun c => sp_chunk c = true) (fst (span_space cs)).
Proof.
  induction cs as [|c r IH]; [constructor|]. cbn [span_space]. destruct (sp_chunk c) eqn:E; [|constructor].
  destruct (span_space r) as [a b]. cbn [fst] in *. constructor; assumption.
Qed.
Lemma span_space_snd : forall cs, match snd (span_space cs) with [] => True | c :: _ => sp_chunk c = false end.
Proof.
  induction cs as [|c r IH]; [exact I|]. cbn [span_space]. destruct (sp_chunk c) eqn:E; [|exact E].
  destruct (span_space r) as [a b]. exact IH.
Qed.
Lemma span_space_intro : forall a b, Forall (fun c => sp_chunk c = true) a ->
  match b with [] => True | c :: _ => sp_chunk c = false end -> span_space (a ++ b) = (a, b).
Proof.
  induction a as [|c a IH]; intros b Ha Hb.
  - destruct b as [|c b]; [reflexivity|]. cbn [app span_space]. rewrite Hb. reflexivity.
  - inversion Ha; subst. cbn [app span_space]. rewrite (IH b) by assumption.
    match goal with H : sp_chunk c = true |- _ => rewrite H end. reflexivity.
Qed.

(** A text whose runes are all white space. *)
Definition all_space (s : str) : Prop := is_blank s = true.

Lemma all_space_forall : forall s, all_space s <-> Forall (fun c => sp_chunk c = true) (chunks s).
Proof.
  intro s. unfold all_space, is_blank. rewrite forallb_forall, Forall_forall. reflexivity.
Qed.

Lemma all_space_app : forall p s, all_space p -> chunks (p ++ s) = chunks p ++ chunks s.
Proof.
  intros p s H. apply chunks_app_valid. apply all_space_forall in H. eapply Forall_impl; [|exact H].
  intros c Hc. apply space_not_error. exact Hc.
Qed.

Lemma is_blank_app : forall p s, all_space p -> is_blank (p ++ s) = is_blank s.
Proof.
  intros p s H. unfold is_blank. rewrite (all_space_app p s H), forallb_app.
  unfold all_space, is_blank in H. rewrite H. reflexivity.
Qed.

(** The leading white space of a string: it is a prefix, it is white space, and what follows does not
    start with white space. *)
Lemma leading_space_app : forall s, leading_space s ++ trim_left_space s = s.
Proof.
  intro s. unfold leading_space, trim_left_space. rewrite <- bytes_app, span_space_app, bytes_chunks. reflexivity.
Qed.

Lemma prefix_of_space : forall s cs1 cs2, chunks s = cs1 ++ cs2 -> Forall (fun c => sp_chunk c = true) cs1 ->
  chunks (bytes cs1) = cs1.
Proof.
  refine (str_len_ind _ _). intros s IH cs1 cs2 H F.
  destruct cs1 as [|c cs1]; [reflexivity|].
  destruct s as [|a r]; [discriminate H|].
  pose proof (decode_width (a :: r) ltac:(congruence)) as W.
  pose proof (decode_firstn (a :: r) ltac:(congruence)) as D.
  rewrite chunks_cons in H by congruence. cbn [app] in H.
  destruct (decode (a :: r)) as [x w] eqn:ED. cbn [fst snd] in *.
  inversion H as [[Hc H']]. clear H. subst c.
  inversion F as [|? ? F1 F2]; subst.
  assert (NE : x <> rune_error) by (apply space_not_error; exact F1).
  assert (L : List.length (firstn w (a :: r)) = w) by (apply firstn_length_le; lia).
  assert (N0 : firstn w (a :: r) <> []) by (intro Q; rewrite Q in L; simpl in L; lia).
  rewrite bytes_cons. cbn [snd].
  rewrite chunks_cons by (intro Q; apply app_eq_nil in Q as [Q _]; exact (N0 Q)).
  assert (DA : decode (firstn w (a :: r) ++ bytes cs1) = (x, w))
    by (rewrite decode_app; rewrite D; [reflexivity|exact NE]).
  rewrite DA. cbn [fst snd].
  rewrite firstn_app, L, skipn_app, L, Nat.sub_diag. cbn [firstn skipn].
  rewrite app_nil_r, firstn_firstn, Nat.min_id.
  rewrite skipn_all2 by (rewrite L; apply Nat.le_refl). cbn [app].
  f_equal. apply (IH (skipn w (a :: r))) with cs2; [|exact H'|exact F2].
  rewrite skipn_length. simpl List.length in *. lia.
Qed.

Lemma leading_space_all : forall s, all_space (leading_space s).
Proof.
  intro s. apply all_space_forall. unfold leading_space.
  rewrite (prefix_of_space s (fst (span_space (chunks s))) (snd (span_space (chunks s)))).
  - apply span_space_fst.
  - symmetry. apply span_space_app.
  - apply span_space_fst.
Qed.

(** No leading white space. *)
Definition starts_nonspace (s : str) : Prop := exists c r, chunks s = c :: r /\ sp_chunk c = false.

Lemma leading_space_app_space : forall p s, all_space p -> leading_space (p ++ s) = p ++ leading_space s.
Proof.
  intros p s H. unfold leading_space. rewrite (all_space_app p s H).
  apply all_space_forall in H.
  rewrite <- (span_space_app (chunks s)), app_assoc.
  rewrite span_space_intro.
  - cbn [fst]. rewrite bytes_app, bytes_chunks. rewrite span_space_app. reflexivity.
  - apply Forall_app. split; [exact H|]. apply span_space_fst.
  - apply span_space_snd.
Qed.

Lemma leading_space_none : forall s, starts_nonspace s -> leading_space s = [].
Proof.
  intros s (c & r & H & Hc). unfold leading_space. rewrite H. cbn [span_space]. rewrite Hc. reflexivity.
Qed.
Lemma starts_nonspace_not_blank : forall s, starts_nonspace s -> is_blank s = false.
Proof. intros s (c & r & H & Hc). unfold is_blank. rewrite H. cbn [forallb]. rewrite Hc. reflexivity. Qed.

(** ** Fields *)


Lemma fields_go_app_space : forall cs1 cur c cs2, sp_chunk c = true ->
  fields_go (cs1 ++ c :: cs2) cur = fields_go cs1 cur ++ fields_go cs2 [].
Proof.
  induction cs1 as [|d cs1 IH]; intros cur c cs2 Hc.
  - cbn [app fields_go]. rewrite Hc. destruct cur; reflexivity.
  - cbn [app fields_go]. destruct (sp_chunk d).
    + rewrite (IH [] c cs2 Hc). destruct cur; reflexivity.
    + apply IH. exact Hc.
Qed.

Lemma fields_go_space_left : forall cs1 cs2, Forall (fun c => sp_chunk c = true) cs1 ->
  fields_go (cs1 ++ cs2) [] = fields_go cs2 [].
Proof.
  induction cs1 as [|c cs1 IH]; intros cs2 F; [reflexivity|]. inversion F; subst.
  cbn [app fields_go]. match goal with H : sp_chunk c = true |- _ => rewrite H end. apply IH. assumption.
Qed.

Lemma fields_go_nonspace : forall cs cur, Forall (fun c => sp_chunk c = false) cs ->
  fields_go cs cur = match cur ++ cs with [] => [] | _ => [bytes (cur ++ cs)] end.
Proof.
  induction cs as [|c cs IH]; intros cur F.
  - cbn [fields_go]. rewrite app_nil_r. reflexivity.
  - inversion F; subst. cbn [fields_go]. match goal with H : sp_chunk c = false |- _ => rewrite H end.
    rewrite IH by assumption. rewrite <- app_assoc. reflexivity.
Qed.

Definition ascii_space (x : ascii) : bool := (N_of_ascii x <? 128) && is_space_rune (N_of_ascii x).

Lemma fields_cut : forall a x b, ascii_space x = true -> fields (a ++ x :: b) = fields a ++ fields b.
Proof.
  intros a x b H. unfold ascii_space in H. apply andb_true_iff in H as [H1 H2]. apply N.ltb_lt in H1.
  unfold fields. rewrite chunks_app_cut by (apply ascii_not_cont; exact H1).
  rewrite chunks_ascii by exact H1. apply fields_go_app_space. exact H2.
Qed.

Lemma fields_space_left : forall p s, all_space p -> fields (p ++ s) = fields s.
Proof.
  intros p s H. unfold fields. rewrite all_space_app by exact H. apply fields_go_space_left.
  apply all_space_forall. exact H.
Qed.

Lemma fields_blank : forall s, all_space s -> fields s = [].
Proof. intros s H. rewrite <- (app_nil_r s). rewrite fields_space_left by exact H. reflexivity. Qed.

(** A word: not empty, without white space. *)
Definition is_word (w : str) : Prop := w <> [] /\ Forall (fun c => sp_chunk c = false) (chunks w).

Lemma fields_word : forall w, is_word w -> fields w = [w].
Proof.
  intros w [H1 H2]. unfold fields. rewrite fields_go_nonspace by exact H2. cbn [app].
  rewrite bytes_chunks. destruct (chunks w) eqn:E; [|reflexivity].
  apply chunks_nil_iff in E. congruence.
Qed.

Lemma fields_go_words : forall cs cur s, chunks s = cur ++ cs -> Forall (fun c => sp_chunk c = false) cur ->
  Forall is_word (fields_go cs cur).
Proof.
  assert (W : forall cur, cur <> [] -> chunks (bytes cur) = cur -> Forall (fun c => sp_chunk c = false) cur ->
                          is_word (bytes cur)).
  { intros cur N0 C F. split; [|rewrite C; exact F]. intro E. rewrite E in C. apply N0. rewrite <- C. reflexivity. }
  induction cs as [|c cs IH]; intros cur s H F.
  - cbn [fields_go]. destruct cur as [|k cur]; [constructor|]. constructor; [|constructor].
    apply W; [congruence| |exact F]. apply (chunks_prefix (k :: cur) s []); auto.
  - cbn [fields_go]. destruct (sp_chunk c) eqn:E.
    + assert (HS : chunks (bytes cs) = [] ++ cs).
      { apply (chunks_suffix (cur ++ [c]) s). rewrite H, <- app_assoc. reflexivity. }
      destruct cur as [|k cur].
      * apply (IH [] _ HS). constructor.
      * constructor; [|apply (IH [] _ HS); constructor].
        apply W; [congruence| |exact F]. apply (chunks_prefix (k :: cur) s (c :: cs)); [exact H|].
        right. exists c, cs. split; [reflexivity|]. apply space_not_error. exact E.
    + apply (IH (cur ++ [c]) s); [rewrite H, <- app_assoc; reflexivity|].
      apply Forall_app. split; [exact F|]. constructor; [exact E|constructor].
Qed.

Lemma fields_words : forall s, Forall is_word (fields s).
Proof. intro s. apply (fields_go_words (chunks s) [] s); [reflexivity|constructor]. Qed.

Lemma fields_join : forall x ls, ascii_space x = true -> fields (join [x] ls) = flat_map fields ls.
Proof.
  intros x ls Hx. induction ls as [|a ls IH]; [reflexivity|].
  destruct ls as [|b ls]; [cbn [join flat_map]; rewrite app_nil_r; reflexivity|].
  change (join [x] (a :: b :: ls)) with (a ++ [x] ++ join [x] (b :: ls)).
  cbn [app]. rewrite fields_cut by exact Hx. rewrite IH. reflexivity.
Qed.

Lemma fields_join_words : forall ws, Forall is_word ws -> fields (join [SP] ws) = ws.
Proof.
  intros ws F. rewrite fields_join by reflexivity.
  induction F as [|w ws H F IH]; [reflexivity|]. cbn [flat_map]. rewrite fields_word by exact H.
  rewrite IH. reflexivity.
Qed.

(** Trailing white space. *)
Lemma fields_trim_right : forall s, fields (trim_right_space s) = fields s.
Proof.
  intro s. unfold trim_right_space.
  set (R := span_space (rev (chunks s))).
  assert (A : chunks s = rev (snd R) ++ rev (fst R)).
  { rewrite <- rev_app_distr. unfold R. rewrite span_space_app, rev_involutive. reflexivity. }
  assert (F : Forall (fun c => sp_chunk c = true) (rev (fst R))) by (apply Forall_rev; apply span_space_fst).
  assert (P : chunks (bytes (rev (snd R))) = rev (snd R)).
  { apply (chunks_prefix _ s _ A). destruct (rev (fst R)) as [|c r] eqn:E; [left; reflexivity|right].
    exists c, r. split; [reflexivity|]. inversion F; subst. apply space_not_error. assumption. }
  unfold fields. rewrite P, A.
  destruct (rev (fst R)) as [|c r] eqn:E; [rewrite app_nil_r; reflexivity|].
  inversion F as [|? ? F1 F2]; subst. rewrite fields_go_app_space by exact F1.
  rewrite <- (app_nil_r r). rewrite fields_go_space_left by exact F2. cbn [fields_go]. rewrite app_nil_r. reflexivity.
Qed.

Lemma fields_nil_blank : forall s, fields s = [] -> is_blank s = true.
Proof.
  intros s H. unfold is_blank, fields in *.
  assert (G : forall cs cur, fields_go cs cur = [] -> cur = [] /\ forallb sp_chunk cs = true).
  { induction cs as [|c cs IH]; intros cur Hf.
    - cbn [fields_go] in Hf. destruct cur; [split; reflexivity|discriminate].
    - cbn [fields_go] in Hf. cbn [forallb]. destruct (sp_chunk c).
      + destruct cur; [|discriminate]. apply IH in Hf as [_ Hf]. split; [reflexivity|exact Hf].
      + apply IH in Hf as [Hf _]. destruct cur; discriminate. }
  apply G in H. tauto.
Qed.
