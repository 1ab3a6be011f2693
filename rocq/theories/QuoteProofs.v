(** A quoted text is read back as the text. *)
From Coq Require Import String Ascii List ZArith NArith Bool Lia.
From Verif Require Import GoStr GoStrFacts Utf8 Utf8Facts QuoteModel QuoteSpec.
Import ListNotations.
Local Open Scope N_scope.

Lemma digit_hex : forall n, n < 16 -> digit_value (low_digit n) = Some n.
Proof.
  intros n H. destruct n as [|p]; [reflexivity|].
  do 4 (destruct p as [p|p|]; try reflexivity; try lia).
Qed.

Lemma number_app : forall a c, number (a ++ [c]) =
  match number a, digit_value c with Some n, Some d => Some (16 * n + d) | _, _ => None end.
Proof. intros. unfold number. rewrite fold_left_app. reflexivity. Qed.

Lemma number_hex : forall w n, n < 16 ^ N.of_nat w -> number (low_hex w n) = Some n.
Proof.
  induction w as [|w IH]; intros n H.
  - cbn in H. assert (n = 0) by lia. subst. reflexivity.
  - cbn [low_hex]. rewrite number_app, IH.
    + rewrite digit_hex by (apply N.mod_lt; lia). f_equal. symmetry. apply N.div_mod. lia.
    + rewrite Nat2N.inj_succ, N.pow_succ_r' in H. apply N.div_lt_upper_bound; lia.
Qed.
Lemma hex_length : forall w n, List.length (low_hex w n) = w.
Proof. induction w; intro n; [reflexivity|]. cbn [low_hex]. rewrite app_length, IHw. cbn. lia. Qed.

Lemma body_plain : forall c r, c <> DQ -> c <> BSL -> literal_body (c :: r) = more (Some [c]) (literal_body r).
Proof.
  intros c r A B. destruct c as [b0 b1 b2 b3 b4 b5 b6 b7].
  destruct b0, b1, b2, b3, b4, b5, b6, b7; try reflexivity; exfalso; (apply A + apply B); reflexivity.
Qed.
Lemma body_x : forall a b r, literal_body (BSL :: "x"%char :: a :: b :: r) = more (one_byte [a; b]) (literal_body r).
Proof. reflexivity. Qed.
Lemma body_u : forall a b c d r, literal_body (BSL :: "u"%char :: a :: b :: c :: d :: r) = more (code [a; b; c; d]) (literal_body r).
Proof. reflexivity. Qed.
Lemma body_U : forall a b c d e f g h r, literal_body (BSL :: "U"%char :: a :: b :: c :: d :: e :: f :: g :: h :: r)
  = more (code [a; b; c; d; e; f; g; h]) (literal_body r).
Proof. reflexivity. Qed.

Lemma body_hex2 : forall n r, n < 256 -> literal_body (BSL :: $"x" ++ low_hex 2 n ++ r) = more (Some [ascii_of_N n]) (literal_body r).
Proof.
  intros n r H. pose proof (number_hex 2 n H) as N. pose proof (hex_length 2 n) as L.
  destruct (low_hex 2 n) as [|a [|b [|]]]; try discriminate L. cbn [app]. change (BSL :: $"x" ++ a :: b :: r) with (BSL :: "x"%char :: a :: b :: r).
  rewrite body_x. unfold one_byte. rewrite N. reflexivity.
Qed.
Lemma body_hex4 : forall n r, n < 65536 -> literal_body (BSL :: $"u" ++ low_hex 4 n ++ r) = more (Some (utf8 n)) (literal_body r).
Proof.
  intros n r H. pose proof (number_hex 4 n H) as N. pose proof (hex_length 4 n) as L.
  destruct (low_hex 4 n) as [|a [|b [|c [|d [|]]]]]; try discriminate L. cbn [app].
  change (BSL :: $"u" ++ a :: b :: c :: d :: r) with (BSL :: "u"%char :: a :: b :: c :: d :: r).
  rewrite body_u. unfold code. rewrite N. reflexivity.
Qed.
Lemma body_hex8 : forall n r, n < 4294967296 -> literal_body (BSL :: $"U" ++ low_hex 8 n ++ r) = more (Some (utf8 n)) (literal_body r).
Proof.
  intros n r H. pose proof (number_hex 8 n H) as N. pose proof (hex_length 8 n) as L.
  destruct (low_hex 8 n) as [|a [|b [|c [|d [|e [|f [|g [|h [|]]]]]]]]]; try discriminate L. cbn [app].
  change (BSL :: $"U" ++ a :: b :: c :: d :: e :: f :: g :: h :: r) with (BSL :: "U"%char :: a :: b :: c :: d :: e :: f :: g :: h :: r).
  rewrite body_U. unfold code. rewrite N. reflexivity.
Qed.

(** ** The runes of a text *)
Definition good (c : chunk) : Prop :=
  (exists x, c = (N_of_ascii x, [x]) /\ N_of_ascii x < 128)
  \/ (exists x, c = (rune_error, [x]) /\ 128 <= N_of_ascii x)
  \/ (128 <= fst c < 1114112 /\ (2 <= List.length (snd c))%nat /\ utf8 (fst c) = snd c /\ Forall (fun x => 128 <= N_of_ascii x) (snd c)).

Lemma asc : forall x, N_of_ascii x < 256.
Proof. exact N_ascii_bounded. Qed.
Lemma back : forall x n, n = N_of_ascii x -> ascii_of_N n = x.
Proof. intros x n ->. apply ascii_N_embedding. Qed.

Ltac bits := repeat match goal with
  | H : within _ _ _ = true |- _ => apply within_spec in H
  | H : (_ && _) = true |- _ => apply andb_true_iff in H; destruct H
  | H : (_ <=? _) = true |- _ => apply N.leb_le in H
  | H : (_ <? _) = false |- _ => apply N.ltb_ge in H
  end.

Lemma decode_good : forall s, s <> [] -> good (fst (decode s), firstn (snd (decode s)) s).
Proof.
  intros s Hs. destruct s as [|a r]; [congruence|]. unfold decode.
  pose proof (asc a) as Ba.
  destruct (N_of_ascii a <? 128) eqn:E0.
  { apply N.ltb_lt in E0. left. exists a. split; [reflexivity|exact E0]. }
  apply N.ltb_ge in E0.
  assert (Bad : good (rune_error, firstn 1 (a :: r))) by (right; left; exists a; split; [reflexivity|exact E0]).
  destruct ((194 <=? N_of_ascii a) && (N_of_ascii a <=? 223)) eqn:E1.
  { destruct r as [|b r]; [exact Bad|]. destruct (within 128 191 b) eqn:W; [|exact Bad]. bits.
    right. right. cbn [fst snd firstn]. pose proof (asc b).
    set (n := (N_of_ascii a - 192) * 64 + (N_of_ascii b - 128)).
    assert (D : n / 64 = N_of_ascii a - 192) by (unfold n; rewrite N.div_add_l by lia; rewrite N.div_small by lia; lia).
    assert (M : n mod 64 = N_of_ascii b - 128) by (unfold n; rewrite N.add_comm, N.mod_add by lia; apply N.mod_small; lia).
    split; [unfold n; lia|]. split; [cbn; lia|]. split.
    - unfold utf8. replace (n <? 128) with false by (symmetry; apply N.ltb_ge; unfold n; lia).
      replace (n <? 2048) with true by (symmetry; apply N.ltb_lt; unfold n; lia).
      cbn [map]. rewrite D, M. f_equal; [apply back; lia|f_equal; apply back; lia].
    - repeat (apply Forall_cons; [lia|]). apply Forall_nil. }
  destruct ((224 <=? N_of_ascii a) && (N_of_ascii a <=? 239)) eqn:E2.
  { destruct r as [|b [|c r]]; try exact Bad.
    destruct (within (if N_of_ascii a =? 224 then 160 else 128) (if N_of_ascii a =? 237 then 159 else 191) b && within 128 191 c) eqn:W; [|exact Bad].
    apply andb_true_iff in W. destruct W as [W1 W2]. apply within_spec in W1, W2.
    pose proof (lo3 (N_of_ascii a)). pose proof (hi3 (N_of_ascii a)). bits.
    right. right. cbn [fst snd firstn].
    set (n := (N_of_ascii a - 224) * 4096 + (N_of_ascii b - 128) * 64 + (N_of_ascii c - 128)).
    assert (L : 2048 <= n).
    { destruct (N.eqb_spec (N_of_ascii a) 224); unfold n; lia. }
    assert (Q : n / 64 = (N_of_ascii a - 224) * 64 + (N_of_ascii b - 128)).
    { replace n with (((N_of_ascii a - 224) * 64 + (N_of_ascii b - 128)) * 64 + (N_of_ascii c - 128)) by (unfold n; lia).
      rewrite N.div_add_l by lia. rewrite N.div_small by lia. lia. }
    assert (M : n mod 64 = N_of_ascii c - 128).
    { replace n with ((N_of_ascii c - 128) + ((N_of_ascii a - 224) * 64 + (N_of_ascii b - 128)) * 64) by (unfold n; lia).
      rewrite N.mod_add by lia. apply N.mod_small. lia. }
    assert (D : n / 4096 = N_of_ascii a - 224).
    { change 4096 with (64 * 64). rewrite <- N.div_div by lia. rewrite Q. rewrite N.div_add_l by lia. rewrite N.div_small by lia. lia. }
    assert (Q2 : n / 64 mod 64 = N_of_ascii b - 128).
    { rewrite Q. rewrite N.add_comm, N.mod_add by lia. apply N.mod_small. lia. }
    split; [unfold n in *; lia|]. split; [cbn; lia|]. split.
    - unfold utf8. replace (n <? 128) with false by (symmetry; apply N.ltb_ge; lia).
      replace (n <? 2048) with false by (symmetry; apply N.ltb_ge; lia).
      replace (n <? 65536) with true by (symmetry; apply N.ltb_lt; unfold n; lia).
      cbn [map]. rewrite D, M, Q2. repeat f_equal; apply back; lia.
    - repeat (apply Forall_cons; [lia|]). apply Forall_nil. }
  destruct ((240 <=? N_of_ascii a) && (N_of_ascii a <=? 244)) eqn:E3; [|exact Bad].
  destruct r as [|b [|c [|d r]]]; try exact Bad.
  destruct (within (if N_of_ascii a =? 240 then 144 else 128) (if N_of_ascii a =? 244 then 143 else 191) b && within 128 191 c && within 128 191 d) eqn:W; [|exact Bad].
  apply andb_true_iff in W. destruct W as [W1 W3]. apply andb_true_iff in W1. destruct W1 as [W1 W2]. apply within_spec in W1, W2, W3.
  pose proof (lo4 (N_of_ascii a)). pose proof (hi4 (N_of_ascii a)). bits.
  right. right. cbn [fst snd firstn].
  set (n := (N_of_ascii a - 240) * 262144 + (N_of_ascii b - 128) * 4096 + (N_of_ascii c - 128) * 64 + (N_of_ascii d - 128)).
  assert (L : 65536 <= n) by (destruct (N.eqb_spec (N_of_ascii a) 240); unfold n; lia).
  assert (U : n < 1114112) by (destruct (N.eqb_spec (N_of_ascii a) 244); unfold n; lia).
  assert (Q : n / 64 = (N_of_ascii a - 240) * 4096 + (N_of_ascii b - 128) * 64 + (N_of_ascii c - 128)).
  { replace n with (((N_of_ascii a - 240) * 4096 + (N_of_ascii b - 128) * 64 + (N_of_ascii c - 128)) * 64 + (N_of_ascii d - 128)) by (unfold n; lia).
    rewrite N.div_add_l by lia. rewrite N.div_small by lia. lia. }
  assert (M : n mod 64 = N_of_ascii d - 128).
  { replace n with ((N_of_ascii d - 128) + ((N_of_ascii a - 240) * 4096 + (N_of_ascii b - 128) * 64 + (N_of_ascii c - 128)) * 64) by (unfold n; lia).
    rewrite N.mod_add by lia. apply N.mod_small. lia. }
  assert (Q2 : n / 4096 = (N_of_ascii a - 240) * 64 + (N_of_ascii b - 128)).
  { change 4096 with (64 * 64). rewrite <- N.div_div by lia. rewrite Q.
    replace ((N_of_ascii a - 240) * 4096) with ((N_of_ascii a - 240) * 64 * 64) by lia.
    rewrite <- N.mul_add_distr_r, N.div_add_l by lia. rewrite N.div_small by lia. lia. }
  assert (D : n / 262144 = N_of_ascii a - 240).
  { change 262144 with (4096 * 64). rewrite <- N.div_div by lia. rewrite Q2. rewrite N.div_add_l by lia. rewrite N.div_small by lia. lia. }
  assert (M1 : n / 64 mod 64 = N_of_ascii c - 128).
  { rewrite Q. replace ((N_of_ascii a - 240) * 4096 + (N_of_ascii b - 128) * 64 + (N_of_ascii c - 128))
      with ((N_of_ascii c - 128) + ((N_of_ascii a - 240) * 64 + (N_of_ascii b - 128)) * 64) by lia.
    rewrite N.mod_add by lia. apply N.mod_small. lia. }
  assert (M2 : n / 4096 mod 64 = N_of_ascii b - 128).
  { rewrite Q2. rewrite N.add_comm, N.mod_add by lia. apply N.mod_small. lia. }
  split; [lia|]. split; [cbn; lia|]. split.
  - unfold utf8. replace (n <? 128) with false by (symmetry; apply N.ltb_ge; lia).
    replace (n <? 2048) with false by (symmetry; apply N.ltb_ge; lia).
    replace (n <? 65536) with false by (symmetry; apply N.ltb_ge; lia).
    cbn [map]. rewrite D, M, M1, M2. repeat f_equal; apply back; lia.
  - repeat (apply Forall_cons; [lia|]). apply Forall_nil.
Qed.

Lemma chunks_good : forall s, Forall good (chunks s).
Proof.
  refine (str_len_ind _ _). intros s IH. destruct s as [|a r]; [constructor|].
  rewrite chunks_cons by congruence. apply Forall_cons; [apply decode_good; congruence|].
  apply IH. pose proof (decode_width (a :: r) ltac:(congruence)) as W. rewrite skipn_length. lia.
Qed.

Lemma body_high : forall b r, Forall (fun x => 128 <= N_of_ascii x) b -> literal_body (b ++ r) = more (Some b) (literal_body r).
Proof.
  induction b as [|c b IH]; intros r H.
  - cbn [app]. destruct (literal_body r) as [[t u]|]; reflexivity.
  - inversion H; subst. cbn [app]. rewrite body_plain, IH by (try assumption; intros ->; vm_compute in *; congruence).
    destruct (literal_body r) as [[t u]|]; reflexivity.
Qed.

Section WithEnv.
Context {P : PrintEnv}.

Lemma body_escape : forall n r, 128 <= n < 1114112 -> literal_body (escape n ++ r) = more (Some (utf8 n)) (literal_body r).
Proof.
  intros n r H. unfold escape.
  repeat match goal with |- context [n =? ?k] => replace (n =? k) with false by (symmetry; apply N.eqb_neq; lia) end.
  replace (n <? 32) with false by (symmetry; apply N.ltb_ge; lia). cbn [orb].
  destruct (N.ltb_spec n 65536).
  - change ((BSL :: $"u" ++ low_hex 4 n) ++ r) with (BSL :: ($"u" ++ low_hex 4 n) ++ r). rewrite <- app_assoc. apply body_hex4. assumption.
  - change ((BSL :: $"U" ++ low_hex 8 n) ++ r) with (BSL :: ($"U" ++ low_hex 8 n) ++ r). rewrite <- app_assoc. apply body_hex8. lia.
Qed.

Lemma body_ascii : forall x r, N_of_ascii x < 128 ->
  literal_body (quote_chunk (N_of_ascii x, [x]) ++ r) = more (Some [x]) (literal_body r).
Proof.
  intros x r H. destruct x as [b0 b1 b2 b3 b4 b5 b6 b7]. destruct b7; [exfalso; destruct b0, b1, b2, b3, b4, b5, b6; vm_compute in H; congruence|].
  destruct b0, b1, b2, b3, b4, b5, b6; reflexivity.
Qed.

Lemma body_chunk : forall c r, good c -> literal_body (quote_chunk c ++ r) = more (Some (snd c)) (literal_body r).
Proof.
  intros [n b] r [(x & E & H)|[(x & E & H)|(H & L & U & F)]].
  - inversion E; subst. apply body_ascii. exact H.
  - inversion E; subst. unfold quote_chunk. change (rune_error =? rune_error) with true. cbv iota. cbn [snd].
    change ((BSL :: $"x" ++ low_hex 2 (N_of_ascii x)) ++ r) with (BSL :: ($"x" ++ low_hex 2 (N_of_ascii x)) ++ r).
    rewrite <- app_assoc, body_hex2 by apply asc. rewrite ascii_N_embedding. reflexivity.
  - cbn [fst snd] in *. unfold quote_chunk. destruct b as [|x [|y b]]; cbn [List.length] in L; try lia.
    destruct (is_print n); [apply body_high; exact F|]. rewrite body_escape by exact H. rewrite U. reflexivity.
Qed.

Lemma body_chunks : forall cs r, Forall good cs ->
  literal_body (concat (map quote_chunk cs) ++ r) = more (Some (bytes cs)) (literal_body r).
Proof.
  induction cs as [|c cs IH]; intros r H.
  - cbn. destruct (literal_body r) as [[t u]|]; reflexivity.
  - inversion H; subst. cbn [map concat]. rewrite <- app_assoc, body_chunk, IH by assumption. rewrite bytes_cons.
    destruct (literal_body r) as [[t u]|]; [|reflexivity]. cbn [more]. rewrite app_assoc. reflexivity.
Qed.

(** Quoting is undone by reading the literal, whatever the text. *)
Lemma read_quote : forall s r, read_literal (go_quote s ++ r) = Some (s, r).
Proof.
  intros s r. unfold go_quote, read_literal. cbn [app]. change DQ with """"%char at 1. cbv iota. rewrite <- app_assoc.
  rewrite body_chunks by apply chunks_good. rewrite bytes_chunks. cbn [app]. change (literal_body (DQ :: r)) with (Some (@nil ascii, r)).
  cbn [more]. rewrite app_nil_r. reflexivity.
Qed.
Lemma go_quote_inj : forall a b r r', go_quote a ++ r = go_quote b ++ r' -> a = b /\ r = r'.
Proof.
  intros a b r r' H. pose proof (read_quote a r) as A. rewrite H, read_quote in A. inversion A. auto.
Qed.

End WithEnv.

(** Quoted texts have no control character. *)
Definition clear_byte (c : ascii) : Prop := 128 <= N_of_ascii c \/ 32 <= N_of_ascii c <= 126.
Lemma clear_dec : forall c, (128 <=? N_of_ascii c) || (32 <=? N_of_ascii c) && (N_of_ascii c <=? 126) = true -> clear_byte c.
Proof. intros c H. apply orb_true_iff in H. destruct H as [H|H]; [left|right]; bits; [|split]; assumption. Qed.
Lemma hex_clear : forall w n, Forall clear_byte (low_hex w n).
Proof.
  induction w as [|w IH]; intro n; cbn [low_hex]; [constructor|]. apply Forall_app. split; [apply IH|]. constructor; [|constructor]. unfold low_digit.
  destruct (nth_in_or_default (N.to_nat (n mod 16)) $"0123456789abcdef" "0"%char) as [I| ->]; [|apply clear_dec; reflexivity].
  repeat (destruct I as [<-|I]; [apply clear_dec; reflexivity|]). destruct I.
Qed.
Lemma clear_text : forall s, forallb (fun c => (128 <=? N_of_ascii c) || (32 <=? N_of_ascii c) && (N_of_ascii c <=? 126)) s = true -> Forall clear_byte s.
Proof. intros s H. rewrite forallb_forall in H. apply Forall_forall. intros c I. apply clear_dec, H. exact I. Qed.
Lemma escape_clear : forall r, Forall clear_byte (escape r).
Proof.
  intro r. unfold escape. constructor; [apply clear_dec; reflexivity|].
  repeat match goal with |- Forall _ (if ?b then _ else _) => destruct b end; try (apply clear_text; reflexivity); (apply Forall_app; split; [apply clear_text; reflexivity|apply hex_clear]).
Qed.
Lemma quote_clear : forall {P : PrintEnv} s, Forall clear_byte (go_quote s).
Proof.
  intros P s. unfold go_quote. constructor; [apply clear_dec; reflexivity|]. apply Forall_app. split; [|apply clear_text; reflexivity].
  pose proof (chunks_good s) as G. induction G as [|[n b] cs [(x & E & H)|[(x & E & H)|(H & L & U & F)]] _ IH]; [constructor| | |]; cbn [map concat]; apply Forall_app; (split; [|exact IH]).
  - inversion E; subst. unfold quote_chunk. destruct (N_of_ascii x =? rune_error) eqn:X; [apply N.eqb_eq in X; unfold rune_error in X; lia|]. destruct ((N_of_ascii x =? 34) || (N_of_ascii x =? 92)) eqn:Y.
    + constructor; [apply clear_dec; reflexivity|]. constructor; [|constructor]. right. apply orb_true_iff in Y. destruct Y as [Y|Y]; apply N.eqb_eq in Y; rewrite Y; lia.
    + unfold is_print. replace (N_of_ascii x <? 128) with true by (symmetry; apply N.ltb_lt; exact H). destruct ((32 <=? N_of_ascii x) && (N_of_ascii x <=? 126)) eqn:Z; [|apply escape_clear].
      constructor; [|constructor]. right. bits. split; assumption.
  - inversion E; subst. unfold quote_chunk. change (rune_error =? rune_error) with true. cbv iota. constructor; [apply clear_dec; reflexivity|]. apply Forall_app. split; [apply clear_text; reflexivity|apply hex_clear].
  - cbn [fst snd] in *. unfold quote_chunk. destruct b as [|x [|y b]]; cbn [List.length] in L; try lia.
    destruct (is_print n); [|apply escape_clear]. eapply Forall_impl; [|exact F]. intros c X. left. exact X.
Qed.
(** Texts of printable ASCII without quote nor backslash are only surrounded by quotes. *)
Lemma quote_plain : forall {P : PrintEnv} s, Forall (fun c => 32 <= N_of_ascii c <= 126 /\ c <> DQ /\ c <> BSL) s -> go_quote s = DQ :: s ++ [DQ].
Proof.
  intros P s F. unfold go_quote. f_equal. f_equal. induction F as [|x s ((A & B) & N1 & N2) F IH]; [reflexivity|].
  rewrite chunks_ascii by lia. cbn [map concat]. rewrite IH. unfold quote_chunk. destruct (N_of_ascii x =? rune_error) eqn:X; [apply N.eqb_eq in X; unfold rune_error in X; lia|].
  destruct ((N_of_ascii x =? 34) || (N_of_ascii x =? 92)) eqn:Y.
  - exfalso. apply orb_true_iff in Y. destruct Y as [Y|Y]; apply N.eqb_eq in Y; [apply N1|apply N2]; rewrite <- (ascii_N_embedding x), Y; reflexivity.
  - unfold is_print. replace (N_of_ascii x <? 128) with true by (symmetry; apply N.ltb_lt; lia). replace (32 <=? N_of_ascii x) with true by (symmetry; apply N.leb_le; lia).
    replace (N_of_ascii x <=? 126) with true by (symmetry; apply N.leb_le; lia). reflexivity.
Qed.
