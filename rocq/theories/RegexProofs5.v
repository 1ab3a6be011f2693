(** Templates of replacements, names of groups. *)
From Coq Require Import String Ascii List ZArith NArith Bool Lia ZifyBool ZifyN.
From Coq Require Decimal DecimalFacts DecimalN DecimalPos DecimalString.
From Verif Require Import GoStr GoStrFacts Utf8 TextModel TextProofs3 RazorWordsModel ReModel ReSyntaxModel RegexSpec RegexProofs RegexProofs2 RegexProofs3.
Import ListNotations.
Local Open Scope char_scope.

Lemma name_group : forall c, name_char c -> group_char c = true.
Proof. intros c H. unfold name_char, is_in, ascii_letter, is_in, group_char in *. destruct H as [H|[H| ->]]; [lia | lia | reflexivity]. Qed.
Lemma apart_group : forall c, (N_of_ascii c < 128)%N -> ~ name_char c -> group_char c = false.
Proof.
  intros c L H. apply not_true_is_false. intros G. apply H. unfold name_char, is_in, ascii_letter, is_in, group_char in *.
  assert (X : N_of_ascii c = 95%N -> c = "_") by (intros X; rewrite <- (ascii_N_embedding c), X; reflexivity).
  destruct (N.eqb_spec (N_of_ascii c) 95) as [E|E]; [right; right; apply X; exact E|]. destruct ((48 <=? N_of_ascii c) && (N_of_ascii c <=? 57))%N eqn:D; [left; reflexivity|]. right. left. lia.
Qed.
Lemma take_name : forall n r, Forall name_char n -> match r with [] => True | c :: _ => group_char c = false end -> take_while group_char (n ++ r) = n /\ drop_while group_char (n ++ r) = r.
Proof.
  induction n as [|c n IH]; intros r F H; cbn [app].
  - destruct r as [|c r]; [split; reflexivity|]. cbn [take_while drop_while]. rewrite H. split; reflexivity.
  - inversion F as [|? ? C F']; subst. cbn [take_while drop_while]. rewrite (name_group c C). destruct (IH r F' H) as [-> ->]. split; reflexivity.
Qed.
Lemma extract_name : forall n r, name_ok n -> starts_apart r -> extract (n ++ r) = Some (n, r).
Proof.
  intros n r [NE F] A. destruct (take_name n r F) as [T D].
  { destruct r as [|c r]; [exact I|]. destruct A as [L N]. apply apart_group; assumption. }
  destruct n as [|c n]; [congruence|]. cbn [app] in *. unfold extract. rewrite T, D. destruct (Ascii.eqb_spec c "{") as [->|_]; [|reflexivity].
  inversion F as [|? ? C _]; subst. apply name_group in C. discriminate.
Qed.
Lemma extract_braces : forall n r, name_ok n -> extract ("{" :: n ++ "}" :: r) = Some (n, r).
Proof. intros n r [NE F]. destruct (take_name n ("}" :: r) F eq_refl) as [T D]. unfold extract. rewrite T, D. destruct n; [congruence|]. reflexivity. Qed.
Lemma expand_text : forall s fuel groups r, ~ In "$" s -> List.length s + List.length r <= fuel -> (forall f, List.length r <= f -> exists x, expand_go f groups r = x /\ x = expand_go (List.length r) groups r) -> expand_go fuel groups (s ++ r) = s ++ expand_go (List.length r) groups r.
Proof.
  induction s as [|c s IH]; intros fuel groups r N L H; cbn [app List.length] in *.
  - destruct (H fuel L) as (x & -> & ->). reflexivity.
  - destruct fuel as [|fuel]; [lia|]. cbn [expand_go]. destruct (Ascii.eqb_spec c "$") as [->|_]; [destruct N; left; reflexivity|]. rewrite IH; [reflexivity | intros I; apply N; right; exact I | lia | exact H].
Qed.
Lemma expand_parts : forall value l fuel, tparts_ok l -> List.length (flat_map tpart_text l) <= fuel -> expand_go fuel value (flat_map tpart_text l) = flat_map (tpart_output value) l.
Proof.
  intros value. induction l as [|t l IH]; intros fuel OK L; cbn [flat_map] in *; [destruct fuel; reflexivity|].
  cbn [tparts_ok] in OK. destruct OK as [OT OK]. rewrite app_length in L. destruct t as [s| |n|n]; cbn [tpart_text tpart_output] in *.
  - rewrite expand_text; [apply (f_equal (app s)); apply IH; [exact OK | lia] | exact OT | lia|]. intros f LF. eexists. split; [reflexivity|]. rewrite !IH by (exact OK || lia). reflexivity.
  - destruct fuel as [|fuel]; [cbn in L; lia|]. change (list_ascii_of_string "$$") with ["$"; "$"]. change ($"$$" ++ flat_map tpart_text l) with ("$" :: "$" :: flat_map tpart_text l). cbn [expand_go]. change (Ascii.eqb "$" "$") with true. cbv iota.
    change ($"$" ++ flat_map (tpart_output value) l) with ("$" :: flat_map (tpart_output value) l). apply f_equal. apply IH; [exact OK | cbn in L; lia].
  - destruct OT as [ON OA]. destruct fuel as [|fuel]; [cbn in L; lia|]. replace (($"$" ++ n) ++ flat_map tpart_text l) with ("$" :: (n ++ flat_map tpart_text l)) by (rewrite <- app_assoc; reflexivity).
    cbn [expand_go]. change (Ascii.eqb "$" "$") with true. cbv iota. rewrite extract_name by assumption.
    assert (X : match n ++ flat_map tpart_text l with "$" :: r' => "$" :: expand_go fuel value r' | _ => value n ++ expand_go fuel value (flat_map tpart_text l) end = value n ++ expand_go fuel value (flat_map tpart_text l)).
    { destruct ON as [NE F]. destruct n as [|c n]; [congruence|]. inversion F as [|? ? C _]; subst. cbn [app]. apply name_group in C. chars c; try reflexivity. discriminate C. }
    etransitivity; [exact X|]. apply (f_equal (app _)). apply IH; [exact OK|]. rewrite app_length in L. cbn in L. lia.
  - destruct fuel as [|fuel]; [cbn in L; lia|]. replace (($"${" ++ n ++ $"}") ++ flat_map tpart_text l) with ("$" :: "{" :: (n ++ "}" :: flat_map tpart_text l)) by (rewrite <- !app_assoc; reflexivity).
    cbn [expand_go]. change (Ascii.eqb "$" "$") with true. cbv iota. rewrite extract_braces by assumption. apply (f_equal (app _)). apply IH; [exact OK|]. rewrite !app_length in L. cbn in L. lia.
Qed.
Lemma expanded : forall value l, tparts_ok l -> expand value (flat_map tpart_text l) = flat_map (tpart_output value) l.
Proof. intros value l OK. apply expand_parts; [exact OK | lia]. Qed.

Import Decimal DecimalFacts.
Lemma itoa_head : forall n r, n <> 0 -> itoa (Z.of_nat n) <> "0" :: r.
Proof.
  intros n r N E. destruct n as [|n]; [contradiction|]. unfold itoa in E. change (Z.of_nat (S n)) with (Z.pos (Pos.of_succ_nat n)) in E.
  change (Z.to_int (Z.pos (Pos.of_succ_nat n))) with (Pos (Pos.to_uint (Pos.of_succ_nat n))) in E.
  set (p := Pos.of_succ_nat n) in *. pose proof (DecimalN.Unsigned.of_to (N.pos p)) as OT. pose proof (DecimalN.Unsigned.to_of (N.to_uint (N.pos p))) as TO.
  rewrite OT in TO. change (N.to_uint (N.pos p)) with (Pos.to_uint p) in TO.
  destruct (Pos.to_uint p) as [|u|u|u|u|u|u|u|u|u|u] eqn:U; try discriminate E.
  { exact (DecimalPos.Unsigned.to_uint_nonnil p U). }
  unfold unorm in TO. change (nzhead (D0 u)) with (nzhead u) in TO.
  destruct (nzhead u) eqn:Z; try discriminate TO.
  - injection TO as ->. pose proof (DecimalN.Unsigned.of_to (N.pos p)) as OT2. change (N.to_uint (N.pos p)) with (Pos.to_uint p) in OT2. rewrite U in OT2. discriminate OT2.
  - exact (nzhead_nonzero _ _ Z).
Qed.
Lemma not_number_iff : forall name, not_number name -> is_number name = false.
Proof.
  intros name [(c & I & N)|(c & r & ->)].
  - unfold is_number. destruct name as [|d r]; [reflexivity|]. replace (forallb (fun c => is_digit_rune (N_of_ascii c)) (d :: r)) with false; [reflexivity|].
    symmetry. apply not_true_is_false. intros F. rewrite forallb_forall in F. specialize (F c I). apply N. clear - F. revert F. destruct c as [[] [] [] [] [] [] [] []]; vm_compute; intros F; try discriminate F; split; discriminate.
  - unfold is_number. change (Ascii.eqb "0" "0") with true. cbn [andb negb]. apply andb_false_r.
Qed.
Lemma named_found : forall names whole g name n, not_number name -> NoDup (map fst names) -> In (name, n) names -> named_group names whole g name = group n g.
Proof.
  intros names whole g name n NN ND I. unfold named_group. rewrite (not_number_iff name NN). clear NN. induction names as [|[a k] names IH]; [destruct I|]. cbn [find fst]. inversion ND as [|? ? NI ND']; subst. destruct I as [E|I].
  - injection E as -> ->. rewrite str_eqb_refl. reflexivity.
  - assert (NE : str_eqb a name = false). { apply not_true_is_false. intros E. apply str_eqb_eq in E. subst a. apply NI. apply (in_map fst) in I. exact I. }
    rewrite NE. apply IH; assumption.
Qed.
Lemma find_none_names : forall (names : list (str * nat)) name, ~ In name (map fst names) -> find (fun x => str_eqb (fst x) name) names = None.
Proof.
  induction names as [|[a k] names IH]; intros name NI; [reflexivity|]. cbn [find fst]. replace (str_eqb a name) with false; [apply IH; intros I; apply NI; right; exact I|].
  symmetry. apply not_true_is_false. intros E. apply str_eqb_eq in E. subst a. apply NI. left. reflexivity.
Qed.
Lemma named_missing : forall names whole g name, not_number name -> ~ In name (map fst names) -> named_group names whole g name = [].
Proof. intros names whole g name NN NI. unfold named_group. rewrite (not_number_iff name NN), find_none_names by exact NI. reflexivity. Qed.
Lemma numbered_found : forall names whole g n, named_group names whole g (itoa (Z.of_nat n)) = match n with O => whole | _ => group n g end.
Proof.
  intros names whole g n. unfold named_group. destruct n as [|n]; [reflexivity|].
  destruct (itoa_digits (S n)) as [F NE]. assert (NZ : str_eqb (itoa (Z.of_nat (S n))) $"0" = false).
  { apply not_true_is_false. intros E. apply str_eqb_eq in E. pose proof (number_itoa (fun _ => true) (S n)) as NI'. rewrite E in NI'. discriminate. }
  rewrite NZ. assert (IN : is_number (itoa (Z.of_nat (S n))) = true).
  { unfold is_number. destruct (itoa (Z.of_nat (S n))) as [|c r] eqn:E; [congruence|].
    assert (FD : forallb (fun c => is_digit_rune (N_of_ascii c)) (c :: r) = true).
    { apply forallb_forall. rewrite Forall_forall in F. intros x I. specialize (F x I). clear - F. chars x; try reflexivity; discriminate F. }
    rewrite FD. destruct (Ascii.eqb_spec c "0") as [->|_]; [exfalso; exact (itoa_head (S n) r ltac:(discriminate) E) | reflexivity]. }
  rewrite IN, (number_itoa (fun _ => true)). reflexivity.
Qed.
