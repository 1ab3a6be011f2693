(** Classes and characters: what is written is what is read. *)
From Coq Require Import String Ascii List ZArith NArith Bool Lia ZifyBool ZifyN.
From Verif Require Import GoStr GoStrFacts NumFacts Utf8 Utf8Facts TextModel TextProofs3 ReModel ReSyntaxModel ReSound RegexSpec RegexProofs RegexProofs2.
Import ListNotations.
Local Open Scope char_scope.

Section Read.
Variable beyond : N -> bool.
Lemma escape_char : forall c r, is_word_rune (N_of_ascii c) = false -> parse_escape beyond (c :: r) = Some (EChar (N_of_ascii c), r).
Proof. intros c r H. chars c; vm_compute in H; try discriminate H; reflexivity. Qed.
Lemma hex_value : forall h n, n < 16 -> hex_val (hex_digit h n) = N.of_nat n.
Proof. intros h n L. do 16 (destruct n as [|n]; [destruct h; reflexivity|]). lia. Qed.
Lemma hex_code : forall h n, n < 128 -> (hex_val (hex_digit h (Nat.div n 16)) * 16 + hex_val (hex_digit h (Nat.modulo n 16)))%N = N.of_nat n.
Proof.
  intros h n L. rewrite !hex_value; [|apply PeanoNat.Nat.mod_upper_bound; lia | apply PeanoNat.Nat.div_lt_upper_bound; lia].
  rewrite (PeanoNat.Nat.div_mod n 16) at 3 by lia. lia.
Qed.
(** An escape: a backslash and the rest *)
Lemma quoted_text : forall sp c r, char_ok sp c -> match c with XPlain _ => False | _ => True end ->
  exists t, char_text c ++ r = "\" :: t /\ parse_escape beyond t = Some (EChar (char_code c), r).
Proof.
  intros sp [c|c|h n| |] r OK Q; cbn [char_ok char_text app] in *; try destruct Q; eexists; (split; [reflexivity|]).
  - destruct OK as [_ W]. apply escape_char. exact W.
  - cbn [parse_escape char_code]. rewrite hex_code by exact OK. reflexivity.
  - reflexivity.
  - reflexivity.
Qed.
Definition set_class (s : xset) : rclass :=
  match s with XDigit => c_digit | XWord => c_word | XNonWord => CNot c_word | XSpace => c_space | XNonSpace => CNot c_space | XLetter => CTest (letter beyond) end.
Lemma set_escape : forall s r, exists t, set_text s ++ r = "\" :: t /\ parse_escape beyond t = Some (EClass (set_class s), r).
Proof. intros [] r; eexists; split; reflexivity. Qed.
Lemma set_class_has : forall s n, in_class (set_class s) n = set_has beyond s n.
Proof.
  intros [] n; cbn [set_class set_has in_class c_digit c_word c_space c_char existsb]; unfold is_in, ascii_letter, letter, between, is_in.
  - reflexivity.
  - lia.
  - lia.
  - lia.
  - lia.
  - destruct (N.ltb n 128) eqn:E; [|destruct (N.leb 128 n) eqn:F; [|lia]]; [replace (N.leb 128 n) with false by lia|]; cbn [andb]; [rewrite orb_false_r; reflexivity|].
    destruct (beyond n); [rewrite orb_true_r; reflexivity | rewrite orb_false_r; lia].
Qed.
Lemma low_of : forall c, low_char c -> low c = true.
Proof. intros c H. unfold low, low_char in *. lia. Qed.
Lemma read_plain : forall c r, low_char c -> ~ In c class_special -> class_char beyond (c :: r) = Some (EChar (N_of_ascii c), r).
Proof. intros c r L N. plain_cases c L N; reflexivity. Qed.
Lemma read_class_char : forall c r, char_ok class_special c -> class_char beyond (char_text c ++ r) = Some (EChar (char_code c), r).
Proof.
  intros c r OK. assert (D : (exists x, c = XPlain x) \/ match c with XPlain _ => False | _ => True end) by (destruct c; eauto).
  destruct D as [[x ->]|D].
  - destruct OK as [L N]. apply read_plain; assumption.
  - destruct (quoted_text _ c r OK D) as (t & E & P). rewrite E. exact P.
Qed.
(** The head of what is written: not a bracket nor a hyphen *)
Lemma char_head : forall c r, char_ok class_special c -> exists h t, char_text c ++ r = h :: t /\ h <> "]" /\ h <> "[" /\ h <> "-".
Proof.
  intros [c|c|h n| |] r OK; cbn [char_text app char_ok] in *; eexists; eexists; (split; [reflexivity|]); try (repeat split; discriminate).
  destruct OK as [_ N]. repeat split; intros ->; apply N; vm_compute; tauto.
Qed.
Lemma class_step : forall fuel f h t, h <> "]" -> h <> "[" -> parse_class beyond (S fuel) f (h :: t) =
  match class_char beyond (h :: t) with
  | Some (EClass g, r) => parse_class beyond fuel (COr f g) r
  | Some (EChar a, r) =>
      match r with
      | "-" :: c :: _ =>
          if Ascii.eqb c "]" then parse_class beyond fuel (COr f (c_char a)) r
          else match class_char beyond (tl r) with
               | Some (EChar b, r) => parse_class beyond fuel (COr f (CRange a b)) r
               | _ => None
               end
      | _ => parse_class beyond fuel (COr f (c_char a)) r
      end
  | None => None
  end.
Proof. intros fuel f h t N1 N2. chars h; try reflexivity; exfalso; (apply N1; reflexivity) || (apply N2; reflexivity). Qed.
Definition items_text (l : list xitem) : str := flat_map item_text l.
Lemma items_head : forall l r, Forall item_ok l -> exists h t, items_text l ++ "]" :: r = h :: t /\ h <> "-".
Proof.
  intros [|i l] r F; [eexists; eexists; split; [reflexivity | discriminate]|]. inversion F as [|? ? OK _]; subst. unfold items_text. cbn [flat_map]. destruct i as [c|s|a b|]; cbn [item_text item_ok] in *.
  - destruct (char_head c (flat_map item_text l ++ "]" :: r) OK) as (h & t & E & _ & _ & N). exists h, t. rewrite <- app_assoc. split; assumption.
  - destruct s; eexists; eexists; (split; [reflexivity | discriminate]).
  - destruct (char_head a (($"-" ++ char_text b) ++ flat_map item_text l ++ "]" :: r) (proj1 OK)) as (h & t & E & _ & _ & N). exists h, t. rewrite <- !app_assoc in *. split; assumption.
  - eexists; eexists; (split; [reflexivity | discriminate]).
Qed.
Lemma read_items : forall l fuel f r, List.length (items_text l) < fuel -> Forall item_ok l ->
  exists f', parse_class beyond fuel f (items_text l ++ "]" :: r) = Some (f', r) /\ forall n, in_class f' n = in_class f n || existsb (fun i => item_has beyond i n) l.
Proof.
  induction l as [|i l IH]; intros fuel f r L F.
  - destruct fuel as [|fuel]; [lia|]. exists f. split; [reflexivity|]. intros n. rewrite orb_false_r. reflexivity.
  - inversion F as [|? ? OK F']; subst. destruct fuel as [|fuel]; [lia|]. unfold items_text in L. cbn [flat_map] in L. rewrite app_length in L. fold (items_text l) in L.
    assert (X : exists g, parse_class beyond (S fuel) f (items_text (i :: l) ++ "]" :: r) = parse_class beyond fuel (COr f g) (items_text l ++ "]" :: r) /\ 1 <= List.length (item_text i) /\ forall n, in_class g n = item_has beyond i n).
    { unfold items_text. cbn [flat_map]. fold (items_text l). rewrite <- app_assoc. destruct i as [c|s|a b|]; cbn [item_text item_ok item_has] in *.
      - exists (c_char (char_code c)). destruct (char_head c (items_text l ++ "]" :: r) OK) as (h & t & E & N1 & N2 & _). split.
        + rewrite E, class_step by assumption. rewrite <- E, read_class_char by exact OK. destruct (items_head l r F') as (h' & t' & E' & N'). rewrite E'. clear - N'. chars h'; try reflexivity. exfalso. apply N'. reflexivity.
        + split; [destruct c; cbn -[hex_digit]; lia|]. intros n. cbn [in_class c_char]. lia.
      - exists (set_class s). destruct (set_escape s (items_text l ++ "]" :: r)) as (t & E & P). split.
        + rewrite E, class_step by discriminate. cbn [class_char]. rewrite P. reflexivity.
        + split; [destruct s; cbn; lia|]. apply set_class_has.
      - exists (CRange (char_code a) (char_code b)). destruct OK as [OA OB]. rewrite <- app_assoc. destruct (char_head a (($"-" ++ char_text b) ++ items_text l ++ "]" :: r) OA) as (h & t & E & N1 & N2 & _).
        rewrite <- !app_assoc in E. split.
        + rewrite <- app_assoc. rewrite E, class_step by assumption. rewrite <- E, read_class_char by exact OA. destruct (char_head b (items_text l ++ "]" :: r) OB) as (h' & t' & E' & N1' & _ & _).
          change ($"-" ++ char_text b ++ items_text l ++ "]" :: r) with ("-" :: (char_text b ++ items_text l ++ "]" :: r)). rewrite E'. cbn [tl]. replace (Ascii.eqb h' "]") with false by (symmetry; apply Ascii.eqb_neq; exact N1').
          rewrite <- E', read_class_char by exact OB. reflexivity.
        + split; [rewrite !app_length; cbn; lia|]. intros n. reflexivity.
      - exists c_blank. split; [reflexivity|]. split; [cbn; lia|]. intros n. cbn [in_class c_blank c_char existsb]. lia. }
    destruct X as (g & E & L1 & HG). destruct (IH fuel (COr f g) r) as (f' & P & HF); [lia | exact F'|]. exists f'. split; [rewrite E; exact P|]. intros n. rewrite HF. cbn [in_class existsb]. rewrite HG, orb_assoc. reflexivity.
Qed.
(** Numbers *)
Lemma digits_app : forall s r, Forall (fun c => is_digit c = true) s -> match r with c :: _ => is_digit c = false | [] => True end -> digits (s ++ r) = (s, r).
Proof.
  assert (D : forall c, is_digit_rune (N_of_ascii c) = is_digit c) by (intros c; chars c; reflexivity).
  induction s as [|c s IH]; intros r F H; unfold digits; cbn [app].
  - destruct r as [|c r]; [reflexivity|]. rewrite D, H. reflexivity.
  - inversion F as [|? ? DC F']; subst. rewrite D, DC. specialize (IH r F' H). unfold digits in IH. cbn [app] in IH. rewrite IH. reflexivity.
Qed.
Lemma number_value : forall s, number s = N.to_nat (digits_value s).
Proof.
  assert (X : forall s n, fold_left (fun n c => 10 * n + N.to_nat (N_of_ascii c - 48)) s (N.to_nat n) = N.to_nat (fold_left (fun n c => (n * 10 + (N_of_ascii c - 48))%N) s n)).
  { induction s as [|c s IH]; intros n; cbn [fold_left]; [reflexivity|]. rewrite <- IH. f_equal. lia. }
  intros s. unfold number, digits_value. exact (X s 0%N).
Qed.
Lemma number_itoa : forall n, number (itoa (Z.of_nat n)) = n.
Proof. intros n. rewrite number_value, digits_value_itoa. lia. Qed.
Definition apart (s : str) : Prop := match s with [] => True | c :: _ => ~ In c $"*+?{" end.
Lemma lazy_app : forall (l : bool) r, apart r -> lazy ((if l then $"?" else []) ++ r) = (l, r).
Proof. intros [] r A; [reflexivity|]. destruct r as [|c r]; [reflexivity|]. chars c; try reflexivity. exfalso. apply A. vm_compute. tauto. Qed.
Lemma rrepeat_times : forall n m a, rrepeat n m a = times n a (up_to (m - n) a).
Proof.
  intros n m a. unfold rrepeat. generalize (m - n). intros d. induction n as [|n IH]; cbn [rtimes times]; [|rewrite IH; reflexivity]. induction d as [|d IH]; cbn [ropts up_to]; [reflexivity|]. unfold ROpt. rewrite IH. reflexivity.
Qed.
Lemma read_quant : forall q a r, quant_ok q -> apart r -> quantify a (quant_text q ++ r) = (quant_re q a, r).
Proof.
  intros q a r OK A. destruct q as [|l|l| |n m]; cbn [quant_text quant_re].
  - cbn [app]. destruct r as [|c r]; [reflexivity|]. chars c; try reflexivity; exfalso; apply A; vm_compute; tauto.
  - cbn [app quantify]. rewrite lazy_app by exact A. reflexivity.
  - cbn [app quantify]. rewrite lazy_app by exact A. reflexivity.
  - reflexivity.
  - rewrite <- !app_assoc. cbn [app]. change ($"{" ++ ?x) with ("{" :: x). cbn [quantify parse_repeat].
    destruct (itoa_digits n) as (Fn & Nn). destruct (itoa_digits m) as (Fm & Nm).
    rewrite digits_app by (exact Fn || reflexivity). change ($"," ++ ?x) with ("," :: x). cbv beta iota. rewrite digits_app by (exact Fm || reflexivity). change ($"}" ++ ?x) with ("}" :: x). cbv beta iota.
    rewrite !number_itoa. destruct (itoa (Z.of_nat n)); [congruence|]. destruct (itoa (Z.of_nat m)); [congruence|]. cbn [str_eqb orb]. rewrite rrepeat_times. reflexivity.
Qed.
End Read.
