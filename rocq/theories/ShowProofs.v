(** Lemmas on the list of templates and the decoding of HCL texts. *)
From Coq Require Import String Ascii List ZArith NArith Bool PeanoNat Sorted Permutation Lia.
From Verif Require Import GoStr GoStrFacts Utf8 ValueModel HclModel ConvModel PathModel PathSpec PathProofs CliModel CliSpec CliProofs HelpSpec HelpProofs ShowModel ShowSpec.
Import ListNotations.

Lemma mget_of : forall (tpls : list (str * str)) n p, NoDup (map fst tpls) -> In (n, p) tpls -> mget tpls n = Some p.
Proof.
  induction tpls as [|(k, v) tpls IH]; intros n p N I; [destruct I|]. inversion N; subst. cbn [mget]. destruct I as [E|I].
  - injection E as -> ->. rewrite str_eqb_refl. reflexivity.
  - destruct (str_eqb n k) eqn:X; [|apply IH; assumption]. apply str_eqb_eq in X. subst k. exfalso. match goal with H : ~ In n _ |- _ => apply H end. apply in_map_iff. exists (n, p). split; [reflexivity | exact I].
Qed.
Lemma parse_of : forall tpls n p, NoDup (map fst tpls) -> In (n, p) tpls -> parse_name tpls n = p.
Proof. intros tpls n p N I. unfold parse_name. rewrite (mget_of tpls n p N I). reflexivity. Qed.

Lemma max_len_ok : forall tpls names m, let w := fold_left (fun m n => if Nat.ltb m (length n) && negb (str_eqb n (parse_name tpls n)) then length n else m) names m in
  m <= w /\ (forall n, In n names -> n <> parse_name tpls n -> length n <= w) /\ (w = m \/ exists n, In n names /\ n <> parse_name tpls n /\ length n = w).
Proof.
  intros tpls. induction names as [|n names IH]; intros m w; subst w; cbn [fold_left].
  - split; [reflexivity|]. split; [intros n []|]. left; reflexivity.
  - destruct (str_eqb n (parse_name tpls n)) eqn:E; cbn [negb]; [rewrite andb_false_r | rewrite andb_true_r].
    + apply str_eqb_eq in E. destruct (IH m) as (A & B & C). split; [exact A|]. split; [intros x [<-|I] N; [congruence | apply B; assumption]|].
      destruct C as [C|(x & I & C)]; [left; exact C | right; exists x; split; [right; exact I | exact C]].
    + assert (N : n <> parse_name tpls n) by (intros X; rewrite <- X, str_eqb_refl in E; discriminate).
      destruct (Nat.ltb m (length n)) eqn:L; [apply Nat.ltb_lt in L | apply Nat.ltb_ge in L].
      * destruct (IH (length n)) as (A & B & C). split; [lia|]. split; [intros x [<-|I] X; [exact A | apply B; assumption]|].
        right. destruct C as [C|(x & I & C)]; [exists n; split; [left; reflexivity|]; split; [exact N | symmetry; exact C] | exists x; split; [right; exact I | exact C]].
      * destruct (IH m) as (A & B & C). split; [exact A|]. split; [intros x [<-|I] X; [lia | apply B; assumption]|].
        destruct C as [C|(x & I & C)]; [left; exact C | right; exists x; split; [right; exact I | exact C]].
Qed.
Lemma runes_spaces : forall s k, rune_count (s ++ repeat SP k) = rune_count s + k.
Proof.
  intros s k. rewrite low_runes_end; [rewrite repeat_length; reflexivity|]. apply Forall_forall. intros c I. apply repeat_spec in I. subst c. vm_compute. reflexivity.
Qed.
Lemma padded : forall w s, length s <= w -> column w s (pad_right w s).
Proof.
  intros w s L. pose proof (runes_bytes s) as R. exists (w - rune_count s). split; [reflexivity|]. unfold pad_right, spaces. rewrite runes_spaces. lia.
Qed.
Lemma relative_total : forall folder p, absolute folder -> exists f, relative folder p = Ok f.
Proof.
  intros folder p A. unfold relative. destruct (is_abs p) eqn:X; [|exists p; reflexivity]. apply abs_iff in X. destruct (rel_abs folder p A X) as (r & R & _). exists r. rewrite R. reflexivity.
Qed.
Lemma shown_unique : forall all n p a b, shown_name all n p a -> shown_name all n p b -> a = b.
Proof. intros all n p a b A B. destruct A, B; congruence. Qed.
Section Lines.
Variable faint : str -> str.
Lemma lines_ok : forall all folder tpls w names, absolute folder -> (forall n, In n names -> n <> parse_name tpls n -> length n <= w) ->
  exists es lines, template_lines faint all folder tpls w names = Ok lines /\ Forall2 (line_of faint all folder w) es lines /\
  (forall P, StronglySorted P names -> StronglySorted P (map fst es)) /\
  (forall n p, In (n, p) es <-> In n names /\ p = parse_name tpls n /\ exists name f, listed all folder n p name f).
Proof.
  intros all folder tpls w names A. induction names as [|n names IH]; intros L.
  - exists [], []. split; [reflexivity|]. split; [constructor|]. split; [intros P X; exact X|]. intros n p. split; [intros [] | intros ([] & _)].
  - destruct (IH (fun x I => L x (or_intror I))) as (es & lines & T & F2 & SS & IN). cbn [template_lines]. cbv zeta. set (p := parse_name tpls n) in *.
    destruct (relative_total folder p A) as (f & R).
    assert (SKIP : (forall name g, ~ listed all folder n p name g) -> (forall P, StronglySorted P (n :: names) -> StronglySorted P (map fst es)) /\
       (forall m q, In (m, q) es <-> In m (n :: names) /\ q = parse_name tpls m /\ exists name g, listed all folder m q name g)).
    { intros NO. split; [intros P X; inversion X; subst; apply SS; assumption|]. intros m q. rewrite IN. split.
      - intros (I & X); split; [right; exact I | exact X].
      - intros ([<-|I] & Q & X); [subst q; destruct X as (name & g & X); destruct (NO name g X) | split; [exact I | split; assumption]]. }
    destruct (all || negb (str_eqb n p)) eqn:V.
    + rewrite R. cbn [bind]. rewrite T. cbn [bind]. set (name := if str_eqb n p then [] else n).
      assert (SN : shown_name all n p name).
      { subst name. destruct (str_eqb n p) eqn:X; [apply str_eqb_eq in X; cbn [negb] in V; rewrite orb_false_r in V; apply File; assumption|]. apply Defined. intros Y. rewrite Y, str_eqb_refl in X. discriminate. }
      assert (LW : length name <= w).
      { subst name. destruct (str_eqb n p) eqn:X; [cbn; lia|]. apply (L n (or_introl eq_refl)). fold p. intros Y. rewrite Y, str_eqb_refl in X. discriminate. }
      clearbody name.
      assert (UNI : forall name' g, listed all folder n p name' g -> name' = name /\ g = f).
      { intros name' g (S1 & R1 & _). split; [|congruence]. exact (shown_unique all n p name' name S1 SN). }
      destruct (str_eqb (f ++ name) $".") eqn:D; cbn [negb].
      * apply str_eqb_eq in D. exists es, lines. split; [reflexivity|]. split; [exact F2|]. apply SKIP. intros name' g X. destruct (UNI name' g X) as (-> & ->). destruct X as (_ & _ & X). contradiction.
      * assert (D' : f ++ name <> $".") by (intros X; rewrite X, str_eqb_refl in D; discriminate).
        exists ((n, p) :: es), ((pad_right w name ++ $" " ++ faint f) :: lines). split; [reflexivity|]. split; [constructor; [|exact F2]; exists name, f, (pad_right w name); split; [split; [exact SN | split; assumption]|]; split; [apply padded; exact LW | reflexivity]|]. split.
        { intros P X. inversion X as [|? ? X1 X2]; subst. cbn [map fst]. constructor; [apply SS; exact X1|]. rewrite Forall_forall in X2 |- *. intros y I. apply in_map_iff in I. destruct I as ((m, q) & <- & I). apply IN in I. apply X2. apply I. }
        intros m q. cbn [In]. rewrite IN. split.
        { intros [X|(I & X)]; [injection X as <- <-; split; [left; reflexivity|]; split; [reflexivity|]; exists name, f; split; [exact SN | split; assumption] | split; [right; exact I | exact X]]. }
        { intros ([<-|I] & Q & X); [left; subst q; reflexivity | right; split; [exact I | split; assumption]]. }
    + exists es, lines. split; [exact T|]. split; [exact F2|]. apply SKIP. intros name g (S1 & _). apply orb_false_iff in V. destruct V as (V1 & V2). apply negb_false_iff in V2. apply str_eqb_eq in V2.
      destruct S1; congruence.
Qed.
Lemma templates_ok : forall all folder tpls, NoDup (map fst tpls) -> absolute folder ->
  exists width es lines, print_templates faint all folder tpls = Ok lines /\ widest tpls width /\ Forall2 (line_of faint all folder width) es lines /\
  ascending (map fst es) /\ (forall n p, In (n, p) es <-> In (n, p) tpls /\ exists name f, listed all folder n p name f).
Proof.
  intros all folder tpls N A. unfold print_templates. set (names := sort_strings (map fst tpls)).
  assert (IN : forall n, In n names <-> In n (map fst tpls)) by (intros n; split; apply Permutation_in; [apply sort_strings_perm | apply Permutation_sym, sort_strings_perm]).
  destruct (max_len_ok tpls names 0) as (_ & B & C). fold (max_len tpls names) in B, C.
  destruct (lines_ok all folder tpls (max_len tpls names) names A B) as (es & lines & T & F2 & SS & I).
  exists (max_len tpls names), es, lines. split; [exact T|]. split; [|split; [exact F2|]; split].
  - split.
    + intros n p J X. apply B; [apply IN; apply in_map_iff; exists (n, p); split; [reflexivity | exact J]|]. rewrite (parse_of tpls n p N J). exact X.
    + destruct C as [C|(n & J & X & Y)]; [left; exact C|]. right. apply IN in J. apply in_map_iff in J. destruct J as ((m, p) & Z & J). cbn [fst] in Z. subst m. exists n, p. split; [exact J|]. split; [|exact Y].
      rewrite (parse_of tpls n p N J) in X. exact X.
  - apply SS. apply sort_ascending. exact N.
  - intros n p. rewrite I. split; intros H.
    + destruct H as (J & -> & X). split; [|exact X]. apply IN in J. apply in_map_iff in J. destruct J as ((m, p) & Z & J). cbn [fst] in Z. subst m. rewrite (parse_of tpls n p N J). exact J.
    + destruct H as (J & X). split; [apply IN; apply in_map_iff; exists (n, p); split; [reflexivity | exact J]|]. split; [symmetry; apply parse_of; assumption | exact X].
Qed.
End Lines.

Section Hcl.
Context {E : Env} {NE : MathModel.NumEnv}.
Variable decode : str -> res value.
Variable decode_dict : str -> res (list (str * value)).
Lemma hcl_blank : forall m s t, trimmed s t -> hcl_unmarshal decode decode_dict m s = hcl_unmarshal decode decode_dict m t.
Proof.
  intros m s t T. assert (T' : trimmed t t) by (destruct T as (a & b & _ & _ & _ & TT); exists [], []; split; [cbn [app]; rewrite app_nil_r; reflexivity|]; repeat split; try constructor; apply TT).
  unfold hcl_unmarshal. rewrite (trim_unique s t T), (trim_unique t t T'). reflexivity.
Qed.
Lemma hcl_document : forall m t v, trimmed t t -> decode (t ++ [NL]) = Ok v -> hcl_unmarshal decode decode_dict m t = Ok (transform Hcl m v).
Proof. intros m t v T D. unfold hcl_unmarshal. rewrite (trim_unique t t T). cbv zeta. rewrite D. reflexivity. Qed.
Lemma hcl_value : forall m t e d v, trimmed t t -> decode (t ++ [NL]) = Err e -> decode_dict ($"_=" ++ t ++ [NL]) = Ok d -> mget d $"_" = Some v -> v <> VNil ->
  hcl_unmarshal decode decode_dict m t = Ok (transform Hcl m v).
Proof. intros m t e d v T D D2 G N. unfold hcl_unmarshal. rewrite (trim_unique t t T). cbv zeta. rewrite D, D2, G. destruct v; try reflexivity. congruence. Qed.
Lemma hcl_nothing : forall m t e d, trimmed t t -> decode (t ++ [NL]) = Err e -> decode_dict ($"_=" ++ t ++ [NL]) = Ok d -> (mget d $"_" = None \/ mget d $"_" = Some VNil) ->
  hcl_unmarshal decode decode_dict m t = Err $"reflect: call of reflect.Value.Set on zero Value".
Proof. intros m t e d T D D2 G. unfold hcl_unmarshal. rewrite (trim_unique t t T). cbv zeta. rewrite D, D2. destruct G as [-> | ->]; reflexivity. Qed.
Lemma hcl_error : forall m t e e', trimmed t t -> decode (t ++ [NL]) = Err e -> decode_dict ($"_=" ++ t ++ [NL]) = Err e' -> hcl_unmarshal decode decode_dict m t = Err e.
Proof. intros m t e e' T D D2. unfold hcl_unmarshal. rewrite (trim_unique t t T). cbv zeta. rewrite D, D2. reflexivity. Qed.
Lemma hcl_no_panic : forall m t p, hcl_unmarshal decode decode_dict m t <> Panic p.
Proof.
  intros m t p. unfold hcl_unmarshal. cbv zeta. destruct (decode (trim_space t ++ [NL])); try discriminate. destruct (decode_dict ($"_=" ++ trim_space t ++ [NL])) as [d| |]; try discriminate.
  destruct (mget d $"_") as [[]|]; discriminate.
Qed.
End Hcl.
