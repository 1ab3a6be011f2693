(** Structures converted to native Go maps. *)
From Coq Require Import String Ascii List ZArith NArith Bool PeanoNat Lia.
From Verif Require Import GoStr GoStrFacts ValueModel ValueFacts CliSpec CliProofs StructModel StructSpec.
Import ListNotations.

(** ** Tags *)
Lemma first_tag_spec : forall f, tag_of f (first_tag (f_tags f) categories).
Proof.
  intros f. unfold tag_of. fold categories. 
  assert (H : forall l, (first_tag (f_tags f) l = [] /\ forall c v, In c l -> mget (f_tags f) c = Some v -> v = []) \/
    (exists before c after, l = before ++ c :: after /\ first_tag (f_tags f) l <> [] /\ mget (f_tags f) c = Some (first_tag (f_tags f) l) /\
     forall b v, In b before -> mget (f_tags f) b = Some v -> v = [])).
  { induction l as [|c l IH]; [left; split; [reflexivity | intros c v []]|]. cbn [first_tag]. destruct (mget (f_tags f) c) as [[|x v]|] eqn:M.
    - destruct IH as [(E & A)|(b & d & a & -> & NE & G & A)].
      + left. split; [exact E|]. intros c' v [<-|I] G; [congruence | exact (A c' v I G)].
      + right. exists (c :: b), d, a. split; [reflexivity|]. split; [exact NE|]. split; [exact G|]. intros c' v [<-|I] G'; [congruence | exact (A c' v I G')].
    - right. exists [], c, l. split; [reflexivity|]. split; [discriminate|]. split; [exact M | intros b w []].
    - destruct IH as [(E & A)|(b & d & a & -> & NE & G & A)].
      + left. split; [exact E|]. intros c' v [<-|I] G; [congruence | exact (A c' v I G)].
      + right. exists (c :: b), d, a. split; [reflexivity|]. split; [exact NE|]. split; [exact G|]. intros c' v [<-|I] G'; [congruence | exact (A c' v I G')]. }
  exact (H categories).
Qed.
Lemma tag_unique : forall f t t', tag_of f t -> tag_of f t' -> t = t'.
Proof.
  intros f t t' [(-> & A)|(b & c & a & E & N & G & A)] [(-> & A')|(b' & c' & a' & E' & N' & G' & A')].
  - reflexivity.
  - exfalso. apply N'. apply (A c'); [rewrite E'; apply in_or_app; right; left; reflexivity | exact G'].
  - exfalso. apply N. apply (A' c); [rewrite E; apply in_or_app; right; left; reflexivity | exact G].
  - rewrite E in E'. clear E. revert b' E' A'. induction b as [|x b IH]; intros [|y b'] E' A'; cbn [app] in E'.
    + injection E' as -> _. congruence.
    + injection E' as -> _. exfalso. apply N. apply (A' y); [left; reflexivity | exact G].
    + injection E' as -> _. exfalso. apply N'. apply (A c'); [left; reflexivity | exact G'].
    + injection E' as -> E'. apply (IH (fun z v I => A z v (or_intror I)) b' E' (fun z v I => A' z v (or_intror I))).
Qed.
Lemma tagged_iff : forall f n os, tagged f n os <-> tag_parts f = (n, os).
Proof.
  intros f n os. unfold tag_parts. pose proof (split_nonnil $"," (first_tag (f_tags f) categories)) as NN. split.
  - intros (t & T & P). rewrite (tag_unique f _ t (first_tag_spec f) T). rewrite (proj1 (pieces_split t (n :: os)) P). reflexivity.
  - intros E. exists (first_tag (f_tags f) categories). split; [apply first_tag_spec|]. apply pieces_split. destruct (split $"," (first_tag (f_tags f) categories)) as [|x l]; [congruence|]. injection E as -> ->. reflexivity.
Qed.
Lemma option_iff : forall o f, has_option o f = true <-> option_in o f.
Proof.
  intros o f. unfold has_option, option_in. destruct (tag_parts f) as (n, os) eqn:T. cbn [snd]. rewrite existsb_exists. split.
  - intros (x & I & E). apply str_eqb_eq in E. subst x. exists n, os. split; [apply tagged_iff; exact T | exact I].
  - intros (n' & os' & T' & I). apply tagged_iff in T'. rewrite T in T'. injection T' as -> ->. exists o. split; [exact I | apply str_eqb_refl].
Qed.
Lemma inlined_iff : forall f, has_option $"inline" f || has_option $"squash" f = true <-> inlined f.
Proof. intros f. unfold inlined. rewrite orb_true_iff, !option_iff. reflexivity. Qed.
Definition shown_name (f : field) : str := match fst (tag_parts f) with [] => f_name f | _ => fst (tag_parts f) end.
Definition skipped (f : field) : bool := negb (f_visible f) || (str_eqb (fst (tag_parts f)) $"-" || negb (f_exported f) || (has_option $"omitempty" f && f_zero f)).
Lemma converted_iff : forall f n, converted f n <-> skipped f = false /\ n = shown_name f.
Proof.
  intros f n. unfold converted, skipped, shown_name. rewrite <- option_iff. destruct (tag_parts f) as (x, os) eqn:T. cbn [fst]. split.
  - intros (V & X & O & n' & os' & T' & NH & C). apply tagged_iff in T'. rewrite T in T'. injection T' as <- <-. split.
    + rewrite V, X. cbn [negb orb]. rewrite orb_false_r. apply orb_false_iff. split; [destruct (str_eqb_spec x $"-"); [contradiction | reflexivity]|].
      destruct (has_option $"omitempty" f), (f_zero f); try reflexivity. exfalso. apply O. split; reflexivity.
    + destruct C as [(-> & ->)|(NE & ->)]; [reflexivity|]. destruct x; [congruence | reflexivity].
  - intros (S1 & ->). apply orb_false_iff in S1. destruct S1 as (V & S1). apply orb_false_iff in S1. destruct S1 as (S1 & O). apply orb_false_iff in S1. destruct S1 as (H & X).
    apply negb_false_iff in V. apply negb_false_iff in X. split; [exact V|]. split; [exact X|]. split; [intros (A & B); rewrite A, B in O; discriminate O|].
    exists x, os. split; [apply tagged_iff; exact T|]. split; [intros ->; discriminate H|]. destruct x; [left; split; reflexivity | right; split; [discriminate | reflexivity]].
Qed.

(** ** The fields *)
Lemma mset_all_get : forall (sub m : list (str * gv)) k, NoDup (map fst sub) -> mget (mset_all sub m) k = match mget sub k with Some v => Some v | None => mget m k end.
Proof.
  induction sub as [|(a, b) sub IH]; intros m k N; [reflexivity|]. cbn [map fst] in N. inversion N as [|? ? NI N']; subst. unfold mset_all in *. cbn [fold_left fst snd]. rewrite (IH _ _ N').
  cbn [mget]. rewrite mget_mset. destruct (mget sub k) eqn:M; [|destruct (str_eqb k a); reflexivity]. destruct (str_eqb_spec k a) as [->|_]; [|reflexivity].
  exfalso. apply NI. clear -M. induction sub as [|(x, y) sub IH]; [discriminate M|]. cbn [mget map fst] in *. destruct (str_eqb_spec a x) as [->|_]; [left; reflexivity | right; apply IH; exact M].
Qed.
Lemma gives_unique : forall f k v w, gives f k v -> gives f k w -> v = w.
Proof.
  intros f k v w (n & C & [(NI & -> & E & _)|(I & s & E & G)]) (n' & C' & [(NI' & E1 & E' & _)|(I' & s' & E' & G')]); try contradiction; congruence.
Qed.
Lemma one_field : forall m f, sane f -> exists m', add_field None m f = Ok m' /\
  forall k, (forall v, gives f k v -> mget m' k = Some v) /\ ((forall v, ~ gives f k v) -> mget m' k = mget m k).
Proof.
  intros m f SA. unfold add_field. pose proof (fun n => converted_iff f n) as CI. unfold skipped in CI.
  destruct (negb (f_visible f)) eqn:V.
  { exists m. split; [reflexivity|]. intros k. split; [|reflexivity]. intros v (n & C & _). apply CI in C. destruct C as (C & _). discriminate C. }
  cbn [orb] in CI. destruct (str_eqb (fst (tag_parts f)) $"-" || negb (f_exported f) || (has_option $"omitempty" f && f_zero f)) eqn:SK.
  { exists m. split; [reflexivity|]. intros k. split; [|reflexivity]. intros v (n & C & _). apply CI in C. destruct C as (C & _). discriminate C. }
  assert (C : converted f (shown_name f)) by (apply CI; split; reflexivity).
  destruct (SA _ C) as (v & FV & NN & IN). rewrite FV. cbn [bind]. change (match fst (tag_parts f) with [] => f_name f | _ => fst (tag_parts f) end) with (shown_name f).
  pose proof (inlined_iff f) as II. destruct (has_option $"inline" f || has_option $"squash" f).
  - destruct (IN (proj1 II eq_refl)) as (sub & -> & ND). exists (mset_all sub m). split; [reflexivity|]. intros k. rewrite (mset_all_get sub m k ND). split.
    + intros w (n & _ & [(NI & _)|(_ & s & E & G)]); [exfalso; apply NI, II; reflexivity|]. rewrite FV in E. injection E as <-. rewrite G. reflexivity.
    + intros NG. destruct (mget sub k) as [w|] eqn:G; [|reflexivity]. exfalso. apply (NG w). exists (shown_name f). split; [exact C|]. right. split; [apply II; reflexivity|]. exists sub. split; assumption.
  - assert (NI : ~ inlined f) by (intros I; apply II in I; discriminate I).
    assert (PUT : ~ (option_in $"omitempty" f /\ v = GMap []) -> forall k, (forall w, gives f k w -> mget (mset m (shown_name f) v) k = Some w) /\ ((forall w, ~ gives f k w) -> mget (mset m (shown_name f) v) k = mget m k)).
    { intros NO k. rewrite mget_mset. split.
      - intros w (n & C' & [(_ & -> & E & _)|(I & _)]); [|contradiction]. apply CI in C'. destruct C' as (_ & ->). rewrite str_eqb_refl. congruence.
      - intros NG. destruct (str_eqb_spec k (shown_name f)) as [->|_]; [|reflexivity]. exfalso. apply (NG v). exists (shown_name f). split; [exact C|]. left. split; [exact NI|]. split; [reflexivity|]. split; [exact FV | exact NO]. }
    assert (KEEP : option_in $"omitempty" f -> v = GMap [] -> forall k, (forall w, gives f k w -> mget m k = Some w) /\ ((forall w, ~ gives f k w) -> mget m k = mget m k)).
    { intros O EV k. split; [|reflexivity]. intros w (n & _ & [(_ & _ & E & NO)|(I & _)]); [|contradiction]. exfalso. apply NO. split; [exact O | congruence]. }
    pose proof (option_iff $"omitempty" f) as OI. destruct v as [|[|e l]|s].
    + congruence.
    + destruct (has_option $"omitempty" f).
      * exists m. split; [reflexivity|]. apply KEEP; [apply OI; reflexivity | reflexivity].
      * eexists. split; [reflexivity|]. apply PUT. intros (O & _). apply OI in O. discriminate O.
    + destruct (has_option $"omitempty" f); (eexists; split; [reflexivity|]; apply PUT; intros (_ & X); discriminate X).
    + destruct (has_option $"omitempty" f); (eexists; split; [reflexivity|]; apply PUT; intros (_ & X); discriminate X).
Qed.
Lemma gives_dec : forall f k, (exists v, gives f k v) \/ (forall v, ~ gives f k v).
Proof.
  intros f k. destruct (skipped f) eqn:SK; [right; intros v (n & C & _); apply converted_iff in C; destruct C; congruence|].
  assert (C : converted f (shown_name f)) by (apply converted_iff; split; [exact SK | reflexivity]).
  pose proof (inlined_iff f) as II. pose proof (option_iff $"omitempty" f) as OI. destruct (has_option $"inline" f || has_option $"squash" f).
  - destruct (f_value f) as [[|sub|s]|e|e] eqn:FV; try (right; intros v (n & _ & [(NI & _)|(_ & s' & E & _)]); [apply NI, II; reflexivity | rewrite FV in E; discriminate E]).
    destruct (mget sub k) as [v|] eqn:G; [left; exists v, (shown_name f); split; [exact C|]; right; split; [apply II; reflexivity | exists sub; split; assumption]|].
    right. intros v (n & _ & [(NI & _)|(_ & s' & E & G')]); [apply NI, II; reflexivity|]. rewrite FV in E. injection E as <-. congruence.
  - assert (NI : ~ inlined f) by (intros I; apply II in I; discriminate I).
    destruct (str_eqb_spec k (shown_name f)) as [->|NK]; [|right; intros v (n & C' & [(_ & -> & _)|(I & _)]); [apply converted_iff in C'; destruct C'; congruence | contradiction]].
    destruct (f_value f) as [v|e|e] eqn:FV; [|right; intros v (n & _ & [(_ & _ & E & _)|(I & _)]); [congruence | contradiction]..].
    assert (D : has_option $"omitempty" f = true /\ v = GMap [] \/ ~ (option_in $"omitempty" f /\ v = GMap [])).
    { destruct (has_option $"omitempty" f); [|right; intros (O & _); apply OI in O; discriminate O]. destruct v as [|[|e l]|s]; [right|left|right|right]; try (intros (_ & X); discriminate X). split; reflexivity. }
    destruct D as [(O & EV)|NO].
    + right. intros w (n & _ & [(_ & _ & E & NO)|(I & _)]); [|contradiction]. apply NO. split; [apply OI; exact O | congruence].
    + left. exists v, (shown_name f). split; [exact C|]. left. split; [exact NI|]. split; [reflexivity|]. split; [exact FV | exact NO].
Qed.
Lemma all_fields : forall fs m, Forall sane fs -> exists m', add_fields None m fs = Ok m' /\
  forall k v, mget m' k = Some v <-> (exists a f b, fs = a ++ f :: b /\ gives f k v /\ forall g w, In g b -> ~ gives g k w) \/ ((forall f w, In f fs -> ~ gives f k w) /\ mget m k = Some v).
Proof.
  induction fs as [|f fs IH]; intros m SA; inversion SA as [|? ? S1 S2]; subst.
  - exists m. split; [reflexivity|]. intros k v. split.
    + intros G. right. split; [intros f w []| exact G].
    + intros [(a & f & b & E & _)|(_ & G)]; [destruct a; discriminate E | exact G].
  - destruct (one_field m f S1) as (m1 & A1 & K1). destruct (IH m1 S2) as (m2 & A2 & K2). exists m2. split; [cbn [add_fields]; rewrite A1; exact A2|].
    intros k v. rewrite K2. destruct (K1 k) as (Y & N). split.
    + intros [(a & g & b & -> & G & L)|(NO & G)]; [left; exists (f :: a), g, b; split; [reflexivity | split; assumption]|].
      destruct (gives_dec f k) as [(w & GW)|NG].
      * left. exists [], f, fs. split; [reflexivity|]. rewrite (Y w GW) in G. injection G as ->. split; [exact GW | exact NO].
      * right. rewrite (N NG) in G. split; [|exact G]. intros g w [<-|I]; [apply NG | apply NO; exact I].
    + intros [(a & g & b & E & G & L)|(NO & G)].
      * destruct a as [|x a]; cbn [app] in E; injection E as -> ->; [right; split; [exact L | exact (Y v G)] | left; exists a, g, b; split; [reflexivity | split; assumption]].
      * right. split; [intros g w I; apply NO; right; exact I|]. rewrite N; [exact G|]. intros w. apply NO. left; reflexivity.
Qed.
Lemma no_keys : forall tname fs err, (forall f, In f fs -> ~ option_in $"key" f) -> forall key, find_key tname key err fs = (key, err).
Proof.
  intros tname fs err H. induction fs as [|f fs IH]; intros key; [reflexivity|]. cbn [find_key]. destruct (has_option $"key" f) eqn:K; [exfalso; apply (H f (or_introl eq_refl)), option_iff, K|].
  apply IH. intros g I. apply H. right; exact I.
Qed.
Theorem struct_spec : forall tname fs, (forall f, In f fs -> ~ option_in $"key" f) -> Forall sane fs ->
  exists m, marshal_struct tname fs = Ok (GMap m) /\
  forall k v, mget m k = Some v <-> exists a f b, fs = a ++ f :: b /\ gives f k v /\ forall g w, In g b -> ~ gives g k w.
Proof.
  intros tname fs NK SA. unfold marshal_struct. rewrite (no_keys tname fs None NK). destruct (all_fields fs [] SA) as (m & A & K). exists m. rewrite A. split; [reflexivity|].
  intros k v. rewrite K. split; [intros [H|(_ & G)]; [exact H | discriminate G] | intros H; left; exact H].
Qed.
Lemma key_error : forall tname fs key err, err <> None -> snd (find_key tname key err fs) <> None.
Proof.
  intros tname. induction fs as [|f fs IH]; intros key err N; [exact N|]. cbn [find_key]. destruct (has_option $"key" f); [|apply IH; exact N]. apply IH. destruct key; [discriminate | exact N].
Qed.
Lemma key_seen : forall tname fs k err f, In f fs -> option_in $"key" f -> snd (find_key tname (Some k) err fs) <> None.
Proof.
  intros tname. induction fs as [|g fs IH]; intros k err f I O; [destruct I|]. cbn [find_key]. destruct (has_option $"key" g) eqn:K; [apply key_error; discriminate|].
  destruct I as [->|I]; [apply option_iff in O; congruence | apply (IH k err f I O)].
Qed.
Theorem two_keys : forall tname a f b g c, option_in $"key" f -> option_in $"key" g -> exists e, marshal_struct tname (a ++ f :: b ++ g :: c) = Err e.
Proof.
  intros tname a f b g c F1 F2. assert (H : forall a key err, snd (find_key tname key err (a ++ f :: b ++ g :: c)) <> None).
  { clear a. induction a as [|x a IH]; intros key err.
    - cbn [app find_key]. rewrite (proj2 (option_iff $"key" f) F1). apply (key_seen tname _ f _ g); [apply in_or_app; right; left; reflexivity | exact F2].
    - cbn [app find_key]. destruct (has_option $"key" x); apply IH. }
  specialize (H a None None). unfold marshal_struct. destruct (find_key tname None None (a ++ f :: b ++ g :: c)) as (k, [e|]); [exists e; reflexivity | exfalso; apply H; reflexivity].
Qed.
Lemma add_fields_app : forall a b key m, add_fields key m (a ++ b) = bind (add_fields key m a) (fun m => add_fields key m b).
Proof.
  induction a as [|f a IH]; intros b key m; [reflexivity|]. cbn [app add_fields]. destruct (add_field key m f) as [m'|e|e]; cbn [bind]; [apply IH | reflexivity..].
Qed.
Theorem struct_error : forall tname a f b name, (forall g, In g (a ++ f :: b) -> ~ option_in $"key" g) -> Forall sane a -> converted f name ->
  (forall e, f_value f = Err e -> marshal_struct tname (a ++ f :: b) = Err e) /\
  (inlined f -> forall v, f_value f = Ok v -> (forall sub, v <> GMap sub) ->
     marshal_struct tname (a ++ f :: b) = Err ($"cannot apply inline or squash to non struct on field '" ++ f_name f ++ $"'")).
Proof.
  intros tname a f b name NK SA C. unfold marshal_struct. rewrite (no_keys tname _ None NK), add_fields_app. destruct (all_fields a [] SA) as (m & A & _). rewrite A. cbn [bind add_fields].
  apply converted_iff in C. destruct C as (SK & _). unfold skipped in SK. apply orb_false_iff in SK. destruct SK as (V & SK). unfold add_field. rewrite V, SK.
  pose proof (inlined_iff f) as II. destruct (has_option $"inline" f || has_option $"squash" f); (split; [intros e FV; rewrite FV; reflexivity|]).
  - intros _ v FV NM. rewrite FV. cbn [bind]. destruct v as [|sub|s]; [reflexivity | exfalso; exact (NM sub eq_refl) | reflexivity].
  - intros I. apply II in I. discriminate I.
Qed.
Lemma find_key_app : forall tname a b key err, find_key tname key err (a ++ b) = find_key tname (fst (find_key tname key err a)) (snd (find_key tname key err a)) b.
Proof. intros tname. induction a as [|f a IH]; intros b key err; [reflexivity|]. cbn [app find_key]. destruct (has_option $"key" f); apply IH. Qed.
Theorem last_keys : forall tname a f b g c, option_in $"key" f -> option_in $"key" g -> (forall h, In h (b ++ c) -> ~ option_in $"key" h) ->
  marshal_struct tname (a ++ f :: b ++ g :: c) = Err ($"multiple keys defined on struct '" ++ tname ++ $"' ('" ++ f_name f ++ $"' and '" ++ f_name g ++ $"')").
Proof.
  intros tname a f b g c F1 F2 NK. unfold marshal_struct. rewrite find_key_app. cbn [find_key]. rewrite (proj2 (option_iff $"key" f) F1).
  rewrite find_key_app, (no_keys tname b) by (intros h I; apply NK, in_or_app; left; exact I). cbn [find_key fst snd]. rewrite (proj2 (option_iff $"key" g) F2).
  rewrite (no_keys tname c) by (intros h I; apply NK, in_or_app; right; exact I). reflexivity.
Qed.
