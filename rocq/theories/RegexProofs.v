(** The matcher finds the preferred match; replacing. *)
From Coq Require Import String Ascii List ZArith NArith Bool Lia.
From Verif Require Import GoStr GoStrFacts Utf8 Utf8Facts ReModel ReSyntaxModel ReSound RegexSpec.
Ltac slia := unfold place, str in *; lia.
Ltac foldn p :=
  repeat match goal with
  | |- context [@pair ?A ?B (last_byte (firstn ?w ?s)) (skipn ?w ?s)] => change (@pair A B (last_byte (firstn w s)) (skipn w s)) with (next_place p)
  | H : context [@pair ?A ?B (last_byte (firstn ?w ?s)) (skipn ?w ?s)] |- _ => change (@pair A B (last_byte (firstn w s)) (skipn w s)) with (next_place p) in H
  end.
Ltac norm := change (@snd (option ascii) str) with (@snd (option ascii) (list ascii)) in *.
Ltac absurd_nil := match goal with N : ?x <> nil |- _ => exfalso; apply N; (reflexivity || assumption) end.
Import ListNotations.

Fixpoint first_of {A R} (k : A -> option R) (l : list A) : option R :=
  match l with [] => None | x :: l => match k x with Some y => Some y | None => first_of k l end end.
Lemma first_of_app : forall A R (k : A -> option R) a b, first_of k (a ++ b) = match first_of k a with Some y => Some y | None => first_of k b end.
Proof. induction a as [|x a IH]; intros b; cbn [first_of app]; [reflexivity|]. destruct (k x); [reflexivity | apply IH]. Qed.
Lemma first_of_flat : forall A B R (k : B -> option R) (f : A -> list B) l, first_of k (flat_map f l) = first_of (fun x => first_of k (f x)) l.
Proof. induction l as [|x l IH]; cbn [first_of flat_map]; [reflexivity|]. rewrite first_of_app, IH. destruct (first_of k (f x)); reflexivity. Qed.
Lemma first_of_ext : forall A R (k k' : A -> option R) l, (forall x, k x = k' x) -> first_of k l = first_of k' l.
Proof. intros A R k k' l E. induction l as [|x l IH]; cbn [first_of]; [reflexivity|]. rewrite E, IH. reflexivity. Qed.
Lemma first_of_map : forall A B R (k : B -> option R) (f : A -> B) l, first_of k (map f l) = first_of (fun x => k (f x)) l.
Proof. induction l as [|x l IH]; cbn [first_of map]; [reflexivity|]. rewrite IH. reflexivity. Qed.
Lemma first_of_filter : forall A R (k : A -> option R) (f : A -> bool) l, first_of k (filter f l) = first_of (fun x => if f x then k x else None) l.
Proof. induction l as [|x l IH]; cbn [first_of filter]; [reflexivity|]. destruct (f x); cbn [first_of]; rewrite IH; reflexivity. Qed.
Lemma first_of_some : forall A R (k : A -> option R) l y, first_of k l = Some y -> exists x, In x l /\ k x = Some y.
Proof. induction l as [|x l IH]; cbn [first_of]; intros y H; [discriminate|]. destruct (k x) eqn:E; [exists x; split; [left; reflexivity | congruence]|]. destruct (IH y H) as (z & I & K). exists z. split; [right|]; assumption. Qed.
Lemma first_of_none : forall A R (k : A -> option R) l x, first_of k l = None -> In x l -> k x = None.
Proof. induction l as [|z l IH]; cbn [first_of]; intros x H I; [destruct I|]. destruct (k z) eqn:E; [discriminate|]. destruct I as [<-|I]; [exact E | exact (IH x H I)]. Qed.
Lemma first_of_pair : forall A (l : list A), first_of Some l = hd_error l.
Proof. destruct l; reflexivity. Qed.

Lemma boundary_words : forall p, at_boundary p = xorb (word_before p) (word_after p).
Proof.
  assert (W : forall c, word_byte c = word_char c) by (intros [[] [] [] [] [] [] [] []]; reflexivity).
  intros [[b|] [|c s]]; unfold at_boundary, word_before, word_after; cbn [fst snd]; rewrite ?W; reflexivity.
Qed.
(** The matcher is the backtracking search. *)
Lemma rmatch_preferred : forall R r p g (k : place -> groups -> option R), rmatch r p g k = first_of (fun x => k (fst x) (snd x)) (preferred r p g).
Proof.
  intros R; induction r; intros p g k; cbn [rmatch preferred].
  - cbn [first_of fst snd]. destruct (k p g); reflexivity.
  - destruct (snd p) as [|c s]; [reflexivity|]. unfold when. destruct (f c); cbn [first_of fst snd]; [destruct (k _ g)|]; reflexivity.
  - unfold next_place. destruct (snd p) as [|b s]; [reflexivity|]. destruct (decode (b :: s)) as [n w]. unfold when. cbn [fst snd]. destruct (in_class c n); cbn [first_of fst snd]; [destruct (k _ g)|]; reflexivity.
  - rewrite IHr1, first_of_flat. apply first_of_ext. intros x. apply IHr2.
  - rewrite IHr1, IHr2, first_of_app. reflexivity.
  - generalize (length (snd p)). intros n. revert p g. induction n as [|n IH]; intros p g; cbn [star_loop rounds].
    + destruct greedy; cbn [app first_of fst snd]; destruct (k p g); reflexivity.
    + rewrite IHr.
      assert (E : first_of (fun x : place * groups => if Nat.ltb (length (snd (fst x))) (length (snd p)) then star_loop greedy (fun p0 g0 k0 => rmatch r p0 g0 k0) k n (fst x) (snd x) else None) (preferred r p g) =
                  first_of (fun x => k (fst x) (snd x)) (flat_map (fun x => rounds greedy (preferred r) n (fst x) (snd x)) (filter (fun x => shorter (fst x) p) (preferred r p g)))).
      { rewrite first_of_flat, first_of_filter. apply first_of_ext. intros x. unfold shorter. destruct (Nat.ltb _ _); [apply IH | reflexivity]. }
      rewrite E. destruct greedy.
      * rewrite first_of_app. cbn [first_of fst snd]. destruct (first_of _ (flat_map _ _)); [reflexivity|]. destruct (k p g); reflexivity.
      * cbn [first_of fst snd]. reflexivity.
  - rewrite IHr, first_of_map. reflexivity.
  - unfold when. destruct (fst p) as [c|]; [destruct (Ascii.eqb c NLc)|]; cbn [first_of fst snd]; try reflexivity; destruct (k p g); reflexivity.
  - unfold when. destruct (snd p) as [|c s]; [|destruct (Ascii.eqb c NLc)]; cbn [first_of fst snd]; try reflexivity; destruct (k p g); reflexivity.
  - unfold when. destruct (fst p) as [c|]; cbn [first_of fst snd]; try reflexivity; destruct (k p g); reflexivity.
  - unfold when. destruct (snd p) as [|c s]; cbn [first_of fst snd]; try reflexivity; destruct (k p g); reflexivity.
  - unfold when. rewrite boundary_words. destruct (xorb _ _); cbn [first_of fst snd]; [destruct (k p g)|]; reflexivity.
Qed.
Lemma match_at_preferred : forall r p, match_at r p = hd_error (preferred r p []).
Proof. intros r p. unfold match_at. rewrite rmatch_preferred, <- first_of_pair. apply first_of_ext. intros [q g]. reflexivity. Qed.

(** The places reached are those of the matches. *)
Lemma in_when : forall b x y, In y (when b x) <-> b = true /\ y = x.
Proof. intros [] x y; cbn; intuition congruence. Qed.
Lemma next_shorter : forall p : place, snd p <> [] -> shorter (next_place p) p = true.
Proof. intros p N. unfold shorter, next_place. cbn [snd]. pose proof (decode_width (snd p) N). rewrite skipn_length. apply PeanoNat.Nat.ltb_lt. slia. Qed.
Lemma matches_shrink : forall r p q, matches r p q -> length (snd q) <= length (snd p).
Proof.
  intros r p q M; induction M; cbn [snd length] in *; try slia.
  pose proof (next_shorter p H) as X. unfold shorter in X. apply PeanoNat.Nat.ltb_lt in X. slia.
Qed.
Lemma matches_stay : forall r p q, matches r p q -> length (snd q) = length (snd p) -> q = p.
Proof.
  intros r p q M; induction M; cbn [snd length] in *; intros L; try reflexivity; try (apply IHM; exact L); try slia.
  - pose proof (next_shorter p H) as X. unfold shorter in X. apply PeanoNat.Nat.ltb_lt in X. slia.
  - pose proof (matches_shrink _ _ _ M1). pose proof (matches_shrink _ _ _ M2). rewrite IHM2 by slia. apply IHM1. slia.
  - pose proof (matches_shrink _ _ _ M1). pose proof (matches_shrink _ _ _ M2). rewrite IHM2 by slia. apply IHM1. slia.
Qed.
Lemma preferred_sound : forall r p g q g', In (q, g') (preferred r p g) -> matches r p q.
Proof.
  induction r; intros p g q g' I; cbn [preferred] in I.
  - destruct I as [E|[]]. injection E as <- <-. constructor.
  - destruct p as [b [|c s]]; cbn [snd] in I; [destruct I|]. apply in_when in I. destruct I as [F E]. injection E as -> ->. constructor. exact F.
  - destruct (snd p) as [|b s] eqn:E; [destruct I|]. rewrite <- E in I. apply in_when in I. destruct I as [F Q]. injection Q as -> ->. apply m_rune; [intros Z; discriminate (eq_trans (eq_sym Z) E) | exact F].
  - apply in_flat_map in I. destruct I as ((x & gx) & I1 & I2). eapply m_seq; [exact (IHr1 _ _ _ _ I1) | exact (IHr2 _ _ _ _ I2)].
  - apply in_app_or in I. destruct I as [I|I]; [apply m_left; exact (IHr1 _ _ _ _ I) | apply m_right; exact (IHr2 _ _ _ _ I)].
  - revert I. generalize (length (snd p)). intros n. revert p g. induction n as [|n IH]; intros p g I; cbn [rounds] in I.
    + assert (E : (q, g') = (p, g)) by (destruct greedy; destruct I as [I|[]]; congruence). injection E as -> ->. constructor.
    + assert (I' : (q, g') = (p, g) \/ In (q, g') (flat_map (fun x => rounds greedy (preferred r) n (fst x) (snd x)) (filter (fun x => shorter (fst x) p) (preferred r p g)))).
      { destruct greedy; [apply in_app_or in I; destruct I as [I|[I|[]]] | destruct I as [I|I]]; auto. }
      destruct I' as [E|I']; [injection E as -> ->; constructor|]. apply in_flat_map in I'. destruct I' as ((x & gx) & I1 & I2). apply filter_In in I1. destruct I1 as [I1 _].
      eapply m_more; [exact (IHr _ _ _ _ I1) | exact (IH _ _ I2)].
  - apply in_map_iff in I. destruct I as ((x & gx) & E & I). injection E as <- <-. constructor. exact (IHr _ _ _ _ I).
  - apply in_when in I. destruct I as [F E]. injection E as -> ->. constructor. unfold at_line_start. destruct (fst p) as [c|]; [right; apply Ascii.eqb_eq in F; congruence | left; reflexivity].
  - apply in_when in I. destruct I as [F E]. injection E as -> ->. constructor. unfold at_line_end. destruct p as [b [|c s]]; cbn [fst snd] in *; [left; reflexivity | right; apply Ascii.eqb_eq in F; subst c; eexists; reflexivity].
  - apply in_when in I. destruct I as [F E]. injection E as -> ->. constructor. destruct (fst p); [discriminate | reflexivity].
  - apply in_when in I. destruct I as [F E]. injection E as -> ->. constructor. destruct p as [b [|c s]]; cbn [fst snd] in *; [reflexivity | discriminate].
  - apply in_when in I. destruct I as [F E]. injection E as -> ->. constructor. destruct (word_before p), (word_after p); discriminate.
Qed.
Lemma preferred_complete : forall r p q, matches r p q -> forall g, exists g', In (q, g') (preferred r p g).
Proof.
  induction r; intros p q M gr; cbn [preferred].
  - inversion M; subst. eexists. left. reflexivity.
  - inversion M; subst. exists gr. cbn [snd]. apply in_when. split; [assumption | reflexivity].
  - inversion M; subst. exists gr. destruct (snd p) as [|b s] eqn:E; [absurd_nil|]. rewrite <- E in *. apply in_when. split; [assumption | reflexivity].
  - inversion M; subst. match goal with A : matches r1 p ?y, B : matches r2 ?y q |- _ => rename y into x; rename A into A1; rename B into B1 end. destruct (IHr1 _ _ A1 gr) as (g1 & I1). destruct (IHr2 _ _ B1 g1) as (g2 & I2). exists g2. apply in_flat_map. exists (x, g1). split; assumption.
  - inversion M; subst; match goal with A : matches _ p q |- _ => (destruct (IHr1 _ _ A gr) as (g1 & I1) || destruct (IHr2 _ _ A gr) as (g1 & I1)) end; exists g1; apply in_or_app; [left | right]; assumption.
  - assert (X : forall n p q, matches (RStar greedy r) p q -> length (snd p) <= n -> forall g, exists g', In (q, g') (rounds greedy (preferred r) n p g)).
    { clear p q M gr. induction n as [|n IH]; intros p q M L g.
      - assert (q = p) by (apply (matches_stay _ _ _ M); pose proof (matches_shrink _ _ _ M); slia). subst q. exists g. cbn [rounds]. destruct greedy; left; reflexivity.
      - remember (RStar greedy r) as rr eqn:E. revert L. induction M; try discriminate; intros L; injection E as -> ->.
        + exists g. cbn [rounds]. destruct greedy; [apply in_or_app; right; left; reflexivity | left; reflexivity].
        + destruct (shorter x p) eqn:SH.
          * destruct (IHr _ _ M1 g) as (g1 & I1). assert (LX : length (snd x) <= n) by (unfold shorter in SH; apply PeanoNat.Nat.ltb_lt in SH; slia).
            destruct (IH _ _ M2 LX g1) as (g2 & I2). exists g2. cbn [rounds].
            assert (IN : In (q, g2) (flat_map (fun x => rounds greedy (preferred r) n (fst x) (snd x)) (filter (fun x => shorter (fst x) p) (preferred r p g)))).
            { apply in_flat_map. exists (x, g1). split; [apply filter_In; split; assumption | exact I2]. }
            destruct greedy; [apply in_or_app; left; exact IN | right; exact IN].
          * assert (x = p) by (apply (matches_stay _ _ _ M1); pose proof (matches_shrink _ _ _ M1); unfold shorter in SH; apply PeanoNat.Nat.ltb_ge in SH; slia). subst x. apply IHM2; [reflexivity | exact IH | exact L]. }
    exact (X _ _ _ M (le_n _) gr).
  - inversion M; subst. match goal with A : matches r ?p1 ?q1 |- _ => rename q1 into q; destruct (IHr _ _ A gr) as (g1 & I1) end. eexists. apply in_map_iff. exists (q, g1). split; [reflexivity | exact I1].
  - inversion M; subst. exists gr. apply in_when. split; [|reflexivity]. match goal with A : at_line_start _ |- _ => destruct A as [->| ->] end; [reflexivity | apply Ascii.eqb_refl].
  - inversion M; subst. exists gr. apply in_when. split; [|reflexivity]. match goal with A : at_line_end _ |- _ => destruct A as [->|[s ->]] end; [reflexivity | apply Ascii.eqb_refl].
  - inversion M; subst. exists gr. apply in_when. split; [|reflexivity]. match goal with A : _ = _ |- _ => rewrite A end. reflexivity.
  - inversion M; subst. exists gr. apply in_when. split; [|reflexivity]. destruct q as [b [|c s]]; [reflexivity | discriminate].
  - inversion M; subst. exists gr. apply in_when. split; [|reflexivity]. destruct (word_before q), (word_after q); try reflexivity; exfalso; match goal with A : _ <> _ |- _ => apply A; reflexivity end.
Qed.
Lemma found_matches : forall r p q g, match_at r p = Some (q, g) -> matches r p q.
Proof. intros r p q g M. rewrite match_at_preferred in M. destruct (preferred r p []) as [|x l] eqn:E; [discriminate|]. cbn in M. injection M as ->. apply (preferred_sound r p [] q g). rewrite E. left. reflexivity. Qed.
Lemma none_matches : forall r p, match_at r p = None <-> forall q, ~ matches r p q.
Proof.
  intros r p. split.
  - intros M q H. destruct (preferred_complete _ _ _ H []) as (g & I). rewrite match_at_preferred in M. destruct (preferred r p []); [destruct I | discriminate].
  - intros H. destruct (match_at r p) as [(q, g)|] eqn:M; [|reflexivity]. destruct (H q). exact (found_matches _ _ _ _ M).
Qed.
(** Groups *)
Lemma preferred_groups : forall r p g q g', In (q, g') (preferred r p g) ->
  exists new, g' = new ++ g /\ Forall (fun x => exists a u v, has_group (fst x) a r /\ matches a u v /\ snd x = taken u v) new.
Proof.
  induction r; intros p g q g' I; cbn [preferred] in I.
  - destruct I as [E|[]]. injection E as <- <-. exists []. split; [reflexivity | constructor].
  - norm; destruct (@snd (option ascii) (list ascii) p) as [|c s]; [destruct I|]. apply in_when in I. destruct I as [_ E]. injection E as -> ->. exists []. split; [reflexivity | constructor].
  - norm; destruct (@snd (option ascii) (list ascii) p) as [|b s]; [destruct I|]. apply in_when in I. destruct I as [_ E]. injection E as -> ->. exists []. split; [reflexivity | constructor].
  - apply in_flat_map in I. destruct I as ((x & gx) & I1 & I2). destruct (IHr1 _ _ _ _ I1) as (n1 & -> & F1). destruct (IHr2 _ _ _ _ I2) as (n2 & E & F2). cbn [fst snd] in E. exists (n2 ++ n1). rewrite <- app_assoc. split; [exact E|].
    apply Forall_app. split; [eapply Forall_impl; [|exact F2] | eapply Forall_impl; [|exact F1]]; intros z (a & u & v & H & X); exists a, u, v; (split; [|exact X]); [apply h_seq2 | apply h_seq1]; exact H.
  - apply in_app_or in I. destruct I as [I|I]; [destruct (IHr1 _ _ _ _ I) as (n1 & E & F1) | destruct (IHr2 _ _ _ _ I) as (n1 & E & F1)]; exists n1; (split; [exact E|]); (eapply Forall_impl; [|exact F1]);
      intros z (a & u & v & H & X); exists a, u, v; (split; [|exact X]); [apply h_alt1 | apply h_alt2]; exact H.
  - revert I. generalize (length (snd p)). intros n. revert p g. induction n as [|n IH]; intros p g I; cbn [rounds] in I.
    + assert (E : (q, g') = (p, g)) by (destruct greedy; destruct I as [I|[]]; congruence). injection E as -> ->. exists []. split; [reflexivity | constructor].
    + assert (I' : (q, g') = (p, g) \/ In (q, g') (flat_map (fun x => rounds greedy (preferred r) n (fst x) (snd x)) (filter (fun x => shorter (fst x) p) (preferred r p g)))).
      { destruct greedy; [apply in_app_or in I; destruct I as [I|[I|[]]] | destruct I as [I|I]]; auto. }
      destruct I' as [E|I']; [injection E as -> ->; exists []; split; [reflexivity | constructor]|]. apply in_flat_map in I'. destruct I' as ((x & gx) & I1 & I2). apply filter_In in I1. destruct I1 as [I1 _].
      destruct (IHr _ _ _ _ I1) as (n1 & -> & F1). destruct (IH _ _ I2) as (n2 & E & F2). cbn [fst snd] in E. exists (n2 ++ n1). rewrite <- app_assoc. split; [exact E|].
      apply Forall_app. split; [exact F2|]. eapply Forall_impl; [|exact F1]. intros z (a & u & v & H & X). exists a, u, v. split; [apply h_star; exact H | exact X].
  - apply in_map_iff in I. destruct I as ((x & gx) & E & I). injection E as <- <-. destruct (IHr _ _ _ _ I) as (n1 & -> & F1). exists ((n, taken p x) :: n1). split; [reflexivity|].
    constructor; [exists r, p, x; split; [apply h_here | split; [exact (preferred_sound _ _ _ _ _ I) | reflexivity]]|]. eapply Forall_impl; [|exact F1]. intros z (a & u & v & H & X). exists a, u, v. split; [apply h_group; exact H | exact X].
  - apply in_when in I. destruct I as [_ E]. injection E as -> ->. exists []. split; [reflexivity | constructor].
  - apply in_when in I. destruct I as [_ E]. injection E as -> ->. exists []. split; [reflexivity | constructor].
  - apply in_when in I. destruct I as [_ E]. injection E as -> ->. exists []. split; [reflexivity | constructor].
  - apply in_when in I. destruct I as [_ E]. injection E as -> ->. exists []. split; [reflexivity | constructor].
  - apply in_when in I. destruct I as [_ E]. injection E as -> ->. exists []. split; [reflexivity | constructor].
Qed.
Lemma found_groups : forall r p q g n t, match_at r p = Some (q, g) -> In (n, t) g -> exists a u v, has_group n a r /\ matches a u v /\ t = taken u v.
Proof.
  intros r p q g n t M I. rewrite match_at_preferred in M. destruct (preferred r p []) as [|x l] eqn:E; [discriminate|]. cbn in M. injection M as ->.
  destruct (preferred_groups r p [] q g) as (new & EN & F); [rewrite E; left; reflexivity|]. rewrite app_nil_r in EN. subst new. rewrite Forall_forall in F. exact (F _ I).
Qed.

(** Searching *)
Lemma search_found : forall n r p u a b g, search n r p = Some (u, a, b, g) ->
  steps p u a /\ match_at r a = Some (b, g) /\ forall u' p', steps p u' p' -> length u' < length u -> match_at r p' = None.
Proof.
  induction n as [|n IH]; intros r p u a b g H; cbn [search] in H.
  - destruct (match_at r p) as [(q, g0)|] eqn:M; [|norm; destruct (@snd (option ascii) (list ascii) p); discriminate]. injection H as <- <- <- <-. split; [constructor|]. split; [exact M|]. cbn [length]. intros u' p' _ L. slia.
  - destruct (match_at r p) as [(q, g0)|] eqn:M; [injection H as <- <- <- <-; split; [constructor|]; split; [exact M|]; cbn [length]; intros u' p' _ L; slia|].
    norm; destruct (@snd (option ascii) (list ascii) p) as [|c s] eqn:E; [discriminate|]. rewrite <- E in H. foldn p. destruct (search n r (next_place p)) as [(((u0, a0), b0), g0)|] eqn:SE; [|discriminate]. injection H as <- -> -> ->.
    destruct (IH _ _ _ _ _ _ SE) as (S1 & M1 & N1). split; [constructor; [intros Z; discriminate (eq_trans (eq_sym Z) E) | exact S1]|]. split; [exact M1|].
    intros u' p' ST L. inversion ST as [|p0 u1 q0 NE ST1]; subst; [exact M|]. rewrite !app_length in L. apply (N1 u1 p' ST1). slia.
Qed.
Lemma search_nothing : forall n r (p : place), length (snd p) <= n -> search n r p = None -> forall u p', steps p u p' -> match_at r p' = None.
Proof.
  induction n as [|n IH]; intros r p L H u p' ST; cbn [search] in H.
  - destruct (match_at r p) as [(q, g0)|] eqn:M; [discriminate|]. inversion ST as [|p0 u1 q0 NE ST1]; subst; [exact M|]. norm; destruct (@snd (option ascii) (list ascii) p); [absurd_nil | cbn in L; slia].
  - destruct (match_at r p) as [(q, g0)|] eqn:M; [discriminate|]. norm; destruct (@snd (option ascii) (list ascii) p) as [|c s] eqn:E.
    { inversion ST as [|p0 u1 q0 NE ST1]; subst; [exact M|]. destruct NE. exact E. }
    try rewrite <- E in H. foldn p. destruct (search n r (next_place p)) as [(((u0, a0), b0), g0)|] eqn:SE; [discriminate|].
    inversion ST as [|p0 u1 q0 NE ST1]; subst; [exact M|].
    apply (IH r (next_place p)) with (u := u1); [|exact SE|exact ST1]. pose proof (next_shorter p NE) as X. unfold shorter in X. apply PeanoNat.Nat.ltb_lt in X. assert (Y := f_equal (@List.length ascii) E). slia.
Qed.
(** A search and a scan *)
Lemma match_shrink : forall r p q g, match_at r p = Some (q, g) -> length (snd q) <= length (snd p).
Proof. intros r p q g M. apply (matches_shrink r). exact (found_matches _ _ _ _ M). Qed.
Lemma taken_nil : forall p q : place, length (snd q) <= length (snd p) -> taken p q = [] -> length (snd q) = length (snd p).
Proof. intros p q L E. apply (f_equal (@length ascii)) in E. unfold taken in E. rewrite firstn_length in E. cbn [length] in E. slia. Qed.
Lemma str_eqb_nil : forall s, str_eqb s [] = true <-> s = [].
Proof. intros s. apply str_eqb_eq. Qed.
Definition output (repl : str -> groups -> str) (l : list part) : str := flat_map (part_output repl) l.
Lemma next_text : forall p : place, snd p = firstn (snd (decode (snd p))) (snd p) ++ snd (next_place p).
Proof. intros p. symmetry. apply firstn_skipn. Qed.
(** The scan finds what the search finds. *)
Lemma taken_end : forall p q : place, snd p = [] -> taken p q = [].
Proof. intros [b s] q E. cbn [snd] in E. subst s. unfold taken. apply firstn_nil. Qed.
Lemma scan_search : forall r repl n last (p : place) l, length (snd p) < n -> scan r last p l -> replace_matches n r repl last p = output repl l.
Proof.
  intros r repl. induction n as [|n IH]; intros last p l L SC; [slia|]. cbn [replace_matches].
  assert (X : forall m (p : place) last l, length (snd p) <= m -> length (snd p) <= n -> scan r last p l ->
    match search m r p with
    | None => snd p
    | Some (u, a, b, g) => let m := taken a b in
        if str_eqb m [] then let w := snd (decode (snd a)) in u ++ (if last && str_eqb u [] then [] else repl m g) ++
          match snd a with [] => [] | _ => firstn w (snd a) ++ replace_matches n r repl false (last_byte (firstn w (snd a)), skipn w (snd a)) end
        else u ++ repl m g ++ replace_matches n r repl true b
    end = output repl l).
  { clear p last l L SC. induction m as [|m IHm]; intros p last l Lm L SC.
    - assert (E0 : snd p = []) by (norm; destruct (@snd (option ascii) (list ascii) p); [reflexivity | cbn in Lm; slia]). cbn [search]. inversion SC as [last' p' E N|last' p' l' NE N SC'|last' p' q g l' C T SC'|p' q g l' C T SC']; subst; norm.
      + destruct (match_at r p) as [(q, g)|] eqn:M; [|norm; rewrite E0; reflexivity]. cbv zeta. assert (T : taken p q = []) by (exact (taken_end p q E0)). rewrite T. change (str_eqb [] []) with true.
        destruct last; [norm; rewrite E0; reflexivity|]. destruct (N q g). split; [exact M | discriminate].
      + contradiction.
      + destruct T. exact (taken_end p _ E0).
      + destruct C as [M _]. rewrite M. cbv zeta. rewrite T. change (str_eqb [] []) with true. cbn [andb]. rewrite E0. cbn [app]. inversion SC' as [? ? E N|? ? ? NE N SC''|? ? q2 g2 l2 C2 T2 SC''|]; subst; norm.
        * unfold output. cbn [flat_map part_output]. reflexivity.
        * contradiction.
        * destruct T2. exact (taken_end p _ E0).
    - cbn [search]. inversion SC as [last' p' E N|last' p' l' NE N SC'|last' p' q g l' C T SC'|p' q g l' C T SC']; subst; norm.
      + destruct (match_at r p) as [(q, g)|] eqn:M; [|norm; rewrite E; reflexivity]. cbv zeta. assert (T : taken p q = []) by (exact (taken_end p q E)). rewrite T. change (str_eqb [] []) with true. cbn iota.
        destruct last; [norm; rewrite E; reflexivity|]. destruct (N q g). split; [exact M | discriminate].
      + pose proof (next_shorter p NE) as SH. unfold shorter in SH. apply PeanoNat.Nat.ltb_lt in SH. destruct (match_at r p) as [(q, g)|] eqn:M.
        * assert (T : last = true /\ taken p q = []).
          { destruct last; [|destruct (N q g); split; [exact M | discriminate]]. split; [reflexivity|]. destruct (taken p q) eqn:T; [reflexivity|]. destruct (N q g). split; [exact M|]. rewrite T. discriminate. }
          destruct T as [-> T]. cbv zeta. rewrite T. change (str_eqb [] []) with true. cbn [andb app]. unfold output. cbn [flat_map part_output]. foldn p. norm; destruct (@snd (option ascii) (list ascii) p) as [|c0 s0] eqn:E; [absurd_nil|]. rewrite <- E in *.
          apply f_equal. apply (IH false (next_place p) l'); [slia | exact SC'].
        * norm; destruct (@snd (option ascii) (list ascii) p) as [|c0 s0] eqn:E; [absurd_nil|]. rewrite <- E in *. foldn p. specialize (IHm (next_place p) false l' ltac:(slia) ltac:(slia) SC').
          destruct (search m r (next_place p)) as [(((u, a), b), g)|] eqn:SE.
          -- cbv zeta in *. unfold output in *. cbn [flat_map part_output]. rewrite <- IHm. cbn [andb]. destruct (str_eqb (taken a b) []).
             ++ rewrite <- app_assoc. apply (f_equal (app _)). apply (f_equal (app _)).
                assert (Z : last && str_eqb (firstn (snd (decode (snd p))) (snd p) ++ u) [] = false).
                { destruct last; [|reflexivity]. apply not_true_is_false. intros Z. apply str_eqb_nil in Z. apply app_eq_nil in Z. destruct Z as [Z _]. apply (f_equal (@length ascii)) in Z. rewrite firstn_length in Z. cbn [length] in Z. pose proof (decode_width (snd p) NE). slia. }
                norm. rewrite Z. reflexivity.
             ++ rewrite <- app_assoc. reflexivity.
          -- unfold output in *. cbn [flat_map part_output]. rewrite <- IHm. apply next_text.
      + destruct C as [M _]. rewrite M. cbv zeta. replace (str_eqb (taken p q) []) with false by (symmetry; apply not_true_is_false; intros Z; apply str_eqb_nil in Z; contradiction).
        cbn [app]. unfold output. cbn [flat_map part_output]. apply (f_equal (app _)). apply (IH true q l'); [|exact SC'].
        pose proof (match_shrink _ _ _ _ M). assert (length (snd q) <> length (snd p)); [|slia]. intros Z. apply T. unfold taken. rewrite Z, PeanoNat.Nat.sub_diag. reflexivity.
      + destruct C as [M _]. rewrite M. cbv zeta. rewrite T. change (str_eqb [] []) with true. cbn [andb app]. foldn p. unfold output. cbn [flat_map part_output]. apply (f_equal (app _)).
        inversion SC' as [? ? E N|? ? l2 NE N SC''|? ? q2 g2 l2 C2 T2 SC''|]; subst; norm.
        * rewrite E. reflexivity.
        * pose proof (next_shorter p NE) as SH. unfold shorter in SH. apply PeanoNat.Nat.ltb_lt in SH. norm; destruct (@snd (option ascii) (list ascii) p) as [|c0 s0] eqn:E; [absurd_nil|]. rewrite <- E in *. cbn [flat_map part_output]. apply (f_equal (app _)). apply (IH false (next_place p) l2); [slia | exact SC''].
        * destruct C2 as [M2 _]. rewrite M in M2. injection M2 as <- <-. contradiction. }
  apply X; [slia | slia | exact SC].
Qed.
Lemma scan_exists : forall r n last (p : place), length (snd p) < n -> exists l, scan r last p l.
Proof.
  intros r. induction n as [|n IH]; intros last p L; [slia|].
  assert (COPY : forall last, (forall q g, ~ counts last r p q g) -> exists l, scan r last p l).
  { intros la N. norm; destruct (@snd (option ascii) (list ascii) p) as [|c s] eqn:E; [exists []; apply sc_end; assumption|]. assert (NE : snd p <> []) by (intros Z; discriminate (eq_trans (eq_sym Z) E)). pose proof (next_shorter p NE) as SH. unfold shorter in SH. apply PeanoNat.Nat.ltb_lt in SH.
    rewrite <- E in *. destruct (IH false (next_place p)) as (l & SC); [slia|]. eexists. apply sc_copy; [exact NE | exact N | exact SC]. }
  destruct (match_at r p) as [(q, g)|] eqn:M; [|apply COPY; intros q g [X _]; congruence].
  destruct (str_eqb (taken p q) []) eqn:T.
  - apply str_eqb_nil in T. assert (CT : exists l, scan r true p l) by (apply COPY; intros q' g' [X Y]; rewrite M in X; injection X as <- <-; apply Y; [reflexivity | exact T]).
    destruct last; [exact CT|]. destruct CT as (l & SC). eexists. eapply sc_empty; [split; [exact M | discriminate] | exact T | exact SC].
  - assert (T' : taken p q <> []) by (intros Z; apply str_eqb_nil in Z; congruence). pose proof (match_shrink _ _ _ _ M). assert (length (snd q) <> length (snd p)) by (intros Z; apply T'; unfold taken; rewrite Z, PeanoNat.Nat.sub_diag; reflexivity).
    destruct (IH true q) as (l & SC); [slia|]. eexists. eapply sc_match; [split; [exact M | intros _; exact T'] | exact T' | exact SC].
Qed.
Lemma matches_prefix : forall r p q, matches r p q -> snd p = taken p q ++ snd q.
Proof.
  assert (X : forall r p q, matches r p q -> exists u, snd p = u ++ snd q).
  { intros r p q M; induction M; cbn [snd]; try (exists []; reflexivity); try exact IHM.
    - exists [c]. reflexivity.
    - exists (firstn (snd (decode (snd p))) (snd p)). apply next_text.
    - destruct IHM1 as (u & E1), IHM2 as (v & E2). exists (u ++ v). rewrite E1, E2, app_assoc. reflexivity.
    - destruct IHM1 as (u & E1), IHM2 as (v & E2). exists (u ++ v). rewrite E1, E2, app_assoc. reflexivity. }
  intros r p q M. destruct (X _ _ _ M) as (u & E). unfold taken. rewrite E, app_length. replace (length u + length (snd q) - length (snd q)) with (length u) by slia. rewrite firstn_app, firstn_all, PeanoNat.Nat.sub_diag. cbn. rewrite app_nil_r. reflexivity.
Qed.
Lemma scan_text : forall r last p l, scan r last p l -> snd p = flat_map part_text l.
Proof.
  intros r last p l SC. induction SC; cbn [flat_map part_text].
  - exact H.
  - rewrite <- IHSC. apply next_text.
  - rewrite <- IHSC. destruct H as [M _]. apply (matches_prefix r). exact (found_matches _ _ _ _ M).
  - exact IHSC.
Qed.
Lemma replaced_scan : forall r repl s, exists l, scan r false (None, s) l /\ flat_map part_text l = s /\ replace_re r repl s = flat_map (part_output repl) l.
Proof.
  intros r repl s. destruct (scan_exists r (S (length s)) false (None, s)) as (l & SC); [cbn [snd]; slia|]. exists l. split; [exact SC|]. split; [symmetry; exact (scan_text _ _ _ _ SC)|].
  unfold replace_re. apply scan_search; [cbn [snd]; slia | exact SC].
Qed.
