(** Proofs about raw texts. *)
From Coq Require Import String Ascii List ZArith NArith Bool Lia.
From Verif Require Import GoStr GoStrFacts Utf8 Utf8Facts CliModel ReModel ReSyntaxModel ReSound RegexSpec RegexProofs RegexProofs5 IgnoreSpec IgnoreProofs RawModel RawSpec.
Import ListNotations.
Local Open Scope char_scope.

(** ** The expressions *)
Definition not_space : rclass := COr CNone (CNot c_space).
Definition a_char : rclass := CNot (c_char 10).
Definition closing : str := $"!Q!".
Definition opening : str := QUOTE :: $"!Q!".
Definition re_tight : re := bytes_then (RSeq (RGroup 1 (RSeq (RRune not_space) (RStar false (RRune not_space)))) (bytes_then (RByte (Ascii.eqb QUOTE)) closing)) opening.
Definition re_loose : re := bytes_then (RSeq (RGroup 1 (RStar false (RRune a_char))) (bytes_then (RByte (Ascii.eqb QUOTE)) closing)) opening.
Definition re_comment : re := RSeq RBol (RSeq (RStar true (RRune c_space)) (RSeq (RByte (Ascii.eqb "#")) (RSeq (RByte (Ascii.eqb "!")) (RSeq (RStar true (RRune c_space)) REol)))).
Lemma compiled_tight : forall beyond, compile beyond $"""!Q!(?P<content>[\S]+?)!Q!""" = Some {| c_re := re_tight; c_names := [($"content", 1)] |}.
Proof. intros beyond. vm_compute. reflexivity. Qed.
Lemma compiled_loose : forall beyond, compile beyond $"""!Q!(?P<content>.*?)!Q!""" = Some {| c_re := re_loose; c_names := [($"content", 1)] |}.
Proof. intros beyond. vm_compute. reflexivity. Qed.
Lemma compiled_comment : forall beyond, compile beyond $"(?m)^\s*#!\s*$" = Some {| c_re := re_comment; c_names := [] |}.
Proof. intros beyond. vm_compute. reflexivity. Qed.

(** ** Copying what does not match *)
Definition head_low (t : str) : Prop := match t with [] => True | c :: _ => low c = true end.
Definition silent (r : re) (u t : str) : Prop := forall v w, u = v ++ w -> w <> [] -> forall b, match_at r (b, w ++ t) = None.
Lemma chunk : forall (c : ascii) (u t : str), head_low t ->
  exists v w, c :: u = v ++ w /\ v <> [] /\ firstn (snd (decode (c :: u ++ t))) (c :: u ++ t) = v /\ skipn (snd (decode (c :: u ++ t))) (c :: u ++ t) = w ++ t /\
    (v = [c] /\ low c = true /\ fst (decode (c :: u ++ t)) = N_of_ascii c \/ (forall x, In x v -> low x = false) /\ (128 <= fst (decode (c :: u ++ t)))%N).
Proof.
  intros c u t T. destruct (low c) eqn:L.
  - exists [c], u. rewrite (decode_low c (u ++ t) L). cbn [snd fst firstn skipn app]. split; [reflexivity|]. split; [discriminate|]. split; [reflexivity|]. split; [reflexivity|]. left. split; [reflexivity|]. split; reflexivity.
  - destruct (ReSound.decode_high _ every_byte (fun q _ => [q]) c (u ++ t) L) as (v & U & V & A).
    assert (FV : firstn (snd (decode (c :: u ++ t))) (c :: u ++ t) = v).
    { apply (app_inv_tail (skipn (snd (decode (c :: u ++ t))) (c :: u ++ t))). rewrite firstn_skipn. exact U. }
    assert (P : exists w, c :: u = v ++ w).
    { clear FV. remember (skipn (snd (decode (c :: u ++ t))) (c :: u ++ t)) as z eqn:Z. clear Z. change (c :: u ++ t) with ((c :: u) ++ t) in U. generalize (c :: u) U. clear - A T. intros y. revert v A.
      induction y as [|a y IH]; intros v A U.
      - destruct v as [|q v]; [exists []; reflexivity|]. exfalso. cbn [app] in U. subst t. cbn in T. rewrite (A q (or_introl eq_refl)) in T. discriminate T.
      - destruct v as [|q v]; [exists (a :: y); reflexivity|]. injection U as -> U. destruct (IH v ltac:(intros x I; apply A; right; exact I) U) as (w & ->). exists w. reflexivity. }
    destruct P as (w & P). exists v, w. split; [exact P|]. split; [intros ->; cbn in V; lia|]. split; [exact FV|]. split.
    + apply (app_inv_head v). rewrite <- FV at 1. rewrite firstn_skipn. rewrite app_assoc, <- P. reflexivity.
    + right. split; [exact A | exact (ReSound.decode_high_rune _ every_byte (fun q _ => [q]) c (u ++ t) L)].
Qed.
Lemma scan_copy : forall r repl t o u b last, head_low t -> silent r u t -> (forall b last, exists l, scan r last (b, t) l /\ output repl l = o) ->
  exists l, scan r last (b, u ++ t) l /\ output repl l = u ++ o.
Proof.
  intros r repl t o u. pattern u. apply str_len_ind. clear u. intros u IH b last T S1 N. destruct u as [|c u]; [exact (N b last)|].
  destruct (chunk c u t T) as (v & w & E & VN & FV & SV & _).
  destruct (IH w ltac:(rewrite E, app_length; destruct v; [congruence | cbn; lia]) (fst (next_place (b, (c :: u) ++ t))) false T) as (l & SC & O); [|exact N|].
  - intros v' w' E' W b'. apply (S1 (v ++ v') w'); [rewrite E, E', app_assoc; reflexivity | exact W].
  - exists (Copied v :: l). split.
    + pose proof (S1 [] (c :: u) eq_refl ltac:(discriminate) b) as NM.
      pose proof (sc_copy r last (b, (c :: u) ++ t) l ltac:(discriminate)) as X. cbn [snd] in X. change ((c :: u) ++ t) with (c :: u ++ t) in *. unfold str in *. rewrite FV in X. apply X.
      * intros q g (M & _). pose proof (eq_trans (eq_sym M) NM) as Z. discriminate Z.
      * unfold next_place in *. cbn [snd fst] in *. unfold str in *. rewrite SV. exact SC.
    + unfold output in *. cbn [flat_map part_output]. rewrite O, app_assoc, <- E. reflexivity.
Qed.
Lemma replace_silent : forall r repl s, silent r s [] -> match_at r (None, []) = None -> (forall b, match_at r (b, []) = None) -> replace_re r repl s = s.
Proof.
  intros r repl s S1 _ E. destruct (scan_copy r repl [] [] s None false I S1) as (l & SC & O).
  - intros b last. exists []. split; [|reflexivity]. apply sc_end; [reflexivity|]. intros q g (M & _). pose proof (eq_trans (eq_sym M) (E b)) as Z. discriminate Z.
  - rewrite !app_nil_r in *. refine (eq_trans _ O). unfold replace_re. apply scan_search; [cbn [snd]; lia | exact SC].
Qed.

(** ** The lazy loop *)
Lemma lazy_take : forall R f t, (forall n, (128 <= n)%N -> in_class f n = true) -> head_low t -> forall V x (K : place -> groups -> option R) n b g,
  Forall (fun c => low c = true -> in_class f (N_of_ascii c) = true) x ->
  (forall v w b, x = v ++ w -> w <> [] -> K (b, w ++ t) g = None) -> length x <= n -> (forall b, K (b, t) g = Some V) ->
  star_loop false (fun p g k => rmatch (RRune f) p g k) K n (b, x ++ t) g = Some V.
Proof.
  intros R f t H T V x. pattern x. apply str_len_ind. clear x. intros x IH K n b g F N L Z. destruct x as [|c x].
  - cbn [app]. pose proof (Z b) as Y. destruct n; cbn [star_loop]; unfold place, str in *; rewrite Y; reflexivity.
  - destruct n as [|n]; [cbn in L; lia|]. destruct (chunk c x t T) as (v & w & E & VN & FV & SV & Q).
    assert (LW : length w < length (c :: x)) by (rewrite E, app_length; destruct v; [congruence | cbn; lia]).
    cbn [star_loop]. pose proof (N [] (c :: x) b eq_refl ltac:(discriminate)) as N0. change ((c :: x) ++ t) with (c :: x ++ t) in *. unfold place, str in *. rewrite N0. cbn [rmatch snd].
    destruct (decode (c :: x ++ t)) as [rn wd] eqn:D. cbn [fst snd] in *.
    assert (IC : in_class f rn = true).
    { destruct Q as [(-> & LC & ->)|(_ & G)]; [|apply H; exact G]. inversion F; subst. auto. }
    rewrite IC, FV, SV. cbn [snd]. destruct (Nat.ltb_spec (length (w ++ t)) (length (c :: x ++ t))) as [_|C].
    2: { change (c :: x ++ t) with ((c :: x) ++ t) in C. rewrite !app_length in C. lia. }
    apply IH; [exact LW | | | lia | exact Z].
    + rewrite E in F. apply Forall_app in F. apply F.
    + intros v' w' b0 E' W. apply (N (v ++ v') w'); [rewrite E, E', app_assoc; reflexivity | exact W].
Qed.
Lemma lazy_stuck : forall R f c t, low c = true -> in_class f (N_of_ascii c) = false -> forall x (K : place -> groups -> option R) n b g,
  (forall v w b g, x = v ++ w -> K (b, w ++ c :: t) g = None) -> star_loop false (fun p g k => rmatch (RRune f) p g k) K n (b, x ++ c :: t) g = None.
Proof.
  intros R f c t LC IC x. pattern x. apply str_len_ind. clear x. intros x IH K n b g N. pose proof (N [] x b g eq_refl) as N0. destruct n as [|n]; cbn [star_loop]; unfold place, str in *; rewrite N0; [reflexivity|].
  destruct x as [|d x].
  - cbn [app rmatch snd]. rewrite (decode_low c t LC), IC. reflexivity.
  - destruct (chunk d x (c :: t) LC) as (v & w & E & VN & FV & SV & Q). change ((d :: x) ++ c :: t) with (d :: x ++ c :: t). cbn [rmatch snd]. unfold str in *. destruct (decode (d :: x ++ c :: t)) as [rn wd]. cbn [fst snd] in *. destruct (in_class f rn); [|reflexivity].
    rewrite FV, SV. destruct (Nat.ltb _ _); [|reflexivity]. apply IH.
    + rewrite E, app_length. destruct v; [congruence | cbn; lia].
    + intros v' w' b0 g0 E'. apply (N (v ++ v') w'). rewrite E, E', app_assoc. reflexivity.
Qed.
