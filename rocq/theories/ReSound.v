(** Facts about regular expressions used to show that an expression does not match: a match eats a word of the
    expression; [needs] finds words that every match contains, [reach] follows an automaton of texts. *)
From Coq Require Import String Ascii List ZArith NArith Ndigits Bool Lia ZifyBool ZifyN.
From Verif Require Import GoStr GoStrFacts Utf8 Utf8Facts ReModel ReSyntaxModel.
Import ListNotations.

(** The expression can take the text s up to s' (anchors are ignored). *)
Inductive eats : re -> str -> str -> Prop :=
| e_nil s : eats RNil s s
| e_byte f c s : f c = true -> eats (RByte f) (c :: s) s
| e_rune f s : s <> [] -> in_class f (fst (decode s)) = true -> eats (RRune f) s (skipn (snd (decode s)) s)
| e_seq a b s s1 s2 : eats a s s1 -> eats b s1 s2 -> eats (RSeq a b) s s2
| e_left a b s s1 : eats a s s1 -> eats (RAlt a b) s s1
| e_right a b s s1 : eats b s s1 -> eats (RAlt a b) s s1
| e_stop g a s : eats (RStar g a) s s
| e_more g a s s1 s2 : eats a s s1 -> eats (RStar g a) s1 s2 -> eats (RStar g a) s s2
| e_group n a s s1 : eats a s s1 -> eats (RGroup n a) s s1
| e_bol s : eats RBol s s
| e_eol s : eats REol s s
| e_bot s : eats RBot s s
| e_eot s : eats REot s s
| e_word s : eats RBound s s.

Lemma rmatch_eats : forall R r p g (k : place -> groups -> option R) x, rmatch r p g k = Some x ->
  exists p' g', eats r (snd p) (snd p') /\ k p' g' = Some x.
Proof.
  intros R; induction r; intros p g k x H.
  - exists p, g; split; [constructor | exact H].
  - cbn [rmatch] in H. destruct (snd p) as [|c s] eqn:E; [discriminate|]. destruct (f c) eqn:F; [|discriminate].
    exists (Some c, s), g; split; [constructor; exact F | exact H].
  - cbn [rmatch] in H. destruct (snd p) as [|b s] eqn:E; [discriminate|].
    destruct (decode (b :: s)) as [n w] eqn:D. destruct (in_class c n) eqn:F; [|discriminate].
    exists (last_byte (firstn w (b :: s)), skipn w (b :: s)), g; split; [|exact H].
    cbn [snd]. replace w with (snd (decode (b :: s))) by (rewrite D; reflexivity).
    constructor; [discriminate | rewrite D; exact F].
  - cbn [rmatch] in H. apply IHr1 in H. destruct H as (p1 & g1 & E1 & H). cbn beta in H. apply IHr2 in H.
    destruct H as (p2 & g2 & E2 & H). exists p2, g2; split; [econstructor; eauto | exact H].
  - cbn [rmatch] in H. destruct (rmatch r1 p g k) as [y|] eqn:E.
    + assert (y = x) by congruence; subst y. apply IHr1 in E. destruct E as (p1 & g1 & E1 & H1).
      exists p1, g1; split; [apply e_left; exact E1 | exact H1].
    + apply IHr2 in H. destruct H as (p1 & g1 & E1 & H1). exists p1, g1; split; [apply e_right; exact E1 | exact H1].
  - cbn [rmatch] in H. revert H. generalize (length (snd p)). intros n. revert p g x.
    induction n as [|n IH]; intros p g x H.
    + exists p, g; split; [constructor | exact H].
    + cbn [star_loop] in H.
      set (more := rmatch r p g (fun p' g' => if Nat.ltb (length (snd p')) (length (snd p)) then star_loop greedy (fun p0 g0 k0 => rmatch r p0 g0 k0) k n p' g' else None)) in *.
      assert (M : forall y, more = Some y -> exists p' g', eats (RStar greedy r) (snd p) (snd p') /\ k p' g' = Some y).
      { intros y Hy. apply IHr in Hy. destruct Hy as (p1 & g1 & E1 & H1). cbn beta in H1.
        destruct (Nat.ltb (length (snd p1)) (length (snd p))); [|discriminate].
        apply IH in H1. destruct H1 as (p2 & g2 & E2 & H2). exists p2, g2; split; [econstructor; eauto | exact H2]. }
      destruct greedy.
      * destruct more as [y|] eqn:E.
        { assert (y = x) by congruence; subst y. apply M; reflexivity. }
        exists p, g; split; [constructor | exact H].
      * destruct (k p g) as [y|] eqn:E.
        { assert (y = x) by congruence; subst y. exists p, g; split; [constructor | exact E]. }
        apply M; exact H.
  - cbn [rmatch] in H. apply IHr in H. destruct H as (p1 & g1 & E1 & H1). cbn beta in H1.
    exists p1, ((n, taken p p1) :: g1); split; [constructor; exact E1 | exact H1].
  - cbn [rmatch] in H. exists p, g; split; [constructor|]. destruct (fst p) as [c|]; [|exact H].
    destruct (Ascii.eqb c NLc); [exact H | discriminate].
  - cbn [rmatch] in H. exists p, g; split; [constructor|]. destruct (snd p) as [|c s]; [exact H|].
    destruct (Ascii.eqb c NLc); [exact H | discriminate].
  - cbn [rmatch] in H. exists p, g; split; [constructor|]. destruct (fst p) as [c|]; [discriminate | exact H].
  - cbn [rmatch] in H. exists p, g; split; [constructor|]. destruct (snd p) as [|c s]; [exact H | discriminate].
  - cbn [rmatch] in H. exists p, g; split; [constructor|]. destruct (at_boundary p); [exact H | discriminate].
Qed.

(** What is eaten is a prefix. *)
Lemma eats_prefix : forall r s s', eats r s s' -> exists u, s = u ++ s'.
Proof.
  intros r s s' H; induction H; try (exists []; reflexivity).
  - exists [c]; reflexivity.
  - exists (firstn (snd (decode s)) s). symmetry; apply firstn_skipn.
  - destruct IHeats1 as [u ->], IHeats2 as [v ->]. exists (u ++ v). rewrite app_assoc; reflexivity.
  - exact IHeats.
  - exact IHeats.
  - destruct IHeats1 as [u ->], IHeats2 as [v ->]. exists (u ++ v). rewrite app_assoc; reflexivity.
  - exact IHeats.
Qed.

Lemma match_at_eats : forall r p q g, match_at r p = Some (q, g) -> eats r (snd p) (snd q).
Proof.
  intros r p q g H. apply rmatch_eats in H. destruct H as (p' & g' & E & H). inversion H; subst. exact E.
Qed.

(** ** Words that every match contains *)
Definition all_bytes : list ascii := map ascii_of_nat (seq 0 256).
Lemma all_bytes_ok : forall c, In c all_bytes.
Proof.
  intros c. apply in_map_iff. exists (nat_of_ascii c). split; [apply ascii_nat_embedding|].
  apply in_seq. pose proof (nat_ascii_bounded c). lia.
Qed.
Section Bytes.
Variable bytes : list ascii.
Hypothesis bytes_all : forall c, In c bytes.
Definition only (l : list ascii) : option ascii := match l with [c] => Some c | _ => None end.
Definition single (f : ascii -> bool) : option ascii := only (filter f bytes).
Lemma only_spec : forall l c d, only l = Some c -> In d l -> d = c.
Proof. intros [|x [|y l]] c d H I; try discriminate. destruct I as [->|[]]. cbn in H. congruence. Qed.
Lemma single_spec : forall f c d, single f = Some c -> f d = true -> d = c.
Proof. intros f c d H F. apply (only_spec _ _ _ H). apply filter_In; split; [apply bytes_all | exact F]. Qed.

(** acc: the literal text read so far. *)
Fixpoint needs (fuel : nat) (ws : list str) (acc : str) (l : list re) : bool :=
  match fuel with
  | O => false
  | S fuel =>
      if existsb (fun w => contains w acc) ws then true else
      match l with
      | [] => false
      | RNil :: l => needs fuel ws acc l
      | RByte f :: l => match single f with
                        | Some c => needs fuel ws (acc ++ [c]) l
                        | None => needs fuel ws [] l
                        end
      | RRune f :: l => needs fuel ws [] l
      | RSeq a b :: l => needs fuel ws acc (a :: b :: l)
      | RAlt a b :: l => if needs fuel ws acc (a :: l) then needs fuel ws acc (b :: l) else false
      | RStar _ _ :: l => needs fuel ws [] l
      | RGroup _ a :: l => needs fuel ws acc (a :: l)
      | _ :: l => needs fuel ws acc l
      end
  end.

Fixpoint eats_all (l : list re) (s s' : str) : Prop :=
  match l with
  | [] => s = s'
  | r :: l => exists s1, eats r s s1 /\ eats_all l s1 s'
  end.
Lemma eats_all_prefix : forall l s s', eats_all l s s' -> exists u, s = u ++ s'.
Proof.
  induction l as [|r l IH]; intros s s' H; [exists []; exact H|].
  destruct H as (s1 & H1 & H2). apply eats_prefix in H1. apply IH in H2. destruct H1 as [u ->], H2 as [v ->].
  exists (u ++ v). rewrite app_assoc; reflexivity.
Qed.

Lemma contains_mid : forall w a b c, contains w b = true -> contains w (a ++ b ++ c) = true.
Proof.
  intros w a b c H. apply contains_iff in H. destruct H as (x & y & ->). apply contains_iff.
  exists (a ++ x), (y ++ c). rewrite <- !app_assoc. reflexivity.
Qed.

Lemma needs_sound : forall fuel ws acc l, needs fuel ws acc l = true ->
  forall s s', eats_all l s s' -> exists u w, s = u ++ s' /\ In w ws /\ contains w (acc ++ u) = true.
Proof.
  induction fuel as [|fuel IH]; intros ws acc l H s s' E; [discriminate|].
  cbn [needs] in H. destruct (existsb (fun w => contains w acc) ws) eqn:X.
  { apply existsb_exists in X. destruct X as (w & W & C). destruct (eats_all_prefix _ _ _ E) as [u ->].
    exists u, w; repeat split; [exact W|]. exact (contains_mid w [] acc u C). }
  clear X. destruct l as [|r l]; [discriminate|].
  assert (DROP : forall r, needs fuel ws [] l = true -> eats_all (r :: l) s s' -> exists u w, s = u ++ s' /\ In w ws /\ contains w (acc ++ u) = true).
  { intros r0 H0 (s1 & E1 & E2). destruct (IH _ _ _ H0 _ _ E2) as (u & w & -> & W & C). apply eats_prefix in E1.
    destruct E1 as [v ->]. exists (v ++ u), w; repeat split; [rewrite app_assoc; reflexivity | exact W |].
    cbn [app] in C. rewrite app_assoc. rewrite <- (app_nil_r u), app_assoc, <- app_assoc. apply contains_mid; exact C. }
  destruct r.
  - destruct E as (s1 & E1 & E2). inversion E1; subst. exact (IH _ _ _ H _ _ E2).
  - destruct (single f) as [c|] eqn:F; [|exact (DROP _ H E)].
    destruct E as (s1 & E1 & E2). inversion E1; subst. rewrite (single_spec _ _ _ F H1) in *.
    destruct (IH _ _ _ H _ _ E2) as (u & w & -> & W & C). exists (c :: u), w; repeat split; [exact W|].
    rewrite <- app_assoc in C. exact C.
  - exact (DROP _ H E).
  - destruct E as (s1 & E1 & E2). inversion E1 as [| | |? ? ? sm ? EA EB| | | | | | | | | |]; subst. apply (IH _ _ _ H). exists sm; split; [exact EA|]. exists s1; split; [exact EB | exact E2].
  - destruct (needs fuel ws acc (r1 :: l)) eqn:A; [|discriminate]. destruct E as (s1 & E1 & E2). inversion E1; subst.
    + apply (IH _ _ _ A). exists s1; split; assumption.
    + apply (IH _ _ _ H). exists s1; split; assumption.
  - exact (DROP _ H E).
  - destruct E as (s1 & E1 & E2). inversion E1; subst. apply (IH _ _ _ H). exists s1; split; assumption.
  - destruct E as (s1 & E1 & E2). inversion E1; subst. exact (IH _ _ _ H _ _ E2).
  - destruct E as (s1 & E1 & E2). inversion E1; subst. exact (IH _ _ _ H _ _ E2).
  - destruct E as (s1 & E1 & E2). inversion E1; subst. exact (IH _ _ _ H _ _ E2).
  - destruct E as (s1 & E1 & E2). inversion E1; subst. exact (IH _ _ _ H _ _ E2).
  - destruct E as (s1 & E1 & E2). inversion E1; subst. exact (IH _ _ _ H _ _ E2).
Qed.

(** ** Automata of texts; the states are strings *)
Definition mem (q : str) (l : list str) : bool := existsb (str_eqb q) l.
Lemma mem_In : forall q l, mem q l = true <-> In q l.
Proof.
  intros q l. unfold mem. rewrite existsb_exists. split.
  - intros (x & I & E). apply str_eqb_eq in E. subst. exact I.
  - intros I. exists q; split; [exact I | apply str_eqb_eq; reflexivity].
Qed.
Definition add (q : str) (l : list str) : list str := if mem q l then l else q :: l.
Lemma add_In : forall q l x, In x (add q l) <-> x = q \/ In x l.
Proof.
  intros q l x. unfold add. destruct (mem q l) eqn:M.
  - apply mem_In in M. split; [tauto|]. intros [->|]; assumption.
  - cbn [In]. split; intros [?|?]; auto.
Qed.
Definition union (a b : list str) : list str := fold_right add b a.
Lemma union_In : forall a b x, In x (union a b) <-> In x a \/ In x b.
Proof.
  induction a as [|q a IH]; intros b x; [cbn; tauto|]. change (union (q :: a) b) with (add q (union a b)).
  rewrite add_In, IH. cbn [In]. split; intros H; intuition (subst; auto).
Qed.
Definition unions (l : list (list str)) : list str := fold_right union [] l.
Lemma unions_In : forall l x, In x (unions l) <-> exists a, In a l /\ In x a.
Proof.
  induction l as [|q l IH]; intros x.
  - cbn. split; [tauto | intros (a & [] & _)].
  - change (unions (q :: l)) with (union q (unions l)). rewrite union_In, IH. split.
    + intros [H|(a & A & X)]; [exists q; split; [left; reflexivity | exact H] | exists a; split; [right; exact A | exact X]].
    + intros (a & [->|A] & X); [left; exact X | right; exists a; split; assumption].
Qed.

Definition low (c : ascii) : bool := N.ltb (N_of_ascii c) 128.

(** May the class hold a character beyond ASCII? *)
Fixpoint may_high (c : rclass) : bool :=
  match c with
  | CRange _ hi => N.leb 128 hi
  | CTest _ => true
  | COr a b => may_high a || may_high b
  | CNot _ => true
  end.
Lemma may_high_false : forall c n, may_high c = false -> in_class c n = true -> (n < 128)%N.
Proof.
  induction c; intros n H I; cbn [may_high in_class] in *; try discriminate; [lia|].
  apply orb_false_iff in H. destruct H. apply orb_true_iff in I. destruct I; auto.
Qed.

Section Automaton.
Variable delta : str -> ascii -> list str.

(** The text can be read from the state. *)
Fixpoint fits (q : str) (s : str) : Prop :=
  match s with
  | [] => True
  | c :: s => exists q', In q' (delta q c) /\ fits q' s
  end.

(** *** The automaton as a table: the states are numbered, a set of states is a
    number whose bit i stands for the state i, and the bytes on which all the
    states behave alike make up one class.  The table is computed once. *)
Definition delta_row (q : str) : list (list str) := map (delta q) bytes.
Fixpoint grow_states (fuel : nat) (todo : list str) (rows : list (str * list (list str))) : list (str * list (list str)) :=
  match fuel, todo with
  | S n, q :: todo =>
      if existsb (fun x => str_eqb (fst x) q) rows then grow_states n todo rows
      else let row := delta_row q in grow_states n (todo ++ unions row) (rows ++ [(q, row)])
  | _, _ => rows
  end.
Lemma grow_rows : forall fuel todo rows, Forall (fun x => snd x = delta_row (fst x)) rows ->
  Forall (fun x => snd x = delta_row (fst x)) (grow_states fuel todo rows).
Proof.
  induction fuel as [|n IH]; intros todo rows H; [exact H|]. destruct todo as [|q todo]; [exact H|]. cbn [grow_states].
  destruct (existsb _ rows); [apply IH; exact H|]. apply IH. apply Forall_app; split; [exact H | constructor; [reflexivity | constructor]].
Qed.
Fixpoint state_bit (q : str) (l : list str) : option positive :=
  match l with
  | [] => None
  | x :: l => if str_eqb x q then Some xH else match state_bit q l with Some p => Some (xO p) | None => None end
  end.
Definition bit_of (m : N) (i : nat) : bool := N.testbit_nat m i.
Lemma index_ok : forall q l p, state_bit q l = Some p -> exists i, nth_error l i = Some q /\ bit_of (Npos p) i = true.
Proof.
  induction l as [|x l IH]; intros p H; [discriminate|]. cbn [state_bit] in H. destruct (str_eqb x q) eqn:E.
  - apply str_eqb_eq in E. subst. inversion H; subst. exists O; split; reflexivity.
  - destruct (state_bit q l) as [p'|]; [|discriminate]. inversion H; subst. destruct (IH _ eq_refl) as (i & A & B). exists (S i); split; [exact A | exact B].
Qed.
Lemma bit_lor : forall a b i, bit_of (N.lor a b) i = bit_of a i || bit_of b i.
Proof. intros a b i. unfold bit_of. rewrite <- !Ntestbit_Nbit. apply N.lor_spec. Qed.
Lemma bit_0 : forall i, bit_of 0 i = false.
Proof. reflexivity. Qed.
Fixpoint state_mask (l : list str) (ts : list str) : option N :=
  match ts with
  | [] => Some 0%N
  | t :: ts => match state_bit t l, state_mask l ts with Some p, Some m => Some (N.lor (Npos p) m) | _, _ => None end
  end.
Lemma mask_ok : forall l ts m t, state_mask l ts = Some m -> In t ts -> exists i, nth_error l i = Some t /\ bit_of m i = true.
Proof.
  induction ts as [|x ts IH]; intros m t H I; [destruct I|]. cbn [state_mask] in H.
  destruct (state_bit x l) as [p|] eqn:X; [|discriminate]. destruct (state_mask l ts) as [m'|]; [|discriminate]. assert (m = N.lor (Npos p) m') by congruence. subst m. destruct I as [->|I].
  - destruct (index_ok _ _ _ X) as (i & A & B). exists i; split; [exact A | rewrite bit_lor, B; reflexivity].
  - destruct (IH _ _ eq_refl I) as (i & A & B). exists i; split; [exact A | rewrite bit_lor, B; apply orb_true_r].
Qed.
Fixpoint all_defined {A B : Type} (f : A -> option B) (l : list A) : option (list B) :=
  match l with
  | [] => Some []
  | x :: l => match f x, all_defined f l with Some y, Some l => Some (y :: l) | _, _ => None end
  end.
Lemma all_some_ok : forall (A B : Type) (f : A -> option B) l l', all_defined f l = Some l' -> Forall2 (fun x y => f x = Some y) l l'.
Proof.
  induction l as [|x l IH]; intros l' H; cbn [all_defined] in H; [inversion H; constructor|].
  destruct (f x) eqn:X; [|discriminate]. destruct (all_defined f l); [|discriminate]. inversion H; subst. constructor; [exact X | apply IH; reflexivity].
Qed.
Fixpoint same_column (a b : list N) : bool :=
  match a, b with
  | [], [] => true
  | x :: a, y :: b => N.eqb x y && same_column a b
  | _, _ => false
  end.
Lemma same_eq : forall a b, same_column a b = true -> a = b.
Proof.
  induction a as [|x a IH]; intros [|y b] H; cbn [same_column] in H; try discriminate; [reflexivity|].
  apply andb_true_iff in H. destruct H as [H1 H2]. apply N.eqb_eq in H1. subst. f_equal. apply IH; exact H2.
Qed.
Definition byte_table : Type := list (list ascii * list N).
Fixpoint insert_byte (c : ascii) (col : list N) (k : byte_table) : byte_table :=
  match k with
  | [] => [([c], col)]
  | (cs, col') :: k => if same_column col col' then (c :: cs, col') :: k else (cs, col') :: insert_byte c col k
  end.
Lemma insert_new : forall c col k, exists cs, In (cs, col) (insert_byte c col k) /\ In c cs.
Proof.
  induction k as [|(cs, col') k (cs0 & A & B)]; cbn [insert_byte]; [exists [c]; split; left; reflexivity|].
  destruct (same_column col col') eqn:E.
  - apply same_eq in E. subst. exists (c :: cs); split; left; reflexivity.
  - exists cs0; split; [right; exact A | exact B].
Qed.
Lemma insert_old : forall c col k c' cs col', In (cs, col') k -> In c' cs -> exists cs', In (cs', col') (insert_byte c col k) /\ In c' cs'.
Proof.
  induction k as [|(cs1, col1) k IH]; intros c' cs col' I C; [destruct I|]. cbn [insert_byte]. destruct (same_column col col1).
  - destruct I as [E|I]; [inversion E; subst; exists (c :: cs); split; [left; reflexivity | right; exact C]|].
    exists cs; split; [right; exact I | exact C].
  - destruct I as [E|I]; [inversion E; subst; exists cs; split; [left; reflexivity | exact C]|].
    destruct (IH _ _ _ I C) as (cs' & A & B). exists cs'; split; [right; exact A | exact B].
Qed.
Fixpoint byte_classes (bs : list ascii) (rows : list (list N)) : byte_table :=
  match bs with
  | [] => []
  | c :: bs => insert_byte c (map (hd 0%N) rows) (byte_classes bs (map (@tl N) rows))
  end.
Definition is_column (names : list str) (c : ascii) (col : list N) : Prop :=
  forall i q, nth_error names i = Some q -> exists m, nth_error col i = Some m /\ state_mask names (delta q c) = Some m.
Lemma byte_classes_ok : forall names bs rows,
  (forall i q, nth_error names i = Some q -> exists row, nth_error rows i = Some row /\ Forall2 (fun c m => state_mask names (delta q c) = Some m) bs row) ->
  forall c, In c bs -> exists cs col, In (cs, col) (byte_classes bs rows) /\ In c cs /\ is_column names c col.
Proof.
  induction bs as [|b bs IH]; intros rows H c I; [destruct I|]. cbn [byte_classes].
  assert (N1 : is_column names b (map (hd 0%N) rows)).
  { intros i q Q. destruct (H i q Q) as (row & R & F). inversion F; subst. eexists; split; [exact (map_nth_error _ _ _ R) | assumption]. }
  assert (N2 : forall i q, nth_error names i = Some q -> exists row, nth_error (map (@tl N) rows) i = Some row /\ Forall2 (fun c m => state_mask names (delta q c) = Some m) bs row).
  { intros i q Q. destruct (H i q Q) as (row & R & F). inversion F; subst. eexists; split; [exact (map_nth_error _ _ _ R) | assumption]. }
  destruct I as [->|I].
  - destruct (insert_new c (map (hd 0%N) rows) (byte_classes bs (map (@tl N) rows))) as (cs & A & B). exists cs, (map (hd 0%N) rows). auto.
  - destruct (IH _ N2 c I) as (cs & col & A & B & C). destruct (insert_old b (map (hd 0%N) rows) _ _ _ _ A B) as (cs' & A' & B'). exists cs', col. auto.
Qed.

(** The states a set moves to along one column. *)
Fixpoint along_column (p : positive) (col : list N) : N :=
  match col with
  | [] => 0%N
  | x :: col => match p with xH => x | xO p => along_column p col | xI p => N.lor x (along_column p col) end
  end.
Definition moves_of (m : N) (col : list N) : N := match m with N0 => 0%N | Npos p => along_column p col end.
Lemma moves_ok : forall m col i x j, bit_of m i = true -> nth_error col i = Some x -> bit_of x j = true -> bit_of (moves_of m col) j = true.
Proof.
  intros [|p] col i x j B C X; [discriminate|]. cbn [moves_of]. unfold bit_of in B. cbn [N.testbit_nat] in B.
  revert col i B C. induction p as [p IH|p IH|]; intros col i B C.
  - destruct col as [|y col]; [destruct i; discriminate|]. cbn [along_column]. rewrite bit_lor. destruct i as [|i].
    + inversion C; subst. rewrite X. reflexivity.
    + rewrite (IH col i B C). apply orb_true_r.
  - destruct col as [|y col]; [destruct i; discriminate|]. cbn [along_column]. destruct i as [|i]; [discriminate|]. exact (IH col i B C).
  - destruct col as [|y col]; [destruct i; discriminate|]. cbn [along_column]. destruct i as [|i]; [inversion C; subst; exact X | discriminate].
Qed.

Lemma decode_low : forall c s, low c = true -> decode (c :: s) = (N_of_ascii c, 1).
Proof. intros c s H. unfold low in H. unfold decode. rewrite H. reflexivity. Qed.
(** A character beyond ASCII has up to four bytes, none of them ASCII. *)
Lemma decode_high : forall c s, low c = false ->
  exists u, c :: s = u ++ skipn (snd (decode (c :: s))) (c :: s) /\ (1 <= length u <= 4)%nat /\ forall x, In x u -> low x = false.
Proof.
  intros c s H. exists (firstn (snd (decode (c :: s))) (c :: s)). split; [symmetry; apply firstn_skipn|].
  assert (ONE : (1 <= length (firstn 1 (c :: s)) <= 4)%nat /\ forall x, In x (firstn 1 (c :: s)) -> low x = false)
    by (cbn; split; [lia | intros x [<-|[]]; exact H]).
  unfold low in *. unfold decode. rewrite H.
  destruct ((194 <=? N_of_ascii c) && (N_of_ascii c <=? 223))%N.
  { destruct s as [|b s]; [exact ONE|]. destruct (within 128 191 b) eqn:B; [|exact ONE].
    unfold within in B. cbn. split; [lia|]. intros x [<-|[<-|[]]]; [exact H | lia]. }
  destruct ((224 <=? N_of_ascii c) && (N_of_ascii c <=? 239))%N.
  { destruct s as [|b [|d s]]; [exact ONE | exact ONE |].
    destruct (within (if (N_of_ascii c =? 224)%N then 160 else 128) (if (N_of_ascii c =? 237)%N then 159 else 191) b && within 128 191 d) eqn:B; [|exact ONE].
    unfold within in B. cbn. split; [lia|]. intros x [<-|[<-|[<-|[]]]]; [exact H | |]; destruct (N_of_ascii c =? 224)%N, (N_of_ascii c =? 237)%N; lia. }
  destruct ((240 <=? N_of_ascii c) && (N_of_ascii c <=? 244))%N; [|exact ONE].
  destruct s as [|b [|d [|e s]]]; try exact ONE.
  destruct (within (if (N_of_ascii c =? 240)%N then 144 else 128) (if (N_of_ascii c =? 244)%N then 143 else 191) b && within 128 191 d && within 128 191 e) eqn:B; [|exact ONE].
  unfold within in B. cbn. split; [lia|]. intros x [<-|[<-|[<-|[<-|[]]]]]; [exact H | | |]; destruct (N_of_ascii c =? 240)%N, (N_of_ascii c =? 244)%N; lia.
Qed.

Lemma decode_high_rune : forall c s, low c = false -> (128 <= fst (decode (c :: s)))%N.
Proof.
  intros c s H. unfold low in H. unfold decode. rewrite H.
  destruct ((194 <=? N_of_ascii c) && (N_of_ascii c <=? 223))%N eqn:A.
  { destruct s as [|b s]; [cbn; unfold rune_error; lia|]. destruct (within 128 191 b) eqn:B; [|cbn; unfold rune_error; lia].
    unfold within in B. cbn [fst]. lia. }
  destruct ((224 <=? N_of_ascii c) && (N_of_ascii c <=? 239))%N eqn:A2.
  { destruct s as [|b [|d s]]; try (cbn; unfold rune_error; lia).
    destruct (within (if (N_of_ascii c =? 224)%N then 160 else 128) (if (N_of_ascii c =? 237)%N then 159 else 191) b && within 128 191 d) eqn:B; [|cbn; unfold rune_error; lia].
    unfold within in B. cbn [fst]. destruct (N_of_ascii c =? 224)%N eqn:X; lia. }
  destruct ((240 <=? N_of_ascii c) && (N_of_ascii c <=? 244))%N eqn:A3; [|cbn; unfold rune_error; lia].
  destruct s as [|b [|d [|e s]]]; try (cbn; unfold rune_error; lia).
  destruct (within (if (N_of_ascii c =? 240)%N then 144 else 128) (if (N_of_ascii c =? 244)%N then 143 else 191) b && within 128 191 d && within 128 191 e) eqn:B; [|cbn; unfold rune_error; lia].
  unfold within in B. cbn [fst]. destruct (N_of_ascii c =? 240)%N eqn:X; lia.
Qed.

Section Table.
Variable names : list str.
Variable k : byte_table.
Hypothesis k_ok : forall c, exists cs col, In (cs, col) k /\ In c cs /\ is_column names c col.
Definition has_state (m : N) (q : str) : Prop := exists i, nth_error names i = Some q /\ bit_of m i = true.
Lemma has_or : forall a b q, has_state a q \/ has_state b q -> has_state (N.lor a b) q.
Proof.
  intros a b q [(i & A & B)|(i & A & B)]; exists i; (split; [exact A|]); rewrite bit_lor, B; [reflexivity | apply orb_true_r].
Qed.
Lemma has_0 : forall q, ~ has_state 0%N q.
Proof. intros q (i & _ & B). discriminate. Qed.
Lemma has_sub : forall a b q, N.eqb (N.lor a b) b = true -> has_state a q -> has_state b q.
Proof. intros a b q E H. apply N.eqb_eq in E. rewrite <- E. apply has_or. left; exact H. Qed.
Lemma column_has : forall c col m q q', is_column names c col -> has_state m q -> In q' (delta q c) -> has_state (moves_of m col) q'.
Proof.
  intros c col m q q' C (i & A & B) D. destruct (C i q A) as (x & X & M). destruct (mask_ok _ _ _ _ M D) as (j & J & Y).
  exists j; split; [exact J | exact (moves_ok _ _ _ _ _ B X Y)].
Qed.
Definition step (f : ascii -> bool) (m : N) : N :=
  match m with
  | N0 => 0%N
  | _ => fold_right (fun x acc => let y := N.lor (moves_of m (snd x)) acc in
           if N.eqb y acc then acc else if existsb f (fst x) then y else acc) 0%N k
  end.
Lemma step_has : forall f m q c q', has_state m q -> f c = true -> In q' (delta q c) -> has_state (step f m) q'.
Proof.
  intros f m q c q' Q F D. destruct m as [|p]; [destruct (has_0 _ Q)|]. unfold step. set (m := Npos p) in *.
  destruct (k_ok c) as (cs & col & I & C & K). clear k_ok. induction k as [|(cs1, col1) k' IH]; [destruct I|].
  cbn [fold_right fst snd]. cbv zeta. destruct I as [E|I].
  - inversion E; subst. pose proof (column_has _ _ _ _ _ K Q D) as H. destruct (N.eqb _ _) eqn:Z; [exact (has_sub _ _ _ Z H)|].
    replace (existsb f cs) with true by (symmetry; apply existsb_exists; exists c; split; assumption).
    apply has_or. left; exact H.
  - specialize (IH I). destruct (N.eqb _ _); [exact IH|]. destruct (existsb f cs1); [apply has_or; right; exact IH | exact IH].
Qed.
(** The columns of the bytes beyond ASCII. *)
Definition high_columns : list (list N) := map snd (filter (fun x => existsb (fun c => negb (low c)) (fst x)) k).
Variable hs : list (list N).
Hypothesis hs_ok : hs = high_columns.
Definition high (m : N) : N := fold_right (fun col acc => N.lor (moves_of m col) acc) 0%N hs.
Lemma high_has : forall m q c q', has_state m q -> low c = false -> In q' (delta q c) -> has_state (high m) q'.
Proof.
  intros m q c q' Q L D. destruct (k_ok c) as (cs & col & I & C & K).
  assert (J : In col hs).
  { rewrite hs_ok. unfold high_columns. apply in_map_iff. exists (cs, col). split; [reflexivity|]. apply filter_In. split; [exact I|].
    cbn [fst]. apply existsb_exists. exists c; split; [exact C | rewrite L; reflexivity]. }
  pose proof (column_has _ _ _ _ _ K Q D) as H. unfold high. clear hs_ok. induction hs as [|col1 hs' IH]; [destruct J|].
  cbn [fold_right]. apply has_or. destruct J as [->|J]; [left; exact H | right; exact (IH J)].
Qed.
Fixpoint star (n : nat) (m : N -> option N) (qs : N) : option N :=
  match m qs with
  | None => None
  | Some ys => let zs := N.lor ys qs in if N.eqb zs qs then Some qs
               else match n with O => None | S n => star n m zs end
  end.
(** The states after a match. *)
Fixpoint reach (r : re) (qs : N) : option N :=
  match r with
  | RByte f => Some (step f qs)
  | RRune f =>
      let lows := step (fun c => low c && in_class f (N_of_ascii c)) qs in
      if may_high f then
        let h1 := high qs in let h2 := high h1 in let h3 := high h2 in let h4 := high h3 in
        Some (N.lor lows (N.lor h1 (N.lor h2 (N.lor h3 h4))))
      else Some lows
  | RSeq a b => match reach a qs with Some N0 => Some 0%N | Some qs => reach b qs | None => None end
  | RAlt a b => match reach a qs, reach b qs with Some x, Some y => Some (N.lor x y) | _, _ => None end
  | RStar _ a => star 30 (reach a) qs
  | RGroup _ a => reach a qs
  | _ => Some qs
  end.

Definition sound (m : N -> option N) (E : str -> str -> Prop) : Prop :=
  forall qs qs' q s s', m qs = Some qs' -> has_state qs q -> fits q s -> E s s' -> exists q', has_state qs' q' /\ fits q' s'.

Lemma star_sound : forall g a n m, sound m (eats a) -> sound (star n m) (eats (RStar g a)).
Proof.
  intros g a n m M. assert (END : forall qs ys q s s', m qs = Some ys -> N.eqb (N.lor ys qs) qs = true -> has_state qs q -> fits q s ->
    eats (RStar g a) s s' -> exists q', has_state qs q' /\ fits q' s').
  { intros qs ys q s s' Y A Q F E. remember (RStar g a) as r eqn:R. revert q Q F. induction E; try discriminate; intros q Q F.
    + exists q; split; assumption.
    + inversion R; subst. destruct (M _ _ _ _ _ Y Q F E1) as (q1 & Q1 & F1).
      apply (IHE2 eq_refl q1); [|exact F1]. exact (has_sub _ _ _ A Q1). }
  induction n as [|n IH]; intros qs qs' q s s' H Q F E.
  - cbn [star] in H. destruct (m qs) as [ys|] eqn:Y; [|discriminate]. cbv zeta in H. destruct (N.eqb _ _) eqn:A; [|discriminate].
    assert (qs' = qs) by congruence; subst qs'. exact (END _ _ _ _ _ Y A Q F E).
  - cbn [star] in H. destruct (m qs) as [ys|] eqn:Y; [|discriminate]. cbv zeta in H. destruct (N.eqb _ _) eqn:A.
    + assert (qs' = qs) by congruence; subst qs'. exact (END _ _ _ _ _ Y A Q F E).
    + exact (IH (N.lor ys qs) qs' q s s' H (has_or _ _ _ (or_intror Q)) F E).
Qed.

Lemma high_step : forall qs q c s, has_state qs q -> low c = false -> fits q (c :: s) -> exists q', has_state (high qs) q' /\ fits q' s.
Proof.
  intros qs q c s Q C (q' & D & F). exists q'; split; [|exact F]. exact (high_has _ _ _ _ Q C D).
Qed.

Lemma reach_sound : forall r, sound (reach r) (eats r).
Proof.
  induction r; intros qs qs' q s s' H Q F E; cbn [reach] in H.
  - inversion E; subst. inversion H; subst. exists q; split; assumption.
  - inversion E; subst. inversion H; subst. destruct F as (q' & D & F). exists q'; split; [|exact F].
    apply (step_has _ _ q c); assumption.
  - rename c into f. inversion E; subst. destruct s as [|c s]; [congruence|].
    destruct (may_high f) eqn:MH.
    2: { inversion H; subst. assert (C : low c = true).
         { destruct (low c) eqn:C; [reflexivity | exfalso]. apply (decode_high_rune c s) in C. pose proof (may_high_false f _ MH ltac:(eassumption)). lia. }
         rewrite (decode_low c s C) in *. cbn [fst snd skipn] in *. destruct F as (q' & D & F). exists q'; split; [|exact F].
         apply (step_has _ _ q c); [exact Q | rewrite C; assumption | exact D]. }
    inversion H; subst. clear H E.
    destruct (low c) eqn:C.
    + rewrite (decode_low c s C) in *. cbn [fst snd skipn] in *. destruct F as (q' & D & F). exists q'; split; [|exact F].
      apply has_or; left. apply (step_has _ _ q c); [exact Q | rewrite C; assumption | exact D].
    + destruct (decode_high c s C) as (u & U & L & A). rewrite U in F. revert F. generalize (skipn (snd (decode (c :: s))) (c :: s)).
      intros t F. destruct u as [|x1 u]; [cbn in L; lia|].
      destruct (high_step _ _ _ _ Q (A x1 (or_introl eq_refl)) F) as (q1 & Q1 & F1).
      destruct u as [|x2 u]; [exists q1; split; [repeat (apply has_or; (left; assumption) || right); assumption | exact F1]|].
      destruct (high_step _ _ _ _ Q1 (A x2 (or_intror (or_introl eq_refl))) F1) as (q2 & Q2 & F2).
      destruct u as [|x3 u]; [exists q2; split; [repeat (apply has_or; (left; assumption) || right); assumption | exact F2]|].
      destruct (high_step _ _ _ _ Q2 (A x3 (or_intror (or_intror (or_introl eq_refl)))) F2) as (q3 & Q3 & F3).
      destruct u as [|x4 u]; [exists q3; split; [repeat (apply has_or; (left; assumption) || right); assumption | exact F3]|].
      destruct (high_step _ _ _ _ Q3 (A x4 (or_intror (or_intror (or_intror (or_introl eq_refl))))) F3) as (q4 & Q4 & F4).
      destruct u as [|x5 u]; [exists q4; split; [repeat (apply has_or; (left; assumption) || right); assumption | exact F4]|]. cbn in L; lia.
  - destruct (reach r1 qs) as [qs1|] eqn:R1; [|discriminate]. inversion E; subst.
    match goal with X : eats r1 s ?m, Y : eats r2 ?m s' |- _ =>
      destruct (IHr1 _ _ _ _ _ R1 Q F X) as (q1 & Q1 & F1);
      destruct qs1 as [|p]; [destruct (has_0 _ Q1)|]; exact (IHr2 _ _ _ _ _ H Q1 F1 Y) end.
  - destruct (reach r1 qs) as [x|] eqn:R1; [|discriminate]. destruct (reach r2 qs) as [y|] eqn:R2; [|discriminate].
    inversion H; subst. inversion E; subst.
    + match goal with X : eats r1 s s' |- _ => destruct (IHr1 _ _ _ _ _ R1 Q F X) as (q1 & Q1 & F1) end. exists q1; split; [apply has_or; left; exact Q1 | exact F1].
    + match goal with X : eats r2 s s' |- _ => destruct (IHr2 _ _ _ _ _ R2 Q F X) as (q1 & Q1 & F1) end. exists q1; split; [apply has_or; right; exact Q1 | exact F1].
  - exact (star_sound greedy r 30 (reach r) IHr _ _ _ _ _ H Q F E).
  - inversion E; subst. match goal with X : eats r s s' |- _ => exact (IHr _ _ _ _ _ H Q F X) end.
  - inversion E; subst. inversion H; subst. exists q; split; assumption.
  - inversion E; subst. inversion H; subst. exists q; split; assumption.
  - inversion E; subst. inversion H; subst. exists q; split; assumption.
  - inversion E; subst. inversion H; subst. exists q; split; assumption.
  - inversion E; subst. inversion H; subst. exists q; split; assumption.
Qed.

End Table.

Definition build_table (rounds : nat) (qs : list str) : option (byte_table * list (list N) * N) :=
  let rows := grow_states rounds qs [] in
  let names := map fst rows in
  match all_defined (fun row => all_defined (state_mask names) (snd row)) rows, state_mask names qs with
  | Some ms, Some start => let k := byte_classes bytes ms in Some (k, high_columns k, start)
  | _, _ => None
  end.
Lemma build_ok : forall rounds qs k hs start, build_table rounds qs = Some (k, hs, start) ->
  exists names, (forall c, exists cs col, In (cs, col) k /\ In c cs /\ is_column names c col) /\ hs = high_columns k /\ forall q, In q qs -> has_state names start q.
Proof.
  intros rounds qs k hs start H. unfold build_table in H. cbv zeta in H. assert (G0 : Forall (fun x => snd x = delta_row (fst x)) (grow_states rounds qs [])) by (apply grow_rows; constructor).
  revert G0 H. generalize (grow_states rounds qs []). intros rows G0 H.
  destruct (all_defined _ rows) as [ms|] eqn:M; [|discriminate]. destruct (state_mask (map fst rows) qs) as [start'|] eqn:ST; [|discriminate].
  inversion H; subst. clear H. exists (map fst rows). split; [|split; [reflexivity|]].
  - intros c. apply byte_classes_ok; [|apply bytes_all]. apply all_some_ok in M. revert G0 M. generalize (map fst rows) at 1 3.
    clear ST. intros names G0 M. induction M as [|(q0, row0) m0 rows ms E M IH]; intros i q Q; [destruct i; discriminate|].
    pose proof (Forall_inv G0) as G1. pose proof (Forall_inv_tail G0) as G2. destruct i as [|i]; [|cbn [map nth_error] in Q; exact (IH G2 i q Q)].
    cbn [map nth_error fst snd] in *. inversion Q; subst. exists m0; split; [reflexivity|]. apply all_some_ok in E.
    unfold delta_row in E. revert E. generalize bytes as bs. intros bs. revert m0. induction bs as [|b bs IHb]; intros m0 E; inversion E; subst; constructor; auto.
  - intros q Q. destruct (mask_ok _ _ _ _ ST Q) as (i & A & B). exists i; split; assumption.
Qed.

(** An expression that reaches no state does not match. *)
Definition dead_with (rounds : nat) (qs : list str) : re -> bool :=
  match build_table rounds qs with
  | Some (k, hs, start) => fun r => match reach k hs r start with Some N0 => true | _ => false end
  | None => fun _ => false
  end.
Lemma dead_with_sound : forall rounds qs r q s s', dead_with rounds qs r = true -> In q qs -> fits q s -> ~ eats r s s'.
Proof.
  intros rounds qs r q s s' H Q F E. unfold dead_with in H. destruct (build_table rounds qs) as [[[k hs] start]|] eqn:B; [|discriminate].
  destruct (build_ok _ _ _ _ _ B) as (names & K & HS & ST).
  destruct (reach k hs r start) as [[|?]|] eqn:R; try discriminate.
  destruct (reach_sound names k K hs HS r _ _ _ _ _ R (ST q Q) F E) as (q' & Q' & _). exact (has_0 _ _ Q').
Qed.
Definition dead : list str -> re -> bool := dead_with 3000.
Lemma dead_sound : forall qs r q s s', dead qs r = true -> In q qs -> fits q s -> ~ eats r s s'.
Proof. exact (dead_with_sound 3000). Qed.
End Automaton.
End Bytes.

(** ** Replacing *)
Lemma search_none : forall n r p, (forall u t, snd p = u ++ t -> forall t', ~ eats r t t') -> search n r p = None.
Proof.
  induction n as [|n IH]; intros r [pv s0] H; cbn [snd] in H; set (p := (pv, s0)).
  - cbn [search]. destruct (match_at r p) as [[q g]|] eqn:M; [|reflexivity].
    apply match_at_eats in M. destruct (H [] (snd p) eq_refl _ M).
  - cbn [search]. destruct (match_at r p) as [[q g]|] eqn:M.
    { apply match_at_eats in M. destruct (H [] (snd p) eq_refl _ M). }
    subst p. cbn [snd]. destruct s0 as [|c s]; [reflexivity|].
    rewrite IH; [reflexivity|]. intros u t T t'. cbn [snd] in T. apply (H (firstn (snd (decode (c :: s))) (c :: s) ++ u)).
    rewrite <- app_assoc. cbn [snd] in T. rewrite <- T. symmetry; apply firstn_skipn.
Qed.
Lemma replace_none : forall n r f a p, (forall u t, snd p = u ++ t -> forall t', ~ eats r t t') -> replace_matches n r f a p = snd p.
Proof.
  intros [|n] r f a p H; [reflexivity|]. cbn [replace_matches]. rewrite search_none; [reflexivity | exact H].
Qed.

Lemma last_byte_app : forall a b, b <> [] -> last_byte (a ++ b) = last_byte b.
Proof.
  intros a b H. unfold last_byte. rewrite rev_app_distr. destruct (rev b) as [|x l] eqn:E; [|reflexivity].
  apply (f_equal (@rev _)) in E. rewrite rev_involutive in E. cbn in E. contradiction.
Qed.
(** The byte before a place after reading u. *)
Definition after_text (prev : option ascii) (u : str) : option ascii := match u with [] => prev | _ => last_byte u end.
Definition starts_low (s : str) : Prop := match s with [] => True | c :: _ => low c = true end.

Lemma low_cont : forall c, low c = true -> cont_byte c = false.
Proof. intros c H. unfold low in H. unfold cont_byte, within. lia. Qed.

Lemma firstn_app_le : forall A n (a b : list A), (n <= length a)%nat -> firstn n (a ++ b) = firstn n a.
Proof. intros A n a b H. rewrite firstn_app. replace (n - length a) with 0 by lia. cbn [firstn]. apply app_nil_r. Qed.
Lemma skipn_app_le : forall A n (a b : list A), (n <= length a)%nat -> skipn n (a ++ b) = skipn n a ++ b.
Proof. intros A n a b H. rewrite skipn_app. replace (n - length a) with 0 by lia. reflexivity. Qed.
Lemma firstn_app_exact : forall A (a b : list A), firstn (length a) (a ++ b) = a.
Proof. intros A a b. rewrite firstn_app_le by lia. apply firstn_all. Qed.

Lemma search_here : forall n r p q g, match_at r p = Some (q, g) -> search n r p = Some ([], p, q, g).
Proof. intros n r p q g M. destruct n; cbn [search]; rewrite M; reflexivity. Qed.
(** The first match is after the text u. *)
Lemma search_skip : forall n r u s prev q g, (length u <= n)%nat -> starts_low s ->
  (forall v w, u = v ++ w -> w <> [] -> forall t', ~ eats r (w ++ s) t') ->
  match_at r (after_text prev u, s) = Some (q, g) ->
  search n r (prev, u ++ s) = Some (u, (after_text prev u, s), q, g).
Proof.
  induction n as [|n IH]; intros r u s prev q g L B H M.
  - destruct u; [|cbn in L; lia]. exact (search_here _ _ _ _ _ M).
  - destruct u as [|c u]; [exact (search_here _ _ _ _ _ M)|].
    cbn [search]. destruct (match_at r (prev, (c :: u) ++ s)) as [[q0 g0]|] eqn:M0.
    { apply match_at_eats in M0. destruct (H [] (c :: u) eq_refl ltac:(discriminate) _ M0). }
    cbn [snd]. change ((c :: u) ++ s) with (c :: (u ++ s)).
    assert (D : decode (c :: u ++ s) = decode (c :: u)).
    { destruct s as [|x s]; [rewrite app_nil_r; reflexivity|]. apply (decode_cut (c :: u) x s); [discriminate | apply low_cont; exact B]. }
    rewrite D. pose proof (decode_width (c :: u) ltac:(discriminate)) as W. set (w := snd (decode (c :: u))) in *.
    replace (firstn w (c :: u ++ s)) with (firstn w (c :: u)) by (symmetry; apply (firstn_app_le _ w (c :: u) s); lia).
    replace (skipn w (c :: u ++ s)) with (skipn w (c :: u) ++ s) by (symmetry; apply (skipn_app_le _ w (c :: u) s); lia).
    assert (AT : after_text (last_byte (firstn w (c :: u))) (skipn w (c :: u)) = after_text prev (c :: u)).
    { unfold after_text at 2. rewrite <- (firstn_skipn w (c :: u)) at 3. destruct (skipn w (c :: u)) as [|x l] eqn:K.
      - rewrite app_nil_r. reflexivity.
      - rewrite last_byte_app; [reflexivity | discriminate]. }
    rewrite (IH r (skipn w (c :: u)) s (last_byte (firstn w (c :: u))) q g).
    + rewrite AT. rewrite firstn_skipn. reflexivity.
    + rewrite skipn_length. cbn [length] in *. lia.
    + exact B.
    + intros v x V X. apply (H (firstn w (c :: u) ++ v) x); [|exact X]. rewrite <- app_assoc, <- V. symmetry; apply firstn_skipn.
    + rewrite AT. exact M.
Qed.
Lemma replace_found : forall n r f a (p : place) (u : str) (x q : place) g, search (length (snd p)) r p = Some (u, x, q, g) -> taken x q <> [] ->
  replace_matches (S n) r f a p = u ++ f (taken x q) g ++ replace_matches n r f true q.
Proof.
  intros n r f a p u x q g H T. cbn [replace_matches]. rewrite H.
  destruct (taken x q) as [|c m]; [congruence | reflexivity].
Qed.
Lemma replace_skip : forall n r f a u m s prev pv g, m <> [] -> starts_low m ->
  (forall v w, u = v ++ w -> w <> [] -> forall t', ~ eats r (w ++ m ++ s) t') ->
  match_at r (after_text prev u, m ++ s) = Some ((pv, s), g) ->
  replace_matches (S n) r f a (prev, u ++ m ++ s) = u ++ f m g ++ replace_matches n r f true (pv, s).
Proof.
  intros n r f a u m s prev pv g NE B H M.
  assert (T : taken (after_text prev u, m ++ s) (pv, s) = m).
  { unfold taken. cbn [snd]. rewrite app_length. replace (length m + length s - length s) with (length m) by lia. apply firstn_app_exact. }
  assert (S : search (length (snd (prev, u ++ m ++ s))) r (prev, u ++ m ++ s) = Some (u, (after_text prev u, m ++ s), (pv, s), g)).
  { apply search_skip; [cbn [snd]; rewrite app_length; lia | destruct m; [congruence | exact B] | exact H | exact M]. }
  rewrite (replace_found n r f a _ _ _ _ _ S); [|intros X; apply NE; rewrite <- X; symmetry; exact T].
  apply (f_equal (fun z => u ++ f z g ++ replace_matches n r f true (pv, s))). exact T.
Qed.
