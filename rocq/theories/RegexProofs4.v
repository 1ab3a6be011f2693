(** Expressions: what is written is what is read. *)
From Coq Require Import String Ascii List ZArith NArith Bool Lia ZifyBool ZifyN.
From Verif Require Import GoStr GoStrFacts Utf8 Utf8Facts ReModel ReSyntaxModel ReSound RegexSpec RegexProofs RegexProofs2 RegexProofs3.
Import ListNotations.
Local Open Scope char_scope.

Scheme atom_mind := Induction for atom Sort Prop with syn_mind := Induction for syn Sort Prop.
Combined Scheme atom_syn_ind from atom_mind, syn_mind.

Section Read.
Variable beyond : N -> bool.
Notation P := (parse_re beyond).

Lemma plain_step : forall fuel st done cur c r, low_char c -> ~ In c special ->
  P (S fuel) st done cur (c :: r) = let '(a, r) := quantify (RByte (Ascii.eqb c)) r in P fuel st done (a :: cur) r.
Proof. intros fuel st done cur c r L N. plain_cases c L N; reflexivity. Qed.
Lemma escape_step : forall fuel st done cur r, P (S fuel) st done cur ("\" :: r) =
  match parse_escape beyond r with
  | Some (EClass f, r) => let '(a, r) := quantify (RRune f) r in P fuel st done (a :: cur) r
  | Some (EChar n, r) => let '(a, r) := quantify (RByte (Ascii.eqb (ascii_of_N n))) r in P fuel st done (a :: cur) r
  | None => match r with "b" :: r => let '(a, r) := quantify RBound r in P fuel st done (a :: cur) r | _ => None end
  end.
Proof. reflexivity. Qed.
(** The reader of a group *)
Lemma bare_head : forall x r, syn_ok x -> exists h t, syn_text x ++ ")" :: r = h :: t /\ h <> "?" /\ ~ In h $"*+?{".
Proof.
  assert (Q : forall h : ascii, ~ In h $"*+?{" -> h <> "?") by (intros h N ->; apply N; vm_compute; tauto).
  assert (X : forall x r, syn_ok x -> exists h t, syn_text x ++ ")" :: r = h :: t /\ ~ In h $"*+?{").
  { intros [|x|m s x|a q x] r OK; cbn [syn_text app]; try (eexists; eexists; split; [reflexivity|]; vm_compute; intuition discriminate).
    cbn [syn_ok] in OK. destruct OK as (OA & _ & _). rewrite <- app_assoc. destruct a as [c|s| | | | |ng l|nm y|y]; cbn [atom_text atom_ok] in *; try (eexists; eexists; split; [reflexivity|]; vm_compute; intuition discriminate).
    - destruct c as [c|c|h n| |]; cbn [char_text char_ok app] in *; try (eexists; eexists; split; [reflexivity|]; vm_compute; intuition discriminate).
      eexists; eexists; split; [reflexivity|]. destruct OA as [_ N]. intros I. apply N. change special with (list_ascii_of_string "\.+*?()|[]{}^$"). cbn in I |- *. intuition.
    - destruct s; eexists; eexists; (split; [reflexivity|]); vm_compute; intuition discriminate.
    - destruct nm; eexists; eexists; (split; [reflexivity|]); vm_compute; intuition discriminate. }
  intros x r OK. destruct (X x r OK) as (h & t & E & N). exists h, t. auto.
Qed.
Lemma apart_text : forall x r, syn_ok x -> (r = [] \/ exists t, r = ")" :: t) -> apart (syn_text x ++ r).
Proof.
  intros x r OK [->|[t ->]].
  - rewrite app_nil_r. destruct (bare_head x [] OK) as (h & t & E & _ & N). destruct (syn_text x) as [|c s]; [exact I|]. cbn [app] in E. injection E as -> _. exact N.
  - destruct (bare_head x t OK) as (h & u & E & _ & N). rewrite E. exact N.
Qed.
Definition sub_read fuel st done cur name r :=
  let '(n, st1) := new_group name st in
  match P fuel st1 None [] r with
  | Some (a, st2, ")" :: r) => let st2 := with_flags (p_m st) (p_s st) st2 in let '(a, r) := quantify (RGroup n a) r in P fuel st2 done (a :: cur) r
  | _ => None
  end.
Lemma group_step : forall fuel st done cur h t, h <> "?" -> P (S fuel) st done cur ("(" :: h :: t) = sub_read fuel st done cur None (h :: t).
Proof. intros fuel st done cur h t N. chars h; try reflexivity. exfalso. apply N. reflexivity. Qed.
Lemma named_step : forall fuel st done cur name r, ~ In ">" name -> P (S fuel) st done cur ($"(?P<" ++ name ++ ">" :: r) = sub_read fuel st done cur (Some name) r.
Proof.
  intros fuel st done cur name r N. assert (U : until ">" (name ++ ">" :: r) = Some (name, r)).
  { induction name as [|c name IH]; [reflexivity|]. cbn [until app]. replace (Ascii.eqb ">" c) with false by (symmetry; apply Ascii.eqb_neq; intros <-; apply N; left; reflexivity).
    rewrite IH by (intros I; apply N; right; exact I). reflexivity. }
  change ($"(?P<" ++ name ++ ">" :: r) with ("(" :: "?" :: "P" :: "<" :: (name ++ ">" :: r)). cbn [parse_re]. rewrite U. reflexivity.
Qed.
Lemma plain_group_step : forall fuel st done cur r, P (S fuel) st done cur ($"(?:" ++ r) =
  match P fuel st None [] r with
  | Some (a, st2, ")" :: r) => let '(a, r) := quantify a r in P fuel (with_flags (p_m st) (p_s st) st2) done (a :: cur) r
  | _ => None
  end.
Proof. reflexivity. Qed.
Lemma flags_step : forall fuel st done cur m s r, m = true \/ s = true -> P (S fuel) st done cur ($"(?" ++ flag_text m s ++ $")" ++ r) = P fuel (with_flags (p_m st || m) (p_s st || s) st) done cur r.
Proof.
  intros fuel st done cur m s r H. destruct m, s; try (destruct H; discriminate); rewrite ?orb_true_r, ?orb_false_r; reflexivity.
Qed.
Lemma none_false : forall n, in_class CNone n = false.
Proof. intros n. cbn [in_class CNone]. lia. Qed.
Lemma class_read : forall fuel st done cur (ng : bool) l r, l <> [] -> Forall item_ok l -> exists c, (forall n, in_class c n = xorb ng (existsb (fun i => item_has beyond i n) l)) /\
  P (S fuel) st done cur ($"[" ++ (if ng then $"^" else []) ++ flat_map item_text l ++ $"]" ++ r) = let '(a, r) := quantify (RRune c) r in P fuel st done (a :: cur) r.
Proof.
  intros fuel st done cur ng l r NE F. destruct ng.
  - destruct (read_items beyond l (List.length (items_text l ++ "]" :: r)) CNone r) as (f & E & H); [rewrite app_length; cbn [List.length]; lia | exact F|].
    exists (CNot f). split; [intros n; cbn [in_class]; rewrite H, none_false; destruct (existsb _ l); reflexivity|].
    change ($"[" ++ $"^" ++ flat_map item_text l ++ $"]" ++ r) with ("[" :: "^" :: (items_text l ++ "]" :: r)). cbn [parse_re]. rewrite E. reflexivity.
  - destruct (read_items beyond l (List.length (items_text l ++ "]" :: r)) CNone r) as (f & E & H); [rewrite app_length; cbn [List.length]; lia | exact F|].
    exists f. split; [intros n; rewrite H, none_false; destruct (existsb _ l); reflexivity|].
    change ($"[" ++ [] ++ flat_map item_text l ++ $"]" ++ r) with ("[" :: (items_text l ++ "]" :: r)).
    assert (HD : exists h t, items_text l ++ "]" :: r = h :: t /\ h <> "^").
    { destruct l as [|i l]; [congruence|]. inversion F as [|? ? OK _]; subst. unfold items_text. cbn [flat_map]. rewrite <- app_assoc. destruct i as [c|s|a b|]; cbn [item_text item_ok] in *.
      - destruct c as [c|c|h n| |]; cbn [char_text app char_ok] in *; eexists; eexists; (split; [reflexivity|]); try discriminate. destruct OK as [_ N]. intros ->. apply N. vm_compute. tauto.
      - destruct s; eexists; eexists; (split; [reflexivity | discriminate]).
      - destruct OK as [OK _]. destruct a as [c|c|h n| |]; cbn [char_text app char_ok] in *; eexists; eexists; (split; [reflexivity|]); try discriminate. destruct OK as [_ N]. intros ->. apply N. vm_compute. tauto.
      - eexists; eexists; (split; [reflexivity | discriminate]). }
    destruct HD as (h & t & EH & NH). rewrite EH in *. transitivity (match parse_class beyond (List.length (h :: t)) CNone (h :: t) with Some (f, r) => let '(a, r) := quantify (RRune f) r in P fuel st done (a :: cur) r | None => None end).
    + clear - NH. chars h; try reflexivity. exfalso. apply NH. reflexivity.
    + rewrite E. reflexivity.
Qed.
(** Sequences and alternatives *)
Lemma sequence_same : forall cur acc acc', same acc acc' -> same (fold_left (fun acc a => match acc with RNil => a | _ => RSeq a acc end) cur acc) (fold_right RSeq acc' (rev cur)).
Proof.
  induction cur as [|a cur IH]; intros acc acc' H; cbn [fold_left rev fold_right]; [exact H|].
  rewrite fold_right_app. cbn [fold_right]. apply IH. apply same_trans with (RSeq a acc); [|apply same_seq; [apply same_refl | exact H]].
  destruct acc; try apply same_refl. apply same_nil_r.
Qed.
Definition prefixed (l : list re) (alts : list re) : list re := match alts with h :: t => fold_right RSeq h l :: t | [] => [] end.
Definition done_is (done : option re) (dl : list re) : Prop := match done with None => dl = [] | Some d => dl <> [] /\ same d (one_of dl) end.
Lemma one_of_snoc : forall l x, l <> [] -> one_of (l ++ [x]) = RAlt (one_of l) x.
Proof. intros [|y l] x N; [congruence|]. cbn [one_of app]. rewrite fold_left_app. reflexivity. Qed.
Lemma whole_same : forall done dl seq x, done_is done dl -> same seq x -> same (match done with None => seq | Some d => RAlt d seq end) (one_of (dl ++ [x])).
Proof.
  intros [d|] dl seq x H S1; cbn [done_is] in H; [destruct H as [N H]; rewrite one_of_snoc by exact N; apply same_alt; assumption | subst dl; exact S1].
Qed.
Lemma same_fold : forall l a b, same a b -> same (fold_left RAlt l a) (fold_left RAlt l b).
Proof. induction l as [|x l IH]; intros a b H; cbn [fold_left]; [exact H|]. apply IH. apply same_alt; [exact H | apply same_refl]. Qed.
Lemma alternatives_some : forall m s n x, alternatives beyond m s n x <> [].
Proof.
  intros m s n x. revert m s n. induction x as [|x IH|m' s' x IH|a q x IH]; intros m s n; cbn [alternatives]; try discriminate; [apply IH|].
  destruct (alternatives beyond m s (n + atom_groups a) x) eqn:E; [destruct (IH _ _ _ E) | discriminate].
Qed.
Lemma same_up_to : forall n a a', same a a' -> same (up_to n a) (up_to n a').
Proof. induction n as [|n IH]; intros a a' H; cbn [up_to]; [apply same_refl|]. apply same_alt; [|apply same_refl]. apply same_seq; [exact H | apply IH; exact H]. Qed.
Lemma same_times : forall n a a' b b', same a a' -> same b b' -> same (times n a b) (times n a' b').
Proof. induction n as [|n IH]; intros a a' b b' H1 H2; cbn [times]; [exact H2|]. apply same_seq; [exact H1 | apply IH; assumption]. Qed.
Lemma same_quant : forall q a a', same a a' -> same (quant_re q a) (quant_re q a').
Proof.
  intros [|l|l| |n m] a a' H; cbn [quant_re]; [exact H | apply same_star; exact H | apply same_seq; [exact H | apply same_star; exact H] | apply same_alt; [exact H | apply same_refl]|].
  apply same_times; [exact H | apply same_up_to; exact H].
Qed.
Lemma same_one_of : forall dl x y others, same x y -> same (one_of (dl ++ x :: others)) (one_of (dl ++ y :: others)).
Proof.
  intros [|d dl] x y others H; cbn [app one_of]; [apply same_fold; exact H|]. rewrite !fold_left_app. cbn [fold_left]. apply same_fold. apply same_alt; [apply same_refl | exact H].
Qed.
Lemma same_right : forall l x y, same x y -> same (fold_right RSeq x l) (fold_right RSeq y l).
Proof. induction l as [|a l IH]; intros x y H; cbn [fold_right]; [exact H|]. apply same_seq; [apply same_refl | apply IH; exact H]. Qed.
Definition pst (m s : bool) (n : nat) (names : list (str * nat)) : pstate := {| p_m := m; p_s := s; p_groups := n; p_names := names |}.
Lemma atom_len : forall a, 1 <= List.length (atom_text a).
Proof.
  intros [c|s| | | | |ng l|[nm|] x|x]; cbn [atom_text]; try (cbn; lia); try (rewrite app_length; cbn; lia).
  - destruct c; cbn -[hex_digit]; lia.
  - destruct s; cbn; lia.
Qed.
Definition ends (rest : str) : Prop := rest = [] \/ exists t, rest = ")" :: t.
Definition reads_atom (a : atom) : Prop := forall fuel m s n names done cur q tail, atom_ok a -> quant_ok q -> apart tail -> List.length (atom_text a) <= fuel ->
  exists a', same a' (quant_re q (atom_re beyond m s n a)) /\
    P (S fuel) (pst m s n names) done cur (atom_text a ++ quant_text q ++ tail) = P fuel (pst m s (n + atom_groups a) (rev (atom_names n a) ++ names)) done (a' :: cur) tail.
Definition reads_syn (x : syn) : Prop := forall fuel m s n names done cur dl rest, List.length (syn_text x) < fuel -> ends rest -> syn_ok x -> done_is done dl ->
  exists r m' s', P fuel (pst m s n names) done cur (syn_text x ++ rest) = Some (r, pst m' s' (n + syn_groups x) (rev (syn_names n x) ++ names), rest) /\
    same r (one_of (dl ++ prefixed (rev cur) (alternatives beyond m s n x))).
Lemma rune_atom : forall c c' q, (forall n, in_class c n = in_class c' n) -> same (quant_re q (RRune c)) (quant_re q (RRune c')).
Proof. intros c c' q H. apply same_quant, same_rune, H. Qed.
Lemma reads_all : (forall a, reads_atom a) /\ (forall x, reads_syn x).
Proof.
  apply atom_syn_ind.
  - intros c fuel m s n names done cur q tail OK QK AP L. cbn [atom_text atom_re atom_ok atom_groups atom_names rev app] in *. rewrite PeanoNat.Nat.add_0_r.
    exists (quant_re q (RByte (Ascii.eqb (ascii_of_N (char_code c))))). split; [apply same_refl|].
    assert (D : (exists x, c = XPlain x) \/ match c with XPlain _ => False | _ => True end) by (destruct c; eauto). destruct D as [[x ->]|D].
    + cbn [char_text app char_code char_ok] in *. destruct OK as [LO N]. rewrite plain_step by assumption. rewrite read_quant by assumption. rewrite ascii_N_embedding. reflexivity.
    + destruct (quoted_text beyond _ c (quant_text q ++ tail) OK D) as (t & E & PE). rewrite E, escape_step, PE, read_quant by assumption. reflexivity.
  - intros x fuel m s n names done cur q tail OK QK AP L. cbn [atom_text atom_re atom_ok atom_groups atom_names rev app] in *. rewrite PeanoNat.Nat.add_0_r.
    exists (quant_re q (RRune (set_class beyond x))). split; [apply rune_atom; intros k; apply set_class_has|].
    destruct (set_escape beyond x (quant_text q ++ tail)) as (t & E & PE). rewrite E, escape_step, PE, read_quant by assumption. reflexivity.
  - intros fuel m s n names done cur q tail OK QK AP L. cbn [atom_re atom_groups atom_names rev app]. rewrite PeanoNat.Nat.add_0_r.
    exists (quant_re q (RRune (CNot (if s then CNone else c_char 10)))). split; [apply rune_atom; intros k; destruct s; cbn [in_class c_char CNone orb negb]; lia|].
    change (atom_text AAny ++ quant_text q ++ tail) with ("." :: (quant_text q ++ tail)). cbn [parse_re]. rewrite read_quant by assumption. reflexivity.
  - intros fuel m s n names done cur q tail OK QK AP L. cbn [atom_re atom_groups atom_names rev app]. rewrite PeanoNat.Nat.add_0_r.
    exists (quant_re q (if m then RBol else RBot)). split; [apply same_refl|].
    change (atom_text ABegin ++ quant_text q ++ tail) with ("^" :: (quant_text q ++ tail)). cbn [parse_re]. rewrite read_quant by assumption. reflexivity.
  - intros fuel m s n names done cur q tail OK QK AP L. cbn [atom_re atom_groups atom_names rev app]. rewrite PeanoNat.Nat.add_0_r.
    exists (quant_re q (if m then REol else REot)). split; [apply same_refl|].
    change (atom_text AEnd ++ quant_text q ++ tail) with ("$" :: (quant_text q ++ tail)). cbn [parse_re]. rewrite read_quant by assumption. reflexivity.
  - intros fuel m s n names done cur q tail OK QK AP L. cbn [atom_re atom_groups atom_names rev app]. rewrite PeanoNat.Nat.add_0_r.
    exists (quant_re q RBound). split; [apply same_refl|].
    change (atom_text ABoundary ++ quant_text q ++ tail) with ("\" :: "b" :: (quant_text q ++ tail)). rewrite escape_step.
    change (parse_escape beyond ("b" :: (quant_text q ++ tail))) with (@None (escape * str)). cbn iota. rewrite read_quant by assumption. reflexivity.
  - intros ng l fuel m s n names done cur q tail OK QK AP L. cbn [atom_re atom_groups atom_names rev app atom_ok] in *. rewrite PeanoNat.Nat.add_0_r. destruct OK as [NE F].
    destruct (class_read fuel (pst m s n names) done cur ng l (quant_text q ++ tail) NE F) as (c & HC & E). exists (quant_re q (RRune c)). split; [apply rune_atom; exact HC|].
    replace (atom_text (AClass ng l) ++ quant_text q ++ tail) with ($"[" ++ (if ng then $"^" else []) ++ flat_map item_text l ++ $"]" ++ quant_text q ++ tail) by (cbn [atom_text]; rewrite <- !app_assoc; reflexivity).
    rewrite E, read_quant by assumption. reflexivity.
  - intros name x IH fuel m s n names done cur q tail OK QK AP L.
    assert (OX : syn_ok x) by (destruct name; [exact (proj2 OK) | exact OK]).
    assert (LX : List.length (syn_text x) < fuel) by (destruct name; cbn [atom_text] in L; rewrite !app_length in L; cbn [List.length list_ascii_of_string lit] in L; cbn in L; lia).
    destruct (IH fuel m s (S n) (match name with Some a => (a, S n) :: names | None => names end) None [] [] (")" :: (quant_text q ++ tail)) LX (or_intror (ex_intro _ _ eq_refl)) OX eq_refl) as (r & m' & s' & E & SM).
    cbn [app] in SM. exists (quant_re q (RGroup (S n) r)). split.
    { change (atom_re beyond m s n (AGroup name x)) with (RGroup (S n) (one_of (alternatives beyond m s (S n) x))). apply same_quant, same_group. eapply same_trans; [exact SM|]. cbn [rev]. unfold prefixed. destruct (alternatives beyond m s (S n) x) eqn:EA; [destruct (alternatives_some _ _ _ _ EA) | apply same_refl]. }
    assert (R : sub_read fuel (pst m s n names) done cur name (syn_text x ++ ")" :: (quant_text q ++ tail)) =
      P fuel (pst m s (n + atom_groups (AGroup name x)) (rev (atom_names n (AGroup name x)) ++ names)) done (quant_re q (RGroup (S n) r) :: cur) tail).
    { unfold sub_read, new_group, pst in *. cbn [p_groups p_m p_s p_names] in *. rewrite E. cbv beta iota. rewrite read_quant by assumption. unfold with_flags. cbn [p_groups p_names atom_groups atom_names].
      replace (n + S (syn_groups x)) with (S n + syn_groups x) by lia. rewrite rev_app_distr, <- app_assoc. destruct name; reflexivity. }
    rewrite <- R. destruct name as [nm|].
    + replace (atom_text (AGroup (Some nm) x) ++ quant_text q ++ tail) with ($"(?P<" ++ nm ++ ">" :: (syn_text x ++ ")" :: (quant_text q ++ tail))) by (cbn [atom_text]; rewrite <- !app_assoc; reflexivity).
      apply named_step. exact (proj1 OK).
    + replace (atom_text (AGroup None x) ++ quant_text q ++ tail) with ("(" :: (syn_text x ++ ")" :: (quant_text q ++ tail))) by (cbn [atom_text]; rewrite <- !app_assoc; reflexivity).
      destruct (bare_head x (quant_text q ++ tail) OX) as (h & t & EH & NH & _). rewrite EH. apply group_step. exact NH.
  - intros x IH fuel m s n names done cur q tail OK QK AP L. cbn [atom_ok] in OK.
    assert (LX : List.length (syn_text x) < fuel) by (cbn [atom_text] in L; rewrite !app_length in L; cbn in L; lia).
    destruct (IH fuel m s n names None [] [] (")" :: (quant_text q ++ tail)) LX (or_intror (ex_intro _ _ eq_refl)) OK eq_refl) as (r & m' & s' & E & SM).
    exists (quant_re q r). split.
    { change (atom_re beyond m s n (APlain x)) with (one_of (alternatives beyond m s n x)). apply same_quant. eapply same_trans; [exact SM|]. cbn [rev app]. unfold prefixed. destruct (alternatives beyond m s n x) eqn:EA; [destruct (alternatives_some _ _ _ _ EA) | apply same_refl]. }
    replace (atom_text (APlain x) ++ quant_text q ++ tail) with ($"(?:" ++ (syn_text x ++ ")" :: (quant_text q ++ tail))) by (cbn [atom_text]; rewrite <- !app_assoc; reflexivity).
    rewrite plain_group_step, E. cbv beta iota. rewrite read_quant by assumption. reflexivity.
  - intros fuel m s n names done cur dl rest L EN OK DI. destruct fuel as [|fuel]; [cbn in L; lia|].
    eexists. exists m, s. cbn [syn_text app syn_groups syn_names rev]. rewrite PeanoNat.Nat.add_0_r. split; [destruct EN as [->|[t ->]]; reflexivity|].
    cbn [alternatives prefixed]. apply whole_same; [exact DI|]. apply sequence_same, same_refl.
  - intros x IH fuel m s n names done cur dl rest L EN OK DI. destruct fuel as [|fuel]; [cbn in L; lia|]. cbn [syn_text] in L. rewrite app_length in L. cbn [List.length] in L.
    cbn [syn_ok syn_groups syn_names] in *.
    set (seq := fold_left (fun acc a => match acc with RNil => a | _ => RSeq a acc end) cur RNil).
    destruct (IH fuel m s n names (Some (match done with None => seq | Some d => RAlt d seq end)) [] (dl ++ [fold_right RSeq RNil (rev cur)]) rest) as (r & m' & s' & E & SM).
    + cbn in L; lia.
    + exact EN.
    + exact OK.
    + split; [destruct dl; discriminate|]. apply whole_same; [exact DI|]. apply sequence_same, same_refl.
    + exists r, m', s'. split; [exact E|]. eapply same_trans; [exact SM|]. change (alternatives beyond m s n (SBar x)) with (RNil :: alternatives beyond m s n x). cbn [rev prefixed]. rewrite <- app_assoc. cbn [app].
      destruct (alternatives beyond m s n x) eqn:EA; [destruct (alternatives_some _ _ _ _ EA) | apply same_refl].
  - intros m1 s1 x IH fuel m s n names done cur dl rest L EN OK DI. destruct fuel as [|fuel]; [cbn in L; lia|]. cbn [syn_text] in L. rewrite !app_length in L. cbn [syn_ok syn_groups syn_names] in *. destruct OK as [H OK].
    destruct (IH fuel (m || m1) (s || s1) n names done cur dl rest) as (r & m' & s' & E & SM); [cbn in L; lia | exact EN | exact OK | exact DI|].
    exists r, m', s'. split; [|exact SM].
    replace (syn_text (SFlags m1 s1 x) ++ rest) with ($"(?" ++ flag_text m1 s1 ++ $")" ++ (syn_text x ++ rest)) by (cbn [syn_text]; rewrite <- !app_assoc; reflexivity).
    rewrite flags_step by exact H. exact E.
  - intros a IHa q x IHx fuel m s n names done cur dl rest L EN OK DI. destruct fuel as [|fuel]; [cbn in L; lia|]. cbn [syn_text] in L. rewrite !app_length in L. cbn [syn_ok] in OK. destruct OK as (OA & OQ & OX). pose proof (atom_len a) as LA.
    destruct (IHa fuel m s n names done cur q (syn_text x ++ rest) OA OQ (apart_text x rest OX EN)) as (a' & SA & E); [lia|].
    destruct (IHx fuel m s (n + atom_groups a) (rev (atom_names n a) ++ names) done (a' :: cur) dl rest) as (r & m' & s' & E2 & SM); [lia | exact EN | exact OX | exact DI|].
    exists r, m', s'. split.
    + replace (syn_text (SAtom a q x) ++ rest) with (atom_text a ++ quant_text q ++ (syn_text x ++ rest)) by (cbn [syn_text]; rewrite <- !app_assoc; reflexivity).
      rewrite E, E2. cbn [syn_groups syn_names]. rewrite rev_app_distr, <- app_assoc, PeanoNat.Nat.add_assoc. reflexivity.
    + eapply same_trans; [exact SM|]. change (alternatives beyond m s n (SAtom a q x)) with (match alternatives beyond m s (n + atom_groups a) x with first :: others => RSeq (quant_re q (atom_re beyond m s n a)) first :: others | [] => [] end). cbn [rev]. destruct (alternatives beyond m s (n + atom_groups a) x) as [|first others] eqn:EA; [destruct (alternatives_some _ _ _ _ EA)|].
      cbn [prefixed]. rewrite fold_right_app. cbn [fold_right]. apply same_one_of. apply same_right. apply same_seq; [exact SA | apply same_refl].
Qed.
Lemma compiled_syn : forall x, syn_ok x -> exists c, compile beyond (syn_text x) = Some c /\ same (c_re c) (one_of (alternatives beyond false false 0 x)) /\ c_names c = rev (syn_names 0 x).
Proof.
  intros x OK. destruct (proj2 reads_all x (S (List.length (syn_text x))) false false 0 [] None [] [] []) as (r & m' & s' & E & SM); [lia | left; reflexivity | exact OK | reflexivity|].
  rewrite app_nil_r in E. unfold compile. fold (pst false false 0 []). rewrite E. eexists. split; [reflexivity|]. cbn [c_re c_names pst p_names]. split; [|apply app_nil_r].
  eapply same_trans; [exact SM|]. cbn [rev app]. unfold prefixed. destruct (alternatives beyond false false 0 x) eqn:EA; [destruct (alternatives_some _ _ _ _ EA) | apply same_refl].
Qed.
End Read.
