(** Proofs about plain razor documents (RazorRefSpec). *)
From Coq Require Import String Ascii List ZArith NArith Bool Lia ZifyBool ZifyN.
From Verif Require Import GoStr GoStrFacts Utf8 Utf8Facts TemplateModel TemplateSpec TemplateProofs RazorWordsModel ReModel ReSyntaxModel RazorTableModel ReSound RazorRefSpec RazorRefAuto.
Import ListNotations.
Local Open Scope char_scope.

(** ** Characters *)
Lemma one_of_In : forall l c, one_of l c = true <-> In c l.
Proof.
  intros l c. unfold one_of. rewrite existsb_exists. split.
  - intros (x & I & E). apply Ascii.eqb_eq in E. subst. exact I.
  - intros I. exists c. split; [exact I | apply Ascii.eqb_refl].
Qed.
Lemma one_of_not : forall l c, one_of l c = false <-> ~ In c l.
Proof. intros l c. rewrite <- one_of_In. destruct (one_of l c); split; congruence. Qed.
Lemma is_alpha_iff : forall c, is_alpha c = true <-> alpha c.
Proof. intros c. unfold is_alpha, alpha, code_in, between. lia. Qed.
Lemma is_word_iff : forall c, is_word c = true <-> word_char c.
Proof.
  intros c. unfold is_word, word_char. rewrite !orb_true_iff, is_alpha_iff, Ascii.eqb_eq. unfold code_in, between. 
  assert (B : ((48 <=? N_of_ascii c) && (N_of_ascii c <=? 57))%N = true <-> (48 <= N_of_ascii c <= 57)%N) by lia. rewrite B. tauto.
Qed.
Lemma is_blank_iff : forall c, is_blank c = true <-> blank_char c.
Proof. intros c. unfold is_blank, blank_char. rewrite orb_true_iff, !Ascii.eqb_eq. reflexivity. Qed.
Lemma low_iff : forall c, low c = true <-> ascii_char c.
Proof. intros c. unfold low, ascii_char. lia. Qed.
Lemma bool_not : forall b (P : Prop), (b = true <-> P) -> (b = false <-> ~ P).
Proof. intros b P H. rewrite <- H. destruct b; split; congruence. Qed.

(** ** The automaton *)
Section Fits.
Variable esc : bool.
Notation fit := (fits (delta esc)).

Lemma delta_sim : forall q c q', q <> $"E" -> In q' (delta esc q c) ->
  (c = "@" -> In q' (at_states esc)) /\ (c <> "@" -> q' <> $"E").
Proof.
  intros q c q' QE H.
  assert (NS : forall u, c <> "@" -> In q' (name_step u c) -> q' <> $"E").
  { intros u _ I. unfold name_step in I. destruct (mem (u ++ [c]) _); [destruct I|]. destruct I as [<-|[]]. unfold name_state. destruct (kw_prefix (u ++ [c])); discriminate. }
  assert (EX : In q' (exits esc c) -> (c = "@" -> In q' (at_states esc)) /\ (c <> "@" -> q' <> $"E")).
  { intros I. unfold exits in I. split; intros C.
    - subst c. exact I.
    - destruct (Ascii.eqb_spec c "@") as [|_]; [contradiction|]. repeat match type of I with context [if ?b then _ else _] => destruct b end; destruct I as [<-|[]] || destruct I; discriminate. }
  assert (GT : In q' (go_text esc c) -> (c = "@" -> In q' (at_states esc)) /\ (c <> "@" -> q' <> $"E")).
  { intros I. unfold go_text in I. split; intros C.
    - subst c. exact I.
    - destruct (Ascii.eqb_spec c "@") as [|_]; [contradiction|]. destruct I as [<-|[]]; discriminate. }
  unfold delta in H.
  destruct (str_eqb q $"T"); [exact (GT H)|].
  destruct (str_eqb q $"E") eqn:QQ; [apply str_eqb_eq in QQ; contradiction|]. clear QQ.
  destruct (str_eqb q $"@").
  { split; intros C; [subst c; destruct H|]. destruct (one_of _ c); [destruct H as [<-|[]]; discriminate|]. destruct (is_alpha c); [exact (NS _ C H) | destruct H]. }
  destruct (str_eqb q $"@1").
  { split; intros C; [subst c; destruct H|]. destruct (Ascii.eqb c "-"); [destruct H as [<-|[]]; discriminate|]. destruct (is_alpha c); [exact (NS _ C H) | destruct H]. }
  destruct (str_eqb q $"@2").
  { split; intros C; [subst c; destruct H|]. destruct (is_alpha c); [exact (NS _ C H) | destruct H]. }
  destruct (str_eqb q $"I").
  { destruct (is_word c) eqn:W; [|exact (EX H)]. split; intros C; [subst c; discriminate W | destruct H as [<-|[]]; discriminate]. }
  destruct (str_eqb q $"M").
  { destruct (is_word c || is_glue c) eqn:W; [|exact (EX H)]. split; intros C; [subst c; discriminate W | destruct H as [<-|[]]; discriminate]. }
  destruct (str_eqb q $"B").
  { split; intros C; [subst c; exact H|]. destruct (is_blank c); [destruct H as [<-|[]]; discriminate|].
    destruct (Ascii.eqb_spec c "@") as [|_]; [contradiction|]. repeat match type of H with context [if ?b then _ else _] => destruct b end; destruct H as [<-|[]] || destruct H; discriminate. }
  destruct (str_eqb q $"O"). { destruct (one_of _ c); [destruct H | exact (GT H)]. }
  destruct (str_eqb q $"X"). { destruct (one_of _ c); [destruct H | exact (GT H)]. }
  destruct q as [|n u]; [destruct H|].
  assert (N : n = "n") by (destruct n as [[] [] [] [] [] [] [] []]; try destruct H; reflexivity). subst n. cbv beta iota in H.
  destruct (is_word c) eqn:W.
  { split; intros C; [subst c; discriminate W | exact (NS _ C H)]. }
  destruct (mem u reserved); [destruct H | exact (EX H)].
Qed.

Lemma fit_text : forall q s, q <> $"E" -> fit q s -> fit $"T" s.
Proof.
  intros q s. revert q. induction s as [|c s IH]; intros q Q F; [exact I|].
  destruct F as (q' & D & F). destruct (delta_sim q c q' Q D) as [A B].
  destruct (Ascii.eqb_spec c "@") as [->|N].
  - exists q'. split; [exact (A eq_refl) | exact F].
  - exists $"T". split; [|exact (IH q' (B N) F)]. change (delta esc $"T" c) with (go_text esc c). unfold go_text.
    destruct (Ascii.eqb_spec c "@"); [contradiction | left; reflexivity].
Qed.
Lemma fit_suffix : forall u t q, fit q (u ++ t) -> exists q', In q' [$"T"; $"E"] /\ fit q' t.
Proof.
  induction u as [|c u IH]; intros t q F.
  - cbn [app] in F. destruct (str_eqb q $"E") eqn:E.
    + apply str_eqb_eq in E. subst q. exists $"E". split; [right; left; reflexivity | exact F].
    + exists $"T". split; [left; reflexivity|]. apply (fit_text q); [|exact F]. intros ->. discriminate E.
  - destruct F as (q' & _ & F). exact (IH t q' F).
Qed.
Lemma fit_suffix_plain : forall u t q, esc = false -> q <> $"E" -> fit q (u ++ t) -> fit $"T" t.
Proof.
  intros u t q ES. revert q. induction u as [|c u IH]; intros q Q F; [exact (fit_text q t Q F)|].
  destruct F as (q' & D & F). apply (IH q'); [|exact F]. destruct (delta_sim q c q' Q D) as [A B].
  destruct (Ascii.eqb_spec c "@") as [->|N]; [|exact (B N)]. specialize (A eq_refl). rewrite ES in A. destruct A as [<-|[]]. discriminate.
Qed.

(** ** Plain documents fit *)
Definition AT : str := $"_=!AT!=_".
Definition render1 (i : item) : str := match i with At => if esc then $"@@" else AT | _ => source1 i end.
Definition render (l : list item) : str := flat_map render1 l.

Lemma fit_skip : forall s t, ~ In "@" s -> fit $"T" t -> fit $"T" (s ++ t).
Proof.
  induction s as [|c s IH]; intros t N F; [exact F|]. exists $"T". split; [|apply IH; [intro I; apply N; right; exact I | exact F]].
  change (delta esc $"T" c) with (go_text esc c). unfold go_text. destruct (Ascii.eqb_spec c "@") as [->|]; [exfalso; apply N; left; reflexivity | left; reflexivity].
Qed.

(** After a name *)
Definition leaves (s : str) : Prop := match s with [] => True | c :: t => is_word c = false /\ exists q, In q (exits esc c) /\ fit q t end.
Lemma kw_closed : forall v c, kw_prefix (v ++ [c]) = true -> kw_prefix v = true.
Proof.
  intros v c H. unfold kw_prefix in *. apply existsb_exists in H. destruct H as (w & W & P). apply existsb_exists. exists w. split; [exact W|].
  apply has_prefix_iff in P. destruct P as [r ->]. rewrite <- app_assoc. apply has_prefix_app.
Qed.
Lemma name_state_word : forall v c, is_word c = true -> ~ In (v ++ [c]) [$"else"; $"end"] -> In (name_state (v ++ [c])) (delta esc (name_state v) c).
Proof.
  intros v c W N. unfold name_state at 2. destruct (kw_prefix v) eqn:K.
  - change (delta esc ("n" :: v) c) with (if is_word c then name_step v c else if mem v reserved then [] else exits esc c). rewrite W.
    unfold name_step. destruct (mem (v ++ [c]) [$"else"; $"end"]) eqn:M; [apply mem_In in M; contradiction|]. left; reflexivity.
  - change (delta esc $"I" c) with (if is_word c then [$"I"] else exits esc c). rewrite W.
    unfold name_state. destruct (kw_prefix (v ++ [c])) eqn:K2; [apply kw_closed in K2; congruence|]. left; reflexivity.
Qed.
Lemma name_state_exit : forall v c, is_word c = false -> ~ In v reserved -> delta esc (name_state v) c = exits esc c.
Proof.
  intros v c W N. unfold name_state. destruct (kw_prefix v).
  - change (delta esc ("n" :: v) c) with (if is_word c then name_step v c else if mem v reserved then [] else exits esc c). rewrite W.
    destruct (mem v reserved) eqn:M; [apply mem_In in M; contradiction | reflexivity].
  - change (delta esc $"I" c) with (if is_word c then [$"I"] else exits esc c). rewrite W. reflexivity.
Qed.
Lemma fit_name : forall r v t, Forall word_char r -> ~ prefix_of $"else" (v ++ r) -> ~ prefix_of $"end" (v ++ r) -> ~ In (v ++ r) reserved ->
  leaves t -> fit (name_state v) (r ++ t).
Proof.
  induction r as [|c r IH]; intros v t W N1 N2 N3 L.
  - rewrite app_nil_r in N3. cbn [app]. destruct t as [|c t]; [exact I|]. destruct L as (LW & q & Q & F). exists q. split; [|exact F].
    rewrite name_state_exit; [exact Q | exact LW | exact N3].
  - apply Forall_cons_iff in W. destruct W as [W1 W2]. change (v ++ c :: r) with (v ++ [c] ++ r) in *. rewrite app_assoc in *.
    exists (name_state (v ++ [c])). split; [|apply IH; assumption]. apply name_state_word; [apply is_word_iff; exact W1|].
    intros [E|[E|[]]]; [apply N1 | apply N2]; exists r; rewrite E; reflexivity.
Qed.
Lemma name_enter : forall c, is_alpha c = true -> name_step [] c = [name_state [c]].
Proof.
  intros c H. unfold name_step. cbn [app]. destruct (mem [c] _) eqn:M; [|reflexivity]. apply mem_In in M. destruct M as [M|[M|[]]]; discriminate.
Qed.
Lemma fit_ref : forall m n t, plain_name n -> leaves t -> fit $"@" (mark_text m ++ n ++ t).
Proof.
  intros m n t ((c & r & -> & A & W) & N1 & N2 & N3) L.
  assert (NM : fit (name_state [c]) (r ++ t)) by (apply fit_name; assumption).
  assert (A' : is_alpha c = true) by (apply is_alpha_iff; exact A).
  assert (D : one_of ["-"; "_"] c = false).
  { apply one_of_not. intros [<-|[<-|[]]]; discriminate A'. }
  assert (D1 : Ascii.eqb c "-" = false) by (destruct (Ascii.eqb_spec c "-") as [->|]; [discriminate A' | reflexivity]).
  assert (P : fit $"@" ((c :: r) ++ t)).
  { exists (name_state [c]). split; [|exact NM]. change (delta esc $"@" c) with (if one_of ["-"; "_"] c then [$"@1"] else if is_alpha c then name_step [] c else []).
    rewrite D, A', name_enter by exact A'. left; reflexivity. }
  assert (P1 : fit $"@1" ((c :: r) ++ t)).
  { exists (name_state [c]). split; [|exact NM]. change (delta esc $"@1" c) with (if Ascii.eqb c "-" then [$"@2"] else if is_alpha c then name_step [] c else []).
    rewrite D1, A', name_enter by exact A'. left; reflexivity. }
  assert (P2 : fit $"@2" ((c :: r) ++ t)).
  { exists (name_state [c]). split; [|exact NM]. change (delta esc $"@2" c) with (if is_alpha c then name_step [] c else []).
    rewrite A', name_enter by exact A'. left; reflexivity. }
  destruct m; [exact P|..]; exists $"@1"; (split; [left; reflexivity|]); [exact P1 | exact P1 |..]; exists $"@2"; (split; [left; reflexivity | exact P2]).
Qed.

(** *** What follows a reference *)
Lemma source_head : forall i l, match i with Text _ => False | _ => True end -> exists s, source (i :: l) = "@" :: s.
Proof. intros [s| |m n [b|]] l H; [destruct H|..]; eexists; reflexivity. Qed.
Definition headed (l : list item) : Prop := match l with [] => True | Text _ :: _ => False | _ => True end.
Lemma split_at : forall l, plain l -> exists x l', source l = x ++ source l' /\ render l = x ++ render l' /\ ~ In "@" x /\ plain l' /\ headed l' /\ length l' <= length l.
Proof.
  induction l as [|i l IH]; intros P.
  - exists [], []. repeat split; auto.
  - destruct i as [s| |m n k].
    + destruct P as [N P]. destruct (IH P) as (x & l' & A & B & C & D & E & F). exists (s ++ x), l'.
      change (source (Text s :: l)) with (s ++ source l). change (render (Text s :: l)) with (s ++ render l). rewrite A, B, !app_assoc.
      repeat split; auto; [|cbn; lia]. intros I. apply in_app_or in I. tauto.
    + exists [], (At :: l). repeat split; auto.
    + exists [], (Ref m n k :: l). repeat split; auto.
Qed.
Lemma blank_not_at : forall c, blank_char c -> c <> "@".
Proof. intros c [->| ->]; discriminate. Qed.
Lemma glue_not_at : forall c, glue c -> c <> "@".
Proof. intros c G ->. apply one_of_In in G. discriminate G. Qed.
Lemma glue_not_word : forall c, glue c -> is_word c = false.
Proof. intros c G. repeat (destruct G as [<-|G]; [reflexivity|]). destruct G. Qed.
Lemma blank_not_word : forall c, blank_char c -> is_word c = false.
Proof. intros c [->| ->]; reflexivity. Qed.
Lemma word_not_at : forall c, word_char c -> c <> "@".
Proof. intros c W ->. apply is_word_iff in W. discriminate W. Qed.
Lemma glue_exits : forall c, glue c -> exits esc c = [$"M"].
Proof. intros c G. unfold exits. assert (E : is_glue c = true) by (apply one_of_In; exact G). rewrite E. reflexivity. Qed.
Lemma blank_exits : forall c, blank_char c -> exits esc c = [$"B"].
Proof. intros c [->| ->]; reflexivity. Qed.
Lemma delta_M : forall c, is_word c = false -> delta esc $"M" c = exits esc c.
Proof.
  intros c W. change (delta esc $"M" c) with (if is_word c || is_glue c then [$"M"] else exits esc c). rewrite W. cbn [orb].
  unfold exits. destruct (is_glue c); reflexivity.
Qed.
Lemma fit_M : forall r t, Forall (fun x => word_char x \/ glue x) r -> leaves t -> fit $"M" (r ++ t).
Proof.
  induction r as [|c r IH]; intros t H L.
  - cbn [app]. destruct t as [|c t]; [exact I|]. destruct L as (W & q & Q & F). exists q. split; [rewrite delta_M by exact W; exact Q | exact F].
  - apply Forall_cons_iff in H. destruct H as [H1 H2]. exists $"M". split; [|exact (IH t H2 L)].
    change (delta esc $"M" c) with (if is_word c || is_glue c then [$"M"] else exits esc c).
    assert (E : is_word c || is_glue c = true).
    { apply orb_true_iff. destruct H1 as [H1|H1]; [left; apply is_word_iff; exact H1 | right; apply one_of_In; exact H1]. }
    rewrite E. left; reflexivity.
Qed.
Lemma fit_B : forall b t, Forall blank_char b -> fit $"B" t -> fit $"B" (b ++ t).
Proof.
  induction b as [|c b IH]; intros t H F; [exact F|]. apply Forall_cons_iff in H. destruct H as [H1 H2].
  exists $"B". split; [|exact (IH t H2 F)]. destruct H1 as [->| ->]; left; reflexivity.
Qed.
Lemma leaves_blanks : forall c b t, blank_char c -> Forall blank_char b -> fit $"B" t -> leaves (c :: b ++ t).
Proof.
  intros c b t C B F. split; [apply blank_not_word; exact C|]. exists $"B". split; [rewrite blank_exits by exact C; left; reflexivity | exact (fit_B b t B F)].
Qed.
Lemma fit_OX : forall q bad s, (q, bad) = ($"O", ["="; "<"; ">"; "^"]) \/ (q, bad) = ($"X", ["171"; "183"; "187"]) ->
  fit $"T" s -> (forall d r, s = d :: r -> ~ In d bad) -> fit q s.
Proof.
  intros q bad s E F N. destruct s as [|c s]; [exact I|]. destruct F as (q' & D & F). exists q'. split; [|exact F].
  specialize (N c s eq_refl). apply one_of_not in N. destruct E as [E|E].
  - assert (E1 : q = $"O") by congruence. assert (E2 : bad = ["="; "<"; ">"; "^"]) by congruence. subst q bad.
    change (delta esc $"O" c) with (if one_of ["="; "<"; ">"; "^"] c then [] else go_text esc c). rewrite N. exact D.
  - assert (E1 : q = $"X") by congruence. assert (E2 : bad = ["171"; "183"; "187"]) by congruence. subst q bad.
    change (delta esc $"X" c) with (if one_of ["171"; "183"; "187"] c then [] else go_text esc c). rewrite N. exact D.
Qed.
Lemma fit_T_tail : forall c s, c <> "@" -> fit $"T" (c :: s) -> fit $"T" s.
Proof.
  intros c s N (q & D & F). change (delta esc $"T" c) with (go_text esc c) in D. unfold go_text in D.
  destruct (Ascii.eqb_spec c "@"); [contradiction|]. destruct D as [<-|[]]. exact F.
Qed.
Lemma fit_T_at : forall s, fit $"T" ("@" :: s) -> exists q, In q (at_states esc) /\ fit q s.
Proof. intros s F. exact F. Qed.

Lemma op_head : forall sp c, op_char c \/ (sp = true /\ In c ["+"; "-"; "*"; "%"; "~"]) -> c <> "@".
Proof.
  intros sp c [O|[_ O]] ->; apply one_of_In in O; discriminate O.
Qed.
(** The rest after the name and the blanks, as it is after the first replacements *)
Lemma tail_fits : forall sp x l', calm_tail sp (x ++ source l') -> ~ In "@" x -> headed l' -> fit $"T" (render l') ->
  if sp then fit $"B" (x ++ render l') else leaves (x ++ render l').
Proof.
  intros sp x l' C N HD F.
  assert (FT : forall y, ~ In "@" y -> fit $"T" (y ++ render l')) by (intros y NY; apply fit_skip; [exact NY | exact F]).
  assert (CASE : forall c t, x ++ source l' = c :: t -> c <> "@" -> exists x2, x = c :: x2 /\ t = x2 ++ source l' /\ ~ In "@" x2).
  { intros c t E NC. destruct x as [|d x2].
    - exfalso. cbn [app] in E. destruct l' as [|i l']; [discriminate E|]. destruct (source_head i l') as [s S]; [destruct i; exact HD|]. rewrite S in E. inversion E. congruence.
    - inversion E; subst. exists x2. repeat split. intros I. apply N; right; exact I. }
  remember (x ++ source l') as tt eqn:TT in C. destruct C as [|c t A1 A2 A3 A4 A5 A6|c t O B|c t SP W B|t B].
  - (* the end *)
    destruct x; [|discriminate TT]. destruct l' as [|i l']; [destruct sp; exact I|].
    destruct (source_head i l') as [s S]; [destruct i; exact HD|]. cbn [app] in TT. rewrite S in TT. discriminate TT.
  - destruct (CASE c t (eq_sym TT)) as (x2 & -> & -> & N2).
    { intros ->. apply A4. left; reflexivity. }
    assert (F2 := FT x2 N2). assert (AB : is_blank c = false) by (apply (bool_not _ _ (is_blank_iff c)); exact A2).
    assert (AA : Ascii.eqb c "@" = false) by (destruct (Ascii.eqb_spec c "@") as [->|]; [exfalso; apply A4; left; reflexivity | reflexivity]).
    assert (AS : Ascii.eqb c ";" = false) by (destruct (Ascii.eqb_spec c ";") as [->|]; [exfalso; apply A4; right; left; reflexivity | reflexivity]).
    assert (AE : Ascii.eqb c "=" = false) by (destruct (Ascii.eqb_spec c "=") as [->|]; [exfalso; apply A4; right; right; left; reflexivity | reflexivity]).
    assert (AO : is_op c = false) by (apply one_of_not; exact A3).
    assert (AL : low c = true) by (apply low_iff; exact A1).
    destruct sp.
    + exists $"T". split; [|exact F2].
      change (delta esc $"B" c) with (if is_blank c then [$"B"] else if Ascii.eqb c "@" then at_states esc else if is_op2 c then [$"O"] else if negb (low c) then [$"X"] else if Ascii.eqb c "=" then [] else [$"T"]).
      rewrite AB, AA, AL, AE. unfold is_op2. rewrite AO. specialize (A6 eq_refl). apply one_of_not in A6. rewrite A6. left; reflexivity.
    + specialize (A5 eq_refl). destruct A5 as (B1 & B2 & B3).
      assert (BW : is_word c = false) by (apply (bool_not _ _ (is_word_iff c)); exact B1).
      split; [exact BW|]. exists $"T". split; [|exact F2]. unfold exits. assert (BG : is_glue c = false) by (apply one_of_not; exact B2).
      rewrite BG, AB, AA, AS, AO, AL, BW. cbn [negb andb].
      assert (BO : one_of ["="; "("; "["; "."] c = false).
      { unfold one_of. cbn [existsb]. rewrite AE. cbn [orb]. apply one_of_not in B3. exact B3. }
      rewrite BO. left; reflexivity.
  - destruct (CASE c t (eq_sym TT) (op_head sp c O)) as (x2 & -> & -> & N2).
    assert (F2 := FT x2 N2).
    assert (FO : fit $"O" (x2 ++ render l')).
    { apply (fit_OX _ _ _ (or_introl eq_refl) F2). intros d r E I. destruct x2 as [|e x3].
      - cbn [app] in E. destruct l' as [|i l']; [discriminate E|]. destruct i as [s| |m n k]; [destruct HD|..].
        + unfold render in E. cbn [flat_map render1] in E. destruct esc; inversion E; subst d; apply one_of_In in I; discriminate I.
        + destruct k; inversion E; subst d; apply one_of_In in I; discriminate I.
      - inversion E; subst. exact (B d (x3 ++ source l') eq_refl I). }
    destruct sp.
    + exists $"O". split; [|exact FO].
      assert (OO : is_op2 c = true).
      { unfold is_op2. apply orb_true_iff. destruct O as [O|[_ O]]; [left | right]; apply one_of_In; exact O. }
      change (delta esc $"B" c) with (if is_blank c then [$"B"] else if Ascii.eqb c "@" then at_states esc else if is_op2 c then [$"O"] else if negb (low c) then [$"X"] else if Ascii.eqb c "=" then [] else [$"T"]).
      rewrite OO. destruct (is_blank c) eqn:BB; [exfalso|destruct (Ascii.eqb_spec c "@") as [->|]; [discriminate OO | left; reflexivity]].
      apply is_blank_iff in BB. destruct BB as [->| ->]; discriminate OO.
    + destruct O as [O|[O _]]; [|discriminate]. assert (OO : is_op c = true) by (apply one_of_In; exact O).
      repeat (destruct O as [<-|O]; [split; [reflexivity|]; exists $"O"; split; [left; reflexivity | exact FO]|]). destruct O.
  - subst sp. destruct (CASE c t (eq_sym TT)) as (x2 & -> & -> & N2).
    { intros ->. apply W. unfold ascii_char. cbn. lia. }
    assert (F2 := FT x2 N2). exists $"X". split.
    + assert (L : low c = false) by (apply (bool_not _ _ (low_iff c)); exact W).
      change (delta esc $"B" c) with (if is_blank c then [$"B"] else if Ascii.eqb c "@" then at_states esc else if is_op2 c then [$"O"] else if negb (low c) then [$"X"] else if Ascii.eqb c "=" then [] else [$"T"]).
      rewrite L. destruct (is_blank c) eqn:BB; [apply is_blank_iff in BB; destruct BB as [->| ->]; discriminate L|].
      destruct (Ascii.eqb_spec c "@") as [->|]; [discriminate L|].
      destruct (is_op2 c) eqn:BO; [exfalso|left; reflexivity]. unfold is_op2 in BO. apply orb_true_iff in BO. destruct BO as [BO|BO]; apply one_of_In in BO;
        repeat (destruct BO as [<-|BO]; [discriminate L|]); destruct BO.
    + apply (fit_OX _ _ _ (or_intror eq_refl) F2). intros d r E I. destruct x2 as [|e x3].
      * cbn [app] in E. destruct l' as [|i l']; [discriminate E|]. destruct i as [s| |m n k]; [destruct HD|..].
        -- unfold render in E. cbn [flat_map render1] in E. destruct esc; inversion E; subst d; apply one_of_In in I; discriminate I.
        -- destruct k; inversion E; subst d; apply one_of_In in I; discriminate I.
      * inversion E; subst. exact (B d (x3 ++ source l') eq_refl I).
  - (* another reference or an escape *)
    destruct x as [|d x]; [|inversion TT; subst; exfalso; apply N; left; reflexivity].
    cbn [app] in *. destruct l' as [|i l']; [discriminate TT|].
    assert (REF : forall s, render (i :: l') = "@" :: s -> if sp then fit $"B" (render (i :: l')) else leaves (render (i :: l'))).
    { intros s E. rewrite E in *. destruct (fit_T_at s F) as (q & Q & F1). destruct sp; [exists q; split; assumption|].
      split; [reflexivity|]. exists q; split; assumption. }
    destruct i as [s| |m n k]; [destruct HD| |destruct k; exact (REF _ eq_refl)].
    assert (RA : render (At :: l') = (if esc then $"@@" else AT) ++ render l') by reflexivity.
    destruct (Bool.bool_dec esc true) as [ES|ES].
    + apply (REF ("@" :: render l')). rewrite RA, ES. reflexivity.
    + apply not_true_is_false in ES. rewrite ES in RA. rewrite RA in *. destruct sp.
      * exists $"T". split; [left; reflexivity|]. exact (fit_T_tail "_" _ ltac:(discriminate) F).
      * exfalso. refine (B eq_refl (source l') _). change (source (At :: l')) with ("@" :: "@" :: source l') in TT. congruence.
Qed.

Lemma app_split : forall (A : Type) (a b c d : list A), a ++ b = c ++ d -> (exists k, a = c ++ k /\ d = k ++ b) \/ (exists k, c = a ++ k /\ b = k ++ d).
Proof.
  induction a as [|x a IH]; intros b c d H; [right; exists c; split; [reflexivity | exact H]|].
  destruct c as [|y c]; [left; exists (x :: a); split; [reflexivity | symmetry; exact H]|].
  inversion H; subst. destruct (IH _ _ _ H2) as [(k & -> & ->)|(k & -> & ->)]; [left | right]; exists k; split; reflexivity.
Qed.

Lemma calm_leaves : forall l, plain l -> calm (source l) -> (forall l', plain l' -> length l' <= length l -> fit $"T" (render l')) -> leaves (render l).
Proof.
  intros l P (g & b & t & E & G & B & T) IH. destruct (split_at l P) as (x & l' & S & R & N & P' & HD & LE).
  assert (F := IH l' P' LE). rewrite E in S. rewrite app_assoc in S.
  assert (NG : ~ In "@" (g ++ b)).
  { intros I. apply in_app_or in I. destruct I as [I|I].
    - destruct G as [->|(c & r & -> & GC & GR)]; [destruct I|]. destruct I as [->|I]; [exact (glue_not_at _ GC eq_refl)|].
      rewrite Forall_forall in GR. destruct (GR _ I) as [W|W]; [exact (word_not_at _ W eq_refl) | exact (glue_not_at _ W eq_refl)].
    - rewrite Forall_forall in B. exact (blank_not_at _ (B _ I) eq_refl). }
  assert (X : exists x1, x = (g ++ b) ++ x1 /\ t = x1 ++ source l').
  { destruct (app_split _ _ _ _ _ S) as [(k & K1 & K2)|(k & K1 & K2)].
    - destruct k as [|c k].
      + exists []. rewrite app_nil_r in K1. rewrite app_nil_r. split; [symmetry; exact K1 | symmetry; exact K2].
      + exfalso. destruct l' as [|i l']; [discriminate K2|]. destruct (source_head i l') as [s S']; [destruct i; exact HD|]. rewrite S' in K2. inversion K2; subst c.
        apply NG. rewrite K1. apply in_or_app. right; left; reflexivity.
    - exists k. split; assumption. }
  destruct X as (x1 & -> & ->).
  assert (N1 : ~ In "@" x1) by (intros I; apply N; apply in_or_app; right; exact I).
  pose proof (tail_fits _ x1 l' T N1 HD F) as TF. rewrite R, <- !app_assoc.
  assert (L : leaves (b ++ x1 ++ render l')).
  { destruct b as [|c b]; [exact TF|]. apply Forall_cons_iff in B. destruct B as [B1 B2]. exact (leaves_blanks c b _ B1 B2 TF). }
  destruct G as [->|(c & r & -> & GC & GR)]; [exact L|].
  split; [apply glue_not_word; exact GC|]. exists $"M". split; [rewrite glue_exits by exact GC; left; reflexivity|]. exact (fit_M r _ GR L).
Qed.

Lemma plain_fits : forall l, plain l -> fit $"T" (render l).
Proof.
  intros l. remember (length l) as n eqn:NL. assert (LE : length l <= n) by lia. clear NL. revert l LE.
  induction n as [|n IH]; intros l LE P; [destruct l; [exact I | cbn in LE; lia]|].
  destruct l as [|i l]; [exact I|]. cbn [length] in LE.
  destruct i as [s| |m nm k].
  - destruct P as [N P]. change (render (Text s :: l)) with (s ++ render l). apply fit_skip; [exact N | apply IH; [lia | exact P]].
  - cbn [plain] in P. assert (F : fit $"T" (render l)) by (apply IH; [lia | exact P]).
    assert (RA : render (At :: l) = (if esc then $"@@" else AT) ++ render l) by reflexivity.
    destruct (Bool.bool_dec esc true) as [ES|ES].
    + rewrite ES in RA. rewrite RA. exists $"E". split; [unfold delta, go_text, at_states; cbn; rewrite ES; right; left; reflexivity|].
      exists $"T". split; [left; reflexivity | exact F].
    + apply not_true_is_false in ES. rewrite ES in RA. rewrite RA.
      apply fit_skip; [intros I; repeat (destruct I as [I|I]; [discriminate I|]); destruct I | exact F].
  - destruct k as [b|].
    + destruct P as (PN & PB & P). assert (F : fit $"T" (render l)) by (apply IH; [lia | exact P]).
      change (render (Ref m nm (Some b) :: l)) with (("@" :: mark_text m ++ nm ++ b ++ $";") ++ render l).
      exists $"@". split; [unfold delta, go_text, at_states; cbn; destruct esc; left; reflexivity|].
      assert (SH : (mark_text m ++ nm ++ b ++ $";") ++ render l = mark_text m ++ nm ++ (b ++ ";" :: render l)) by (rewrite <- !app_assoc; reflexivity).
      cbn [app]. rewrite SH. apply fit_ref; [exact PN|].
      assert (FB : fit $"B" (";" :: render l)) by (exists $"T"; split; [left; reflexivity | exact F]).
      destruct b as [|c b].
      * split; [reflexivity|]. exists $"T". split; [left; reflexivity | exact F].
      * apply Forall_cons_iff in PB. destruct PB as [B1 B2]. exact (leaves_blanks c b _ B1 B2 FB).
    + destruct P as (PN & C & P).
      change (render (Ref m nm None :: l)) with (("@" :: mark_text m ++ nm) ++ render l).
      exists $"@". split; [unfold delta, go_text, at_states; cbn; destruct esc; left; reflexivity|].
      cbn [app]. rewrite <- app_assoc. apply fit_ref; [exact PN|]. apply calm_leaves; [exact P | exact C |].
      intros l' P' LE'. apply IH; [lia | exact P'].
Qed.
End Fits.
