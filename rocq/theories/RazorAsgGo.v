(** The translation of assigned expressions: the text given to the parser. *)
From Coq Require Import String Ascii List ZArith NArith Bool Lia ZifyBool ZifyN Permutation.
From Verif Require Import GoStr GoStrFacts Utf8 QuoteModel TemplateModel TemplateSpec TemplateProofs TextModel TextProofs3 RazorExprModel RazorExprProofs RazorWordsModel RazorWordsSpec RazorWordsProofs
  ReModel ReSyntaxModel RazorTableModel RazorAssignModel ReSound RazorRefSpec RazorRefAuto RazorRefProofs RazorRefMain RazorAsgSpec RazorAsgText RazorAsgExpr RazorAsgExpr2.
Import ListNotations.
Local Open Scope char_scope.

(** ** Searching a text of ASCII characters *)
Definition lows (s : str) : Prop := Forall (fun c => low c = true) s.
Lemma search_none_at : forall n r pv (s : str), lows s -> (forall u t : str, s = u ++ t -> match_at r (after_text pv u, t) = None) -> search n r (pv, s) = None.
Proof.
  induction n as [|n IH]; intros r pv s L H.
  - pose proof (H [] s eq_refl) as H0. cbn [after_text] in H0. cbn [search]. rewrite H0. reflexivity.
  - pose proof (H [] s eq_refl) as H0. cbn [after_text] in H0. cbn [search]. rewrite H0. cbn [snd]. destruct s as [|c s]; [reflexivity|]. inversion L; subst.
    rewrite decode_low by assumption. cbn [snd firstn skipn]. change (last_byte [c]) with (Some c). rewrite IH; [reflexivity | assumption|].
    intros u t E. specialize (H (c :: u) t). rewrite E in H. specialize (H eq_refl). rewrite (after_cons pv). exact H.
Qed.
Lemma replace_none_at : forall n r f a pv (s : str), lows s -> (forall u t : str, s = u ++ t -> match_at r (after_text pv u, t) = None) -> replace_matches n r f a (pv, s) = s.
Proof. intros [|n] r f a pv s L H; [reflexivity|]. cbn [replace_matches snd]. rewrite search_none_at; [reflexivity | exact L | exact H]. Qed.

Lemma alt_left : forall R a b p g (k : place -> groups -> option R) x, rmatch a p g k = Some x -> rmatch (RAlt a b) p g k = Some x.
Proof. intros R a b p g k x H. cbn [rmatch]. rewrite H. reflexivity. Qed.

(** ** Dots at the start of words *)
Definition word_class : rclass := COr (CRange 48 57) (COr (CRange 65 90) (COr (CRange 97 122) (CRange 95 95))).
Definition held_class : rclass := COr (COr (COr CNone word_class) (CRange 41 41)) (CRange 93 93).
Definition path_class : rclass := COr (COr CNone word_class) (CRange 46 46).
Definition dot_re : re :=
  RSeq (RGroup 1 (RAlt RBot (RRune (CNot held_class))))
    (RSeq (RByte (Ascii.eqb ".")) (RAlt (RGroup 2 (RSeq (RRune word_class) (RStar true (RRune path_class)))) RNil)).
Lemma dot_prefix_eq : forall beyond, dot_prefix beyond = {| c_re := dot_re; c_names := [($"value", 2); ($"prefix", 1)] |}.
Proof. intro beyond. vm_compute. reflexivity. Qed.
Definition held (c : ascii) : bool := is_word c || Ascii.eqb c ")" || Ascii.eqb c "]".
Lemma held_in : forall c, in_class held_class (N_of_ascii c) = held c.
Proof. destruct c as [[] [] [] [] [] [] [] []]; reflexivity. Qed.
Lemma word_in : forall c, in_class word_class (N_of_ascii c) = is_word c.
Proof. destruct c as [[] [] [] [] [] [] [] []]; reflexivity. Qed.
Lemma path_in : forall c, in_class path_class (N_of_ascii c) = is_word c || Ascii.eqb c ".".
Proof. destruct c as [[] [] [] [] [] [] [] []]; reflexivity. Qed.
Lemma word_low : forall c, is_word c = true -> low c = true.
Proof. destruct c as [[] [] [] [] [] [] [] []]; intro H; (reflexivity || discriminate H). Qed.

(** Every dot stands behind a character of a word or a parenthesis. *)
Fixpoint dots_held (before : bool) (s : str) : bool :=
  match s with
  | [] => true
  | c :: s => (before || negb (Ascii.eqb c ".")) && dots_held (held c) s
  end.
Definition after_held (pv : option ascii) : bool := match pv with Some c => held c | None => false end.
Lemma dots_app : forall a b h, dots_held h (a ++ b) = dots_held h a && dots_held (match a with [] => h | _ => after_held (last_byte a) end) b.
Proof.
  induction a as [|c a IH]; intros b h; [reflexivity|]. cbn [app dots_held]. rewrite IH, andb_assoc. f_equal.
  f_equal. destruct a as [|d a]; [reflexivity|]. f_equal. symmetry. apply (last_byte_app [c] (d :: a)). discriminate.
Qed.
Lemma dot_none : forall pv t, lows t -> dots_held (match pv with None => false | _ => true end) t = true -> match_at dot_re (pv, t) = None.
Proof.
  intros pv t L D. unfold match_at, dot_re. cbn [rmatch fst snd]. destruct t as [|c t].
  - destruct pv; reflexivity.
  - inversion L; subst. cbn [dots_held] in D. apply andb_true_iff in D. destruct D as [D1 D2].
    assert (A : match pv with None => (if Ascii.eqb "." c then Some tt else None) | Some _ => None end = None).
    { destruct pv; [reflexivity|]. cbn [orb] in D1. rewrite Ascii.eqb_sym. destruct (Ascii.eqb c "."); [discriminate D1 | reflexivity]. }
    assert (X : match decode (c :: t) with (r, w) => (r, w) end = (N_of_ascii c, 1)) by (rewrite decode_low by assumption; reflexivity).
    rewrite decode_low by assumption. cbn [snd firstn skipn].
    assert (B : (if in_class (CNot held_class) (N_of_ascii c) then match t with c0 :: s => if Ascii.eqb "." c0 then Some tt else None | [] => None end else None) = None).
    { cbn [in_class]. rewrite held_in. destruct (held c); [reflexivity|]. cbn [negb]. destruct t as [|d t]; [reflexivity|]. cbn [dots_held orb] in D2.
      rewrite Ascii.eqb_sym. destruct (Ascii.eqb d "."); [discriminate D2 | reflexivity]. }
    clear X. revert A B. destruct (in_class (CNot held_class) (N_of_ascii c)); destruct pv; destruct (Ascii.eqb "." c); intros A B; try discriminate A; try reflexivity;
      (destruct t as [|d t]; [reflexivity|]; destruct (Ascii.eqb "." d); [discriminate B | reflexivity]).
Qed.
Lemma dots_rest : forall u t h, dots_held h (u ++ t) = true -> dots_held (match u with [] => h | _ => true end) t = true.
Proof.
  assert (M : forall t h, dots_held h t = true -> dots_held true t = true).
  { intros [|c t] h H; [reflexivity|]. cbn [dots_held] in *. apply andb_true_iff in H. destruct H as [_ H]. exact H. }
  intros u t h H. rewrite dots_app in H. apply andb_true_iff in H. destruct H as [_ H]. destruct u; [exact H | exact (M _ _ H)].
Qed.
Lemma dot_idle : forall n f a pv s, lows s -> dots_held (match pv with None => false | _ => true end) s = true -> replace_matches n dot_re f a (pv, s) = s.
Proof.
  intros n f a pv s L D. apply replace_none_at; [exact L|]. intros u t E. subst s. apply dot_none.
  - apply Forall_app in L. apply L.
  - pose proof (dots_rest u t _ D) as Q. destruct u as [|c u]; [exact Q|]. unfold after_text. destruct (last_byte (c :: u)) as [x|] eqn:LB; [exact Q|].
    exfalso. unfold last_byte in LB. cbn [rev] in LB. destruct (rev u ++ [c]) eqn:R; [apply app_eq_nil in R; destruct R; discriminate | discriminate LB].
Qed.
Definition dot_repl : str := $"${prefix}__DoTPrefix__${value}".
Lemma dots_idle : forall beyond s, lows s -> dots_held false s = true -> replace_all_string (dot_prefix beyond) dot_repl s = s.
Proof. intros beyond s L D. unfold replace_all_string. rewrite dot_prefix_eq. unfold replace_re. apply dot_idle; assumption. Qed.
Lemma path_match : forall c r (t : str) g, is_word c = true -> Forall (fun c => is_word c || Ascii.eqb c "." = true) r -> stops path_class t ->
  rmatch (RAlt (RGroup 2 (RSeq (RRune word_class) (RStar true (RRune path_class)))) RNil) (Some ".", (c :: r) ++ t) g (fun q g => Some (q, g)) = Some ((last_byte (c :: r), t), (2, c :: r) :: g).
Proof.
  intros c r t g WC WR ST.
  assert (FR : Forall (fun c => low c = true /\ in_class path_class (N_of_ascii c) = true) r).
  { eapply Forall_impl; [|exact WR]. intros d H. rewrite path_in. split; [|exact H]. apply orb_true_iff in H. destruct H as [H|H]; [exact (word_low d H)|]. apply Ascii.eqb_eq in H. subst. reflexivity. }
  apply alt_left. change (rmatch (RRune word_class) (Some ".", c :: r ++ t) g
    (fun p g => star_loop true (fun p g k => rmatch (RRune path_class) p g k) (fun p' g' => Some (p', (2, taken (Some ".", (c :: r) ++ t) p') :: g')) (length (snd p)) p g) = Some ((last_byte (c :: r), t), (2, c :: r) :: g)).
  rewrite rune_low by exact (word_low c WC). rewrite word_in, WC. apply star_class; [exact ST | exact FR | cbn [snd]; rewrite app_length; lia|].
  rewrite (after_cons (Some ".")). rewrite taken_app. reflexivity.
Qed.
Lemma taken_none : forall p, taken p p = [].
Proof. intro p. unfold taken. rewrite Nat.sub_diag. reflexivity. Qed.
Lemma dot_match : forall w (t : str) c r, w = c :: r -> is_word c = true -> Forall (fun c => is_word c || Ascii.eqb c "." = true) r -> stops path_class t ->
  match_at dot_re (None, ("." :: w) ++ t) = Some ((last_byte w, t), [(2, w); (1, [])]).
Proof.
  intros w t c r E WC WR ST. subst w. unfold match_at.
  assert (H : rmatch (RSeq (RByte (Ascii.eqb ".")) (RAlt (RGroup 2 (RSeq (RRune word_class) (RStar true (RRune path_class)))) RNil)) (None, ("." :: c :: r) ++ t) [(1, [])] (fun q g => Some (q, g)) = Some ((last_byte (c :: r), t), [(2, c :: r); (1, [])])) by exact (path_match c r t [(1, [])] WC WR ST).
  rewrite <- (taken_none (None, ("." :: c :: r) ++ t)) in H at 1. unfold dot_re. revert H. generalize (("." :: c :: r) ++ t). generalize (RSeq (RByte (Ascii.eqb ".")) (RAlt (RGroup 2 (RSeq (RRune word_class) (RStar true (RRune path_class)))) RNil)). intros R0 s H.
  exact (alt_left _ RBot (RRune (CNot held_class)) (None, s) [] (fun p' g' => rmatch R0 p' ((1, taken (None, s) p') :: g') (fun q g => Some (q, g))) _ H).
Qed.
Lemma dot_expand : forall m w, expand (named_group [($"value", 2); ($"prefix", 1)] m [(2, w); (1, [])]) dot_repl = dot_rep ++ w.
Proof. intros m w. transitivity (dot_rep ++ w ++ []); [vm_compute; reflexivity | rewrite app_nil_r; reflexivity]. Qed.
Lemma dots_start : forall beyond w t c r, w = c :: r -> is_word c = true -> Forall (fun c => is_word c || Ascii.eqb c "." = true) r -> stops path_class t -> lows t -> dots_held true t = true ->
  replace_all_string (dot_prefix beyond) dot_repl ("." :: w ++ t) = dot_rep ++ w ++ t.
Proof.
  intros beyond w t c r E WC WR ST L D. unfold replace_all_string. rewrite dot_prefix_eq. unfold replace_re. cbn [c_re c_names].
  pose proof (dot_match w t c r E WC WR ST) as M.
  assert (N : last_byte w <> None).
  { subst w. intro LB. unfold last_byte in LB. cbn [rev] in LB. destruct (rev r ++ [c]) eqn:R; [apply app_eq_nil in R; destruct R; discriminate | discriminate LB]. }
  generalize (length ("." :: w ++ t)). intro n.
  eapply eq_trans; [exact (replace_skip n dot_re _ false [] ("." :: w) t None (last_byte w) [(2, w); (1, [])] ltac:(discriminate) eq_refl (fun v x V X => False_ind _ (X (proj2 (app_eq_nil v x (eq_sym V))))) M)|].
  cbn beta. rewrite dot_expand, dot_idle; [cbn [app]; rewrite app_assoc; reflexivity | exact L|]. destruct (last_byte w); [exact D | contradiction N; reflexivity].
Qed.
