(** The completion of indexes and slices. *)
From Coq Require Import String Ascii List ZArith NArith Bool Lia ZifyBool ZifyN.
From Verif Require Import GoStr GoStrFacts Utf8 Utf8Facts RazorWordsModel ReModel ReSyntaxModel RazorAssignModel ReSound RazorRefMain RazorAsgMatch RazorAsgDoc IdxSpec.
Import ListNotations.
Local Open Scope char_scope.

(** ** Replacing texts *)
Lemma all_step : forall old new c s, has_prefix old (c :: s) = false -> replace_all old new (c :: s) = c :: replace_all old new s.
Proof.
  intros old new c s H. unfold replace_all. rewrite (split_eq_nosep old c s H). pose proof (split_nonnil old s) as N.
  destruct (split old s) as [|x [|y l]]; [congruence | reflexivity | reflexivity].
Qed.
Lemma all_match : forall old new s, old <> [] -> replace_all old new (old ++ s) = new ++ replace_all old new s.
Proof.
  intros old new s N. unfold replace_all. rewrite (split_eq_sep old s N). pose proof (split_nonnil old s) as M. destruct (split old s) as [|x l]; [congruence | reflexivity].
Qed.
Lemma all_skip : forall c o new x y, ~ In c x -> replace_all (c :: o) new (x ++ y) = x ++ replace_all (c :: o) new y.
Proof.
  intros c o new x y. induction x as [|d x IH]; intros N; [reflexivity|]. cbn [app]. rewrite all_step, IH; [reflexivity | intros I; apply N; right; exact I|].
  cbn [has_prefix]. destruct (Ascii.eqb c d) eqn:E; [|reflexivity]. apply Ascii.eqb_eq in E. subst d. exfalso. apply N. left; reflexivity.
Qed.
Lemma second : forall a b c s, a <> c -> has_prefix [b; a] (b :: c :: s) = false.
Proof. intros a b c s N. cbn [has_prefix]. rewrite Ascii.eqb_refl. destruct (Ascii.eqb a c) eqn:X; [apply Ascii.eqb_eq in X; congruence | reflexivity]. Qed.
Lemma flat_open : forall s, flat s -> ~ In "[" s. Proof. intros s F. apply F. left; reflexivity. Qed.
Lemma flat_close : forall s, flat s -> ~ In "]" s. Proof. intros s F. apply F. right; left; reflexivity. Qed.
Lemma flat_colon : forall s, flat s -> ~ In ":" s. Proof. intros s F. apply F. right; right; left; reflexivity. Qed.

Definition parts_ok (l : list (str * inside)) : Prop := Forall (fun p => flat (fst p) /\ inside_ok (snd p)) l.
(** The three replacements of texts, inside of the brackets *)
Definition whole (x : inside) : inside := match x with Index [] => Slice $"0" $"-1" | _ => x end.
Definition start0 (x : inside) : inside := match x with Slice [] b => Slice $"0" b | _ => x end.
Definition stop1 (x : inside) : inside := match x with Slice a [] => Slice a $"-1" | _ => x end.
Definition on (f : inside -> inside) (l : list (str * inside)) : list (str * inside) := map (fun p => (fst p, f (snd p))) l.
Lemma flat_lit : forall s, forallb (fun c => negb (Ascii.eqb c "[" || Ascii.eqb c "]" || Ascii.eqb c ":")) s = true -> flat s.
Proof.
  intros s H c I J. rewrite forallb_forall in H. specialize (H c J). destruct I as [<-|[<-|[<-|[]]]]; discriminate H.
Qed.
Lemma on_ok : forall f l, (forall x, inside_ok x -> inside_ok (f x)) -> parts_ok l -> parts_ok (on f l).
Proof. intros f l F. induction 1 as [|(t, x) l (A & B) P IH]; [constructor|]. constructor; [split; [exact A | apply F; exact B] | exact IH]. Qed.
Lemma whole_ok : forall x, inside_ok x -> inside_ok (whole x).
Proof. intros [[|c i]|a b] H; try exact H. split; apply flat_lit; reflexivity. Qed.
Lemma start_ok : forall x, inside_ok x -> inside_ok (start0 x).
Proof. intros [i|[|c a] b] H; try exact H. split; [apply flat_lit; reflexivity | apply H]. Qed.

Lemma inside_open : forall x, inside_ok x -> ~ In "[" (inside_text x).
Proof. intros [i|a b] H I; cbn [inside_text inside_ok] in *; [exact (flat_open i H I)|]. apply in_app_or in I. destruct I as [I|[I|I]]; [exact (flat_open a (proj1 H) I) | discriminate I | exact (flat_open b (proj2 H) I)]. Qed.
Lemma whole_done : forall l last, parts_ok l -> flat last -> replace_all $"[]" $"[0:-1]" (bracketed l last) = bracketed (on whole l) last.
Proof.
  intros l last P F. induction P as [|(t, x) l (A & B) P IH].
  - cbn [bracketed on map]. rewrite <- (app_nil_r last) at 1. change $"[]" with ("[" :: $"]"). rewrite (all_skip "[" $"]" $"[0:-1]" last [] (flat_open last F)). cbn. apply app_nil_r.
  - cbn [bracketed on map fst snd] in *. fold (on whole l) in *. cbn [fst] in A. change $"[]" with ("[" :: $"]") at 1. rewrite (all_skip "[" $"]" $"[0:-1]" t _ (flat_open t A)). f_equal.
    destruct x as [[|c i]|a b].
    + change ("[" :: inside_text (Index []) ++ "]" :: bracketed l last) with ($"[]" ++ bracketed l last). change ("[" :: $"]") with $"[]". rewrite all_match by discriminate. rewrite IH. reflexivity.
    + cbn [whole]. rewrite all_step.
      2:{ apply second. intros X. subst c. apply (flat_close _ B). left; reflexivity. }
      f_equal. change ("[" :: $"]") with $"[]" at 1. change ("[" :: $"]") with ("[" :: $"]"). rewrite (all_skip "[" $"]" $"[0:-1]" (inside_text (Index (c :: i))) _ (inside_open (Index (c :: i)) B)). f_equal.
      rewrite all_step by reflexivity. f_equal. exact IH.
    + cbn [whole]. rewrite all_step.
      2:{ cbn [inside_text]. destruct a as [|c a]; [reflexivity|]. apply second. intros X. subst c. apply (flat_close _ (proj1 B)). left; reflexivity. }
      f_equal. rewrite (all_skip "[" $"]" $"[0:-1]" (inside_text (Slice a b)) _ (inside_open (Slice a b) B)). f_equal.
      rewrite all_step by reflexivity. f_equal. exact IH.
Qed.
Lemma start_done : forall l last, parts_ok l -> flat last -> replace_all $"[:" $"[0:" (bracketed l last) = bracketed (on start0 l) last.
Proof.
  intros l last P F. change $"[:" with ("[" :: $":"). induction P as [|(t, x) l (A & B) P IH].
  - cbn [bracketed on map]. rewrite <- (app_nil_r last) at 1. rewrite (all_skip "[" $":" $"[0:" last [] (flat_open last F)). cbn. apply app_nil_r.
  - cbn [bracketed on map fst snd] in *. fold (on start0 l) in *. cbn [fst] in A. rewrite (all_skip "[" $":" $"[0:" t _ (flat_open t A)). f_equal.
    destruct x as [i|[|c a] b].
    + cbn [start0]. rewrite all_step.
      2:{ cbn [inside_text]. destruct i as [|c i]; [reflexivity|]. apply second. intros X. subst c. apply (flat_colon _ B). left; reflexivity. }
      f_equal. rewrite (all_skip "[" $":" $"[0:" (inside_text (Index i)) _ (inside_open (Index i) B)). f_equal. rewrite all_step by reflexivity. f_equal. exact IH.
    + change ("[" :: inside_text (Slice [] b) ++ "]" :: bracketed l last) with (("[" :: $":") ++ b ++ "]" :: bracketed l last). rewrite all_match by discriminate.
      rewrite (all_skip "[" $":" $"[0:" b _ (flat_open b (proj2 B))). rewrite all_step by reflexivity. rewrite IH. reflexivity.
    + cbn [start0]. rewrite all_step.
      2:{ apply second. intros X. subst c. apply (flat_colon _ (proj1 B)). left; reflexivity. }
      f_equal. rewrite (all_skip "[" $":" $"[0:" (inside_text (Slice (c :: a) b)) _ (inside_open (Slice (c :: a) b) B)). f_equal. rewrite all_step by reflexivity. f_equal. exact IH.
Qed.
Lemma stop_done : forall l last, parts_ok l -> flat last -> replace_all $":]" $":-1]" (bracketed l last) = bracketed (on stop1 l) last.
Proof.
  intros l last P F. change $":]" with (":" :: $"]"). induction P as [|(t, x) l (A & B) P IH].
  - cbn [bracketed on map]. rewrite <- (app_nil_r last) at 1. rewrite (all_skip ":" $"]" $":-1]" last [] (flat_colon last F)). cbn. apply app_nil_r.
  - cbn [bracketed on map fst snd] in *. fold (on stop1 l) in *. cbn [fst] in A. rewrite (all_skip ":" $"]" $":-1]" t _ (flat_colon t A)). f_equal. rewrite all_step by reflexivity.
    destruct x as [i|a b]; cbn [inside_text].
    + cbn [stop1 inside_text]. f_equal. rewrite (all_skip ":" $"]" $":-1]" i _ (flat_colon i B)). f_equal. rewrite all_step by reflexivity. f_equal. exact IH.
    + destruct B as (B1 & B2). rewrite <- app_assoc. rewrite (all_skip ":" $"]" $":-1]" a _ (flat_colon a B1)). destruct b as [|c b].
      * cbn [stop1 inside_text]. change ((":" :: []) ++ "]" :: bracketed l last) with ((":" :: $"]") ++ bracketed l last). rewrite all_match by discriminate. rewrite IH. rewrite <- app_assoc. reflexivity.
      * cbn [stop1 inside_text]. rewrite <- app_assoc. f_equal. f_equal. change ((":" :: c :: b) ++ "]" :: bracketed l last) with (":" :: (c :: b) ++ "]" :: bracketed l last). rewrite all_step.
        2:{ apply second. intros X. subst c. apply (flat_close _ B2). left; reflexivity. }
        change ((":" :: c :: b) ++ "]" :: bracketed (on stop1 l) last) with (":" :: (c :: b) ++ "]" :: bracketed (on stop1 l) last). f_equal.
        rewrite (all_skip ":" $"]" $":-1]" (c :: b) _ (flat_colon _ B2)). f_equal. rewrite all_step by reflexivity. f_equal. exact IH.
Qed.

(** ** The expression of negative numbers *)
Definition digit (c : ascii) : Prop := (48 <= N_of_ascii c <= 57)%N.
Definition digits_re : re := RSeq (RRune (CRange 48 57)) (RStar true (RRune (CRange 48 57))).
Definition minus_re : re := RSeq (RByte (Ascii.eqb "-")) digits_re.
Definition tail_re : re := RSeq (RByte (Ascii.eqb ":")) (RByte (Ascii.eqb "]")).
Definition neg_re : re := RSeq (RByte (Ascii.eqb "[")) (RSeq (RGroup 1 minus_re) tail_re).
Lemma neg_compiled : forall beyond, c_re (negative_slice beyond) = neg_re /\ c_names (negative_slice beyond) = [($"index", 1)].
Proof. intro beyond. split; vm_compute; reflexivity. Qed.
Lemma eats_one : forall f s t, eats (RByte f) s t -> exists c, f c = true /\ s = c :: t.
Proof. intros f s t H. inversion H; subst. eexists. split; [eassumption | reflexivity]. Qed.
Lemma high_rune : forall c s, low c = false -> (128 <= fst (decode (c :: s)))%N.
Proof.
  intros c s H. unfold low in H. unfold decode. rewrite H.
  destruct ((194 <=? N_of_ascii c) && (N_of_ascii c <=? 223))%N eqn:A.
  { destruct s as [|b s]; [cbn; unfold rune_error; lia|]. destruct (within 128 191 b) eqn:B; [|cbn; unfold rune_error; lia].
    unfold within in B. cbn [fst]. lia. }
  destruct ((224 <=? N_of_ascii c) && (N_of_ascii c <=? 239))%N eqn:A2.
  { destruct s as [|b [|d s]]; try (cbn; unfold rune_error; lia).
    destruct (within (if (N_of_ascii c =? 224)%N then 160 else 128) (if (N_of_ascii c =? 237)%N then 159 else 191) b && within 128 191 d) eqn:B; [|cbn; unfold rune_error; lia].
    unfold within in B. cbn [fst]. destruct (N_of_ascii c =? 224)%N eqn:X; lia. }
  destruct ((240 <=? N_of_ascii c) && (N_of_ascii c <=? 244))%N eqn:A3; [|cbn; unfold rune_error; lia].
  destruct s as [|b [|d [|e s]]]; try (cbn; unfold rune_error; lia).
  destruct (within (if (N_of_ascii c =? 240)%N then 144 else 128) (if (N_of_ascii c =? 244)%N then 143 else 191) b && within 128 191 d && within 128 191 e) eqn:B; [|cbn; unfold rune_error; lia].
  unfold within in B. cbn [fst]. destruct (N_of_ascii c =? 240)%N eqn:X; lia.
Qed.
Lemma eats_digit : forall s t, eats (RRune (CRange 48 57)) s t -> exists c, digit c /\ s = c :: t.
Proof.
  intros s t H. inversion H as [| |f s0 N I E1 E2| | | | | | | | | | |]; subst. destruct s as [|c s]; [congruence|]. cbn [in_class] in I. destruct (low c) eqn:L.
  - rewrite (ReSound.decode_low c s L) in *. cbn [fst snd skipn] in *. exists c. split; [unfold digit; lia | reflexivity].
  - pose proof (high_rune c s L). lia.
Qed.
Lemma eats_digits : forall r s t, eats r s t -> r = RStar true (RRune (CRange 48 57)) -> exists d, Forall digit d /\ s = d ++ t.
Proof.
  induction 1; intros E; try discriminate E.
  - exists []. split; [constructor | reflexivity].
  - inversion E; subst. destruct (IHeats2 eq_refl) as (d & D & ->). match goal with X : eats (RRune _) _ _ |- _ => apply eats_digit in X; destruct X as (c & C & ->) end.
    exists (c :: d). split; [constructor; assumption | reflexivity].
Qed.
Lemma eats_neg : forall s t, eats neg_re s t -> exists d, d <> [] /\ Forall digit d /\ s = "[" :: ("-" :: d) ++ ":" :: "]" :: t.
Proof.
  intros s t H. apply eats_seq in H. destruct H as (m & A & H). apply eats_seq in H. destruct H as (m2 & B & H). apply eats_group in B.
  apply eats_seq in B. destruct B as (m3 & B & C). apply eats_seq in C. destruct C as (m4 & C & D). apply eats_seq in H. destruct H as (m5 & F & K).
  apply eats_one in A. destruct A as (x & X & ->). apply Ascii.eqb_eq in X. subst x. apply eats_one in B. destruct B as (x & X & ->). apply Ascii.eqb_eq in X. subst x.
  apply eats_digit in C. destruct C as (x & X & ->). apply eats_digits in D; [|reflexivity]. destruct D as (d & D & ->).
  apply eats_one in F. destruct F as (y & Y & ->). apply Ascii.eqb_eq in Y. subst y. apply eats_one in K. destruct K as (y & Y & ->). apply Ascii.eqb_eq in Y. subst y.
  exists (x :: d). split; [discriminate|]. split; [constructor; assumption | reflexivity].
Qed.
Lemma lit_byte : forall a c s k g pv T G0, Ascii.eqb a c = true -> (forall pv, lands (k (pv, s) g) T G0) -> lands (rmatch (RByte (Ascii.eqb a)) (pv, c :: s) g k) T G0.
Proof. intros a c s k g pv T G0 E K. cbn. rewrite E. apply K. Qed.
Lemma digit_low : forall c, digit c -> low c = true /\ in_class (CRange 48 57) (N_of_ascii c) = true.
Proof. intros c D. unfold digit in D. unfold low. cbn [in_class]. lia. Qed.
Lemma neg_match : forall pv d t, d <> [] -> Forall digit d -> exists q, match_at neg_re (pv, ("[" :: ("-" :: d) ++ $":]") ++ t) = Some ((q, t), [(1, "-" :: d)]).
Proof.
  intros pv d t N D. destruct d as [|x d]; [congruence|]. assert (DX : digit x /\ Forall digit d) by (inversion D; split; assumption). destruct DX as (DX & DD).
  change (lands (match_at neg_re (pv, ("[" :: ("-" :: x :: d) ++ $":]") ++ t)) t [(1, "-" :: x :: d)]). unfold match_at, neg_re.
  replace (("[" :: ("-" :: x :: d) ++ $":]") ++ t) with ("[" :: ("-" :: x :: d) ++ ":" :: "]" :: t) by (cbn [app]; rewrite <- app_assoc; reflexivity).
  apply seq_lands, lit_byte; [reflexivity|]. intro pv1. apply seq_lands. apply group_lands.
  - intros k' K. unfold minus_re, digits_re. cbn [app]. apply seq_lands, lit_byte; [reflexivity|]. intro pv2. apply plus_lands.
    + split; reflexivity.
    + apply (digit_low x DX).
    + apply (digit_low x DX).
    + eapply Forall_impl; [|exact DD]. exact digit_low.
    + exact K.
  - intro pv3. unfold tail_re. apply seq_lands, lit_byte; [reflexivity|]. intro pv4. apply lit_byte; [reflexivity|]. intro pv5. exists pv5. reflexivity.
Qed.

(** ** Texts where the expression does not match *)
Definition quiet (u : str) : Prop := forall v w, u = v ++ w -> w <> [] -> forall s t, ~ eats neg_re (w ++ s) t.
Lemma suffix_app : forall (u v a b : str), u ++ v = a ++ b -> (exists w, u = a ++ w /\ b = w ++ v) \/ (exists z, v = z ++ b).
Proof.
  induction u as [|c u IH]; intros v a b E; [right; exists a; exact E|]. destruct a as [|d a]; [left; exists (c :: u); split; [reflexivity | symmetry; exact E]|].
  cbn [app] in E. injection E as -> E. destruct (IH _ _ _ E) as [(w & -> & ->)|(z & ->)]; [left; exists w; split; reflexivity | right; exists z; reflexivity].
Qed.
Lemma quiet_app : forall u v, quiet u -> quiet v -> quiet (u ++ v).
Proof.
  intros u v U V a b E N s t. destruct (suffix_app _ _ _ _ E) as [(w & A & ->)|(z & ->)].
  - destruct w as [|c w].
    + cbn [app] in *. exact (V [] v eq_refl N s t).
    + rewrite <- app_assoc. exact (U a (c :: w) A ltac:(discriminate) (v ++ s) t).
  - exact (V z b eq_refl N s t).
Qed.
Lemma quiet_flat : forall u, ~ In "[" u -> quiet u.
Proof.
  intros u F v w E N s t H. destruct w as [|c w]; [congruence|]. apply eats_neg in H. destruct H as (d & _ & _ & X). cbn [app] in X. injection X as -> _.
  apply F. rewrite E. apply in_or_app. right; left; reflexivity.
Qed.
Lemma cut_unique : forall (c : ascii) a a' b b', ~ In c a -> ~ In c a' -> a ++ c :: b = a' ++ c :: b' -> a = a' /\ b = b'.
Proof.
  intros c. induction a as [|x a IH]; intros [|y a'] b b' N N' E; cbn [app] in E.
  - injection E as E. split; [reflexivity | exact E].
  - injection E as <- _. exfalso. apply N'. left; reflexivity.
  - injection E as -> _. exfalso. apply N. left; reflexivity.
  - injection E as -> E. destruct (IH a' b b') as (-> & ->); [intros I; apply N; right; exact I | intros I; apply N'; right; exact I | exact E | split; reflexivity].
Qed.
Lemma digits_free : forall d c, Forall digit d -> (N_of_ascii c < 48 \/ 57 < N_of_ascii c)%N -> ~ In c d.
Proof. intros d c D H I. rewrite Forall_forall in D. specialize (D c I). unfold digit in D. lia. Qed.
Definition tail_slice (x : inside) : Prop := exists a, x = Slice a [] /\ negative_number a.
Lemma inside_close : forall x, inside_ok x -> ~ In "]" (inside_text x).
Proof. intros [i|a b] H I; cbn [inside_text inside_ok] in *; [exact (flat_close i H I)|]. apply in_app_or in I. destruct I as [I|[I|I]]; [exact (flat_close a (proj1 H) I) | discriminate I | exact (flat_close b (proj2 H) I)]. Qed.
Lemma quiet_inside : forall x, inside_ok x -> ~ tail_slice x -> quiet ("[" :: inside_text x ++ $"]").
Proof.
  intros x O T v w E N s t H. destruct v as [|c v].
  - cbn [app] in E. subst w. apply eats_neg in H. destruct H as (d & D & FD & X). cbn [app] in X. injection X as X. rewrite <- app_assoc in X. cbn [app] in X.
    change ("-" :: d ++ ":" :: "]" :: t) with (("-" :: d) ++ ":" :: "]" :: t) in X.
    replace (("-" :: d) ++ ":" :: "]" :: t) with ((("-" :: d) ++ $":") ++ "]" :: t) in X by (rewrite <- app_assoc; reflexivity).
    apply cut_unique in X; [|apply inside_close; exact O|].
    2:{ intros I. apply in_app_or in I. destruct I as [[I|I]|[I|[]]]; [discriminate I | revert I; apply (digits_free d _ FD); vm_compute; right; reflexivity | discriminate I]. }
    destruct X as (X & _). destruct x as [i|a b]; cbn [inside_text inside_ok] in *.
    + apply (flat_colon i O). rewrite X. apply in_or_app. right; left; reflexivity.
    + change (("-" :: d) ++ $":") with (("-" :: d) ++ ":" :: []) in X. apply cut_unique in X; [|exact (flat_colon a (proj1 O))|].
      2:{ intros [I|I]; [discriminate I | revert I; apply (digits_free d _ FD); vm_compute; right; reflexivity]. }
      destruct X as (-> & ->). apply T. exists ("-" :: d). split; [reflexivity|]. exists d. split; [exact D|]. split; [|reflexivity]. rewrite Forall_forall in FD. exact FD.
  - cbn [app] in E. injection E as _ E. revert H. apply (quiet_flat (inside_text x ++ $"]")) with (v := v); [|exact E | exact N].
    intros I. apply in_app_or in I. destruct I as [I|[I|[]]]; [exact (inside_open x O I) | discriminate I].
Qed.

(** ** The first replacement *)
Definition is_digit (c : ascii) : bool := ((48 <=? N_of_ascii c) && (N_of_ascii c <=? 57))%N.
Definition is_negative (s : str) : bool := match s with "-" :: (_ :: _) as d => forallb is_digit d | _ => false end.
Lemma negative_iff : forall s, is_negative s = true <-> negative_number s.
Proof.
  assert (DG : forall d, forallb is_digit d = true <-> forall c, In c d -> (48 <= N_of_ascii c <= 57)%N).
  { intros d. rewrite forallb_forall. split; intros H c I; specialize (H c I); unfold is_digit in *; lia. }
  intros s. split.
  - intros H. destruct s as [|c [|e d]]; try discriminate H; [destruct c as [[] [] [] [] [] [] [] []]; discriminate H|].
    assert (C : c = "-") by (destruct c as [[] [] [] [] [] [] [] []]; try discriminate H; reflexivity). subst c. cbn [is_negative] in H.
    exists (e :: d). split; [discriminate|]. split; [apply DG; exact H | reflexivity].
  - intros (d & N & D & ->). destruct d as [|e d]; [congruence|]. cbn [is_negative]. apply DG. exact D.
Qed.
Definition neg0 (x : inside) : inside := match x with Slice a [] => if is_negative a then Slice a $"0" else x | _ => x end.
Lemma neg_ok : forall x, inside_ok x -> inside_ok (neg0 x).
Proof. intros [i|a [|c b]] H; try exact H. cbn [neg0]. destruct (is_negative a); [|exact H]. split; [apply H | apply flat_lit; reflexivity]. Qed.
Lemma neg_cases : forall x, (tail_slice x /\ exists d, d <> [] /\ Forall digit d /\ x = Slice ("-" :: d) [] /\ neg0 x = Slice ("-" :: d) $"0") \/ (~ tail_slice x /\ neg0 x = x).
Proof.
  intros [i|a [|c b]].
  - right. split; [intros (a & E & _); discriminate E | reflexivity].
  - cbn [neg0]. destruct (is_negative a) eqn:E.
    + apply negative_iff in E. left. split; [exists a; split; [reflexivity | exact E]|]. destruct E as (d & N & D & ->). exists d. split; [exact N|]. split; [apply Forall_forall; exact D | split; reflexivity].
    + right. split; [|reflexivity]. intros (a' & X & M). injection X as <-. apply negative_iff in M. exact (diff_true_false (eq_trans (eq_sym M) E)).
  - right. split; [intros (a' & E & _); discriminate E | reflexivity].
Qed.
Lemma bracketed_length : forall l last, (length l <= length (bracketed l last))%nat.
Proof. induction l as [|(t, x) l IH]; intros last; cbn [bracketed length]; [lia|]. rewrite app_length. cbn [length]. rewrite app_length. cbn [length]. specialize (IH last). lia. Qed.
Lemma neg_steps : forall f, (forall m d, f m [(1, "-" :: d)] = "[" :: ("-" :: d) ++ $":0]") ->
  forall l last, parts_ok l -> flat last -> forall n a pv u, (length l < n)%nat -> quiet u ->
  replace_matches n neg_re f a (pv, u ++ bracketed l last) = u ++ bracketed (on neg0 l) last.
Proof.
  intros f F l last P L. induction P as [|(t, x) l (A & B) P IH]; intros n a pv u M Q.
  - cbn [on map bracketed]. apply (replace_none n neg_re f a (pv, u ++ last)). cbn [snd]. intros v w E t' H.
    destruct w as [|c w]; [apply eats_neg in H; destruct H as (d & _ & _ & X); discriminate X|].
    apply (quiet_app u last Q (quiet_flat last (flat_open last L)) v (c :: w) E ltac:(discriminate) [] t'). rewrite app_nil_r. exact H.
  - cbn [bracketed on map fst snd length] in *. fold (on neg0 l). destruct n as [|n]; [lia|]. destruct (neg_cases x) as [(TS & d & D & FD & -> & ->)|(NT & ->)].
    + cbn [inside_text]. 
      replace (u ++ t ++ "[" :: (("-" :: d) ++ ":" :: []) ++ "]" :: bracketed l last) with ((u ++ t) ++ ("[" :: ("-" :: d) ++ $":]") ++ bracketed l last).
      2:{ rewrite <- !app_assoc. cbn [app]. rewrite <- !app_assoc. reflexivity. }
      assert (QT : quiet (u ++ t)) by (apply quiet_app; [exact Q | apply quiet_flat, flat_open; exact A]).
      destruct (neg_match (after_text pv (u ++ t)) d (bracketed l last) D FD) as (q & MA).
      rewrite (replace_skip n neg_re f a (u ++ t) ("[" :: ("-" :: d) ++ $":]") (bracketed l last) pv q _ ltac:(discriminate) eq_refl (fun v w E N t' => QT v w E N _ t') MA).
      rewrite F. pose proof (IH n true q [] ltac:(lia)) as R. cbn [app] in R. rewrite R by (intros v w E N; destruct v, w; try discriminate E; congruence).
      rewrite <- !app_assoc. cbn [app]. rewrite <- !app_assoc. reflexivity.
    + replace (u ++ t ++ "[" :: inside_text x ++ "]" :: bracketed l last) with ((u ++ t ++ "[" :: inside_text x ++ $"]") ++ bracketed l last).
      2:{ rewrite <- !app_assoc. cbn [app]. rewrite <- !app_assoc. reflexivity. }
      rewrite IH; [|lia | apply quiet_app; [exact Q | apply quiet_app; [apply quiet_flat, flat_open; exact A | apply quiet_inside; assumption]]].
      rewrite <- !app_assoc. cbn [app]. rewrite <- !app_assoc. reflexivity.
Qed.
Lemma neg_expand : forall m d, expand (named_group [($"index", 1)] m [(1, "-" :: d)]) $"[${index}:0]" = "[" :: ("-" :: d) ++ $":0]".
Proof. intros m d. vm_compute. reflexivity. Qed.
Lemma neg_done : forall beyond l last, parts_ok l -> flat last -> replace_all_string (negative_slice beyond) $"[${index}:0]" (bracketed l last) = bracketed (on neg0 l) last.
Proof.
  intros beyond l last P F. unfold replace_all_string, replace_re. destruct (neg_compiled beyond) as (-> & ->).
  match goal with |- replace_matches _ _ ?f _ _ = _ => pose proof (neg_steps f neg_expand l last P F (S (length (bracketed l last))) false None []) as H end.
  cbn [app] in H. apply H.
  - pose proof (bracketed_length l last). lia.
  - intros v w E N. destruct v, w; try discriminate E; congruence.
Qed.

(** ** All of them *)
Definition finished (x : inside) : inside := stop1 (start0 (whole (neg0 x))).
Lemma finished_completed : forall x, inside_ok x -> completed x (finished x).
Proof.
  intros [[|c i]|a b] O.
  - exact Everything.
  - exact (One (c :: i) ltac:(discriminate)).
  - assert (FS : exists a', from_start a a' /\ forall b, start0 (Slice a b) = Slice a' b).
    { destruct a as [|c a]; [exists $"0"; split; [left; split; reflexivity | reflexivity] | exists (c :: a); split; [right; split; [discriminate | reflexivity] | reflexivity]]. }
    destruct FS as (a' & FS & ST). destruct b as [|c b].
    + unfold finished. cbn [neg0]. destruct (is_negative a) eqn:E.
      * cbn [whole]. apply negative_iff in E. assert (X : a' = a). { destruct FS as [(-> & _)|(_ & ->)]; [destruct E as (d & _ & _ & X); discriminate X | reflexivity]. } subst a'. rewrite ST. exact (Tail a E).
      * cbn [whole]. rewrite ST. cbn [stop1]. apply ToLast; [|exact FS]. intros M. apply negative_iff in M. exact (diff_true_false (eq_trans (eq_sym M) E)).
    + unfold finished. cbn [neg0 whole]. rewrite ST. cbn [stop1]. apply Both; [discriminate | exact FS].
Qed.
Lemma on_on : forall f g l, on f (on g l) = on (fun x => f (g x)) l.
Proof. intros f g l. unfold on. rewrite map_map. reflexivity. Qed.
Lemma indexes_finished : forall beyond l last, parts_ok l -> flat last -> index_expression beyond (bracketed l last) = bracketed (on finished l) last.
Proof.
  intros beyond l last P F. unfold index_expression. rewrite (neg_done beyond l last P F).
  pose proof (on_ok neg0 l neg_ok P) as P1. rewrite (whole_done _ _ P1 F). pose proof (on_ok whole _ whole_ok P1) as P2. rewrite (start_done _ _ P2 F).
  pose proof (on_ok start0 _ start_ok P2) as P3. rewrite (stop_done _ _ P3 F). rewrite !on_on. reflexivity.
Qed.
Lemma completed_unique : forall x y, inside_ok x -> completed x y -> y = finished x.
Proof.
  assert (FSU : forall a a' b, from_start a a' -> start0 (Slice a b) = Slice a' b).
  { intros a a' b [(-> & ->)|(N & ->)]; [reflexivity|]. destruct a; [congruence | reflexivity]. }
  intros x y O C. destruct C as [|i N|a a' b N FS|a a' NN FS|a NN].
  - reflexivity.
  - destruct i; [congruence | reflexivity].
  - destruct b as [|c b]; [congruence|]. unfold finished. cbn [neg0 whole]. rewrite (FSU a a' _ FS). reflexivity.
  - unfold finished. cbn [neg0]. destruct (is_negative a) eqn:E; [apply negative_iff in E; contradiction|]. cbn [whole]. rewrite (FSU a a' _ FS). reflexivity.
  - unfold finished. cbn [neg0]. rewrite (proj2 (negative_iff a) NN). cbn [whole]. destruct NN as (d & _ & _ & ->). reflexivity.
Qed.
Theorem indexes : forall beyond l l' last, Forall (fun p => flat (fst p) /\ inside_ok (snd p)) l -> flat last ->
  Forall2 (fun p q => fst p = fst q /\ completed (snd p) (snd q)) l l' ->
  index_expression beyond (bracketed l last) = bracketed l' last.
Proof.
  intros beyond l l' last P F C. rewrite (indexes_finished beyond l last P F). f_equal. clear F. induction C as [|(t, x) (t', y) l l' (A & B) C IH]; [reflexivity|].
  cbn [fst snd] in *. inversion P as [|? ? (O1 & O2) P']; subst. cbn [on map fst snd] in *. fold (on finished l). rewrite (IH P'). rewrite (completed_unique x y O2 B). reflexivity.
Qed.
Theorem completion_exists : forall x, inside_ok x -> exists y, completed x y.
Proof. intros x O. exists (finished x). exact (finished_completed x O). Qed.
