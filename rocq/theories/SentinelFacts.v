(** Texts in which some words were replaced by sentinels, and back. *)
From Coq Require Import String Ascii List ZArith NArith Bool Lia.
From Verif Require Import GoStr GoStrFacts.
Import ListNotations.

Lemma contains_app_l m a b : contains m (a ++ b) = false -> contains m a = false.
Proof. intro H. apply (contains_app_false m a b H). Qed.
Lemma contains_app_r m a b : contains m (a ++ b) = false -> contains m b = false.
Proof. intro H. apply (contains_app_false m a b H). Qed.
Lemma contains_mid m a b c : contains m (a ++ b ++ c) = false -> contains m b = false.
Proof. intro H. apply contains_app_r in H. apply contains_app_l in H. exact H. Qed.
Lemma not_contains m a x b : contains m (a ++ x ++ b) = false -> contains m x = true -> False.
Proof. intros H K. apply contains_mid in H. congruence. Qed.

(** Equal texts cut at the same letter. *)
Lemma cut_eq : forall (b : ascii) w f t R, f ++ b :: R = w ++ b :: t -> ~ In b w -> exists z, f = w ++ z.
Proof.
  intros b w. induction w as [|x w IH]; intros f t R H N; [exists f; reflexivity|].
  destruct f as [|y f]; cbn [app] in H; inversion H; subst; [exfalso; apply N; left; reflexivity|].
  destruct (IH f t R) as (z & ->); [assumption|intro I; apply N; right; exact I|]. exists z. reflexivity.
Qed.
Lemma cut_both : forall (b : ascii) w w' t R, w ++ b :: t = w' ++ b :: R -> ~ In b w -> ~ In b w' -> w = w' /\ t = R.
Proof.
  intros b w. induction w as [|x w IH]; intros w' t R H N N'; destruct w' as [|y w']; cbn [app] in H; inversion H; subst.
  - auto.
  - exfalso. apply N'. left. reflexivity.
  - exfalso. apply N. left. reflexivity.
  - destruct (IH w' t R) as (-> & ->); auto; intro I; [apply N|apply N']; right; exact I.
Qed.

Section Sentinels.
(** The bracket letter and the word in every sentinel. *)
Variables (b : ascii) (m : str).
Hypothesis m_nonempty : m <> [].

Definition sentinel (s : str) : Prop := exists w, s = b :: w ++ [b] /\ ~ In b w /\ contains m w = true.

(** What may follow a field: nothing or a bracket. *)
Definition follows (R : str) : Prop := R = [] \/ exists R', R = b :: R'.

Lemma no_start : forall s f R, sentinel s -> contains m f = false -> follows R -> f <> [] -> has_prefix s (f ++ R) = false.
Proof.
  intros s f R (w & -> & N & C) F FR NE. destruct (has_prefix (b :: w ++ [b]) (f ++ R)) eqn:H; [|reflexivity]. exfalso.
  apply has_prefix_iff in H. destruct H as (t & H). destruct f as [|c f]; [congruence|]. cbn [app] in H. inversion H as [[E1 H1]]. subst c. clear H. rename H1 into H.
  rewrite <- app_assoc in H. cbn [app] in H. assert (contains m f = false) as F' by (change (b :: f) with ([b] ++ f) in F; apply contains_app_r in F; exact F).
  destruct FR as [->|(R' & ->)].
  - rewrite app_nil_r in H. rewrite H in F'. change (w ++ b :: t) with ([] ++ w ++ b :: t) in F'. exact (not_contains _ _ _ _ F' C).
  - apply cut_eq in H; [|exact N]. destruct H as (z & ->). change (w ++ z) with ([] ++ w ++ z) in F'. exact (not_contains _ _ _ _ F' C).
Qed.

Lemma replace_field : forall s d f R, sentinel s -> contains m f = false -> follows R -> replace_all s d (f ++ R) = f ++ replace_all s d R.
Proof.
  intros s d f R Hs. induction f as [|c f IH]; intros F FR; [reflexivity|]. cbn [app]. rewrite replace_all_cons.
  - rewrite IH; [reflexivity| |exact FR]. change (c :: f) with ([c] ++ f) in F. apply contains_app_r in F. exact F.
  - change (c :: f ++ R) with ((c :: f) ++ R). apply no_start; auto. discriminate.
Qed.

Lemma replace_free : forall s d w R, sentinel s -> ~ In b w -> replace_all s d (w ++ R) = w ++ replace_all s d R.
Proof.
  intros s d w R Hs. induction w as [|c w IH]; intros N; [reflexivity|]. cbn [app]. rewrite replace_all_cons.
  - rewrite IH; [reflexivity|]. intro I. apply N. right. exact I.
  - destruct Hs as (w' & -> & _). destruct (has_prefix (b :: w' ++ [b]) (c :: w ++ R)) eqn:H; [|reflexivity]. apply has_prefix_iff in H. destruct H as (t & H). inversion H. subst. exfalso. apply N. left. reflexivity.
Qed.

Lemma replace_other : forall s s' d f R, sentinel s -> sentinel s' -> s <> s' -> contains m f = false -> follows R ->
  replace_all s d (s' ++ f ++ R) = s' ++ replace_all s d (f ++ R).
Proof.
  intros s s' d f R Hs (w' & -> & N' & C') NE F FR. cbn [app]. rewrite replace_all_cons.
  - f_equal. rewrite <- app_assoc. cbn [app]. rewrite replace_free by assumption. rewrite <- app_assoc. cbn [app]. f_equal.
    rewrite replace_all_cons; [reflexivity|]. destruct Hs as (w & -> & N & C). destruct (has_prefix (b :: w ++ [b]) (b :: f ++ R)) eqn:H; [|reflexivity]. exfalso.
    apply has_prefix_iff in H. destruct H as (t & H). cbn [app] in H. inversion H as [[H1]]. clear H. rewrite <- app_assoc in H1. cbn [app] in H1.
    destruct FR as [->|(R' & ->)].
    + rewrite app_nil_r in H1. rewrite H1 in F. change (w ++ b :: t) with ([] ++ w ++ b :: t) in F. exact (not_contains _ _ _ _ F C).
    + apply cut_eq in H1; [|exact N]. destruct H1 as (z & ->). change (w ++ z) with ([] ++ w ++ z) in F. exact (not_contains _ _ _ _ F C).
  - destruct Hs as (w & -> & N & C). destruct (has_prefix (b :: w ++ [b]) (b :: (w' ++ [b]) ++ f ++ R)) eqn:H; [|reflexivity]. exfalso.
    apply has_prefix_iff in H. destruct H as (t & H). cbn [app] in H. inversion H as [[H1]]. clear H. rewrite <- !app_assoc in H1. cbn [app] in H1.
    apply cut_both in H1; auto. destruct H1 as (-> & _). apply NE. reflexivity.
Qed.

(** Fields each followed by a sentinel, and a last field. *)
Fixpoint flat (T : list (str * str)) (l : str) : str := match T with [] => l | (f, s) :: T' => f ++ s ++ flat T' l end.
Definition good (T : list (str * str)) (l : str) : Prop := Forall (fun fs => contains m (fst fs) = false /\ sentinel (snd fs)) T /\ contains m l = false.

(** The sentinels s become d. *)
Fixpoint put (s d : str) (T : list (str * str)) (l : str) : list (str * str) * str :=
  match T with
  | [] => ([], l)
  | (f, x) :: T' =>
      let (T2, l2) := put s d T' l in
      if str_eqb x s then match T2 with [] => ([], f ++ d ++ l2) | (g, y) :: T3 => ((f ++ d ++ g, y) :: T3, l2) end
      else ((f, x) :: T2, l2)
  end.

Lemma flat_head : forall T l, good T l -> exists f R, flat T l = f ++ R /\ contains m f = false /\ follows R.
Proof.
  intros [|(f, s) T] l (G & L); [exists l, []; split; [symmetry; apply app_nil_r|split; [exact L|left; reflexivity]]|].
  inversion G as [|? ? (Hf & (w & Hs & _)) _]; subst. cbn [fst snd] in *. exists f, (s ++ flat T l). split; [reflexivity|]. split; [exact Hf|]. right. rewrite Hs. eexists. reflexivity.
Qed.

Lemma sentinel_follows : forall s R, sentinel s -> follows (s ++ R).
Proof. intros s R (w & -> & _). right. eexists. reflexivity. Qed.
Lemma sentinel_nonempty : forall s, sentinel s -> s <> [].
Proof. intros s (w & -> & _). discriminate. Qed.

Lemma put_flat : forall s d T l, sentinel s -> good T l -> replace_all s d (flat T l) = let (T', l') := put s d T l in flat T' l'.
Proof.
  intros s d T l Hs. induction T as [|(f, x) T IH]; intros (G & L).
  - cbn [flat put]. rewrite <- (app_nil_r l) at 1. rewrite replace_field; [rewrite replace_all_nil, app_nil_r; reflexivity|assumption|assumption|left; reflexivity].
  - inversion G as [|? ? (Hf & Hx) G']; subst. cbn [fst snd] in *. specialize (IH (conj G' L)). cbn [flat put].
    rewrite replace_field; [|exact Hs|exact Hf|apply sentinel_follows; exact Hx]. destruct (put s d T l) as (T2, l2). destruct (str_eqb x s) eqn:X.
    + apply str_eqb_eq in X. subst x. rewrite replace_all_sep by (apply sentinel_nonempty; exact Hs). rewrite IH. destruct T2 as [|(g, y) T3]; cbn [flat]; rewrite !app_assoc; reflexivity.
    + destruct (flat_head T l (conj G' L)) as (g & R & E & Hg & HR). rewrite E. rewrite replace_other; auto; [|intro; subst; rewrite str_eqb_refl in X; discriminate].
      rewrite <- E, IH. cbn [flat]. reflexivity.
Qed.

(** A text without the letters of m between two texts without m. *)
Lemma contains_split : forall f d g, contains m f = false -> contains m g = false -> d <> [] -> (forall c, In c d -> ~ In c m) -> contains m (f ++ d ++ g) = false.
Proof.
  intros f d g F Gg ND D. destruct (contains m (f ++ d ++ g)) eqn:C; [|reflexivity]. exfalso. apply contains_iff in C. destruct C as (x & y & C).
  destruct d as [|c d]; [congruence|].
  (* the first letter of d is not in m *)
  revert x C F. induction f as [|a f IH]; intros x C F.
  - cbn [app] in C. destruct x as [|z x].
    + cbn [app] in C. destruct m as [|e m']; [congruence|]. cbn [app] in C. inversion C. subst e. apply (D c); left; reflexivity.
    + cbn [app] in C. inversion C as [[E H]]. subst z. clear C. rename H into C.
      assert (Dd : forall c, In c d -> ~ In c m) by (intros; apply D; right; assumption). clear D F ND. revert x C Dd. induction d as [|e d IHd]; intros x C Dd.
      * cbn [app] in C. assert (contains m g = true) by (apply contains_iff; exists x, y; exact C). congruence.
      * cbn [app] in C. destruct x as [|z x].
        -- cbn [app] in C. destruct m as [|e' m']; [congruence|]. cbn [app] in C. inversion C. subst e'. apply (Dd e); left; reflexivity.
        -- cbn [app] in C. inversion C as [[E H]]. subst z. apply (IHd x H). intros; apply Dd; right; assumption.
  - destruct x as [|z x].
    + cbn [app] in C. (* m starts in a :: f: it is inside f or goes over c *)
      assert (L : exists u v, m = u ++ v /\ ((exists w, (a :: f) = u ++ w /\ v = []) \/ (u = a :: f /\ v <> []))).
      { clear IH F. change ((a :: f) ++ (c :: d) ++ g = m ++ y) in C. destruct (le_lt_dec (List.length m) (List.length (a :: f))) as [L|L].
        - exists m, []. split; [symmetry; apply app_nil_r|]. left. exists (skipn (List.length m) (a :: f)). split; [|reflexivity].
          assert (firstn (List.length m) (a :: f) = m).
          { assert (K : firstn (List.length m) ((a :: f) ++ (c :: d) ++ g) = firstn (List.length m) (m ++ y)) by (rewrite C; reflexivity).
            rewrite firstn_app in K. replace (List.length m - List.length (a :: f)) with 0 in K by lia. rewrite app_nil_r in K. rewrite K, firstn_app, firstn_all, Nat.sub_diag. apply app_nil_r. }
          transitivity (firstn (List.length m) (a :: f) ++ skipn (List.length m) (a :: f)); [symmetry; apply firstn_skipn|rewrite H; reflexivity].
        - exists (a :: f), (skipn (List.length (a :: f)) m). split; [|right; split; [reflexivity|]].
          + assert (firstn (List.length (a :: f)) m = a :: f).
            { assert (K : firstn (List.length (a :: f)) ((a :: f) ++ (c :: d) ++ g) = firstn (List.length (a :: f)) (m ++ y)) by (rewrite C; reflexivity).
              rewrite !firstn_app, firstn_all, Nat.sub_diag in K. cbn [firstn] in K. rewrite app_nil_r in K. replace (List.length (a :: f) - List.length m) with 0 in K by lia. cbn [firstn] in K. rewrite app_nil_r in K. symmetry. exact K. }
            transitivity (firstn (List.length (a :: f)) m ++ skipn (List.length (a :: f)) m); [symmetry; apply firstn_skipn|rewrite H; reflexivity].
          + intro Z. assert (List.length (skipn (List.length (a :: f)) m) = 0) by (rewrite Z; reflexivity). rewrite skipn_length in H. lia. }
      destruct L as (u & v & M & [(w & E & ->)|(-> & NV)]).
      * rewrite app_nil_r in M. subst u. assert (contains m (a :: f) = true) by (apply contains_iff; exists [], w; exact E). congruence.
      * rewrite M in C. rewrite <- app_assoc in C. cbn [app] in C. inversion C as [[H]]. apply app_inv_head in H. destruct v as [|e v]; [congruence|]. cbn [app] in H. inversion H. subst e.
        apply (D c); [left; reflexivity|]. rewrite M. apply in_or_app. right. left. reflexivity.
    + cbn [app] in C. inversion C as [[E H]]. subst z. apply (IH x H). change (a :: f) with ([a] ++ f) in F. apply contains_app_r in F. exact F.
Qed.

Lemma put_good : forall s d T l, d <> [] -> (forall c, In c d -> ~ In c m) -> good T l -> let (T', l') := put s d T l in good T' l'.
Proof.
  intros s d T l ND D. induction T as [|(f, x) T IH]; intros (G & L); [split; [constructor|exact L]|].
  inversion G as [|? ? (Hf & Hx) G']; subst. cbn [fst snd] in *. specialize (IH (conj G' L)). cbn [put]. destruct (put s d T l) as (T2, l2). destruct IH as (G2 & L2).
  destruct (str_eqb x s).
  - destruct T2 as [|(g, y) T3]; [split; [constructor|apply contains_split; assumption]|]. inversion G2 as [|? ? (Hg & Hy) G3]; subst. cbn [fst snd] in *.
    split; [|exact L2]. constructor; [split; [apply contains_split; assumption|exact Hy]|exact G3].
  - split; [|exact L2]. constructor; [split; assumption|exact G2].
Qed.

(** The text meant by a text with sentinels. *)
Fixpoint meaning (den : str -> str) (T : list (str * str)) (l : str) : str := match T with [] => l | (f, s) :: T' => f ++ den s ++ meaning den T' l end.
Lemma put_meaning : forall den s T l, let (T', l') := put s (den s) T l in meaning den T' l' = meaning den T l.
Proof.
  intros den s T l. induction T as [|(f, x) T IH]; [reflexivity|]. cbn [put]. destruct (put s (den s) T l) as (T2, l2). destruct (str_eqb x s) eqn:X; cbn [meaning].
  - apply str_eqb_eq in X. subst x. rewrite <- IH. destruct T2 as [|(g, y) T3]; cbn [meaning]; rewrite <- ?app_assoc; reflexivity.
  - rewrite IH. reflexivity.
Qed.
Lemma put_gone : forall s d T l, let (T', _) := put s d T l in forall x, In x (map snd T') <-> In x (map snd T) /\ x <> s.
Proof.
  intros s d T l. induction T as [|(f, x) T IH]; [cbn; intros; tauto|]. cbn [put]. destruct (put s d T l) as (T2, l2). destruct (str_eqb x s) eqn:X.
  - apply str_eqb_eq in X. subst x. destruct T2 as [|(g, y) T3]; intro z; specialize (IH z); cbn [map snd In] in *; rewrite IH; split; intuition congruence.
  - apply str_eqb_neq in X. intro z. cbn [map snd In]. rewrite IH. split; [intros [<-|(A & B)]; auto|]. intros ([<-|A] & B); auto.
Qed.
Lemma meaning_none : forall den T l, map snd T = [] -> meaning den T l = flat T l.
Proof. intros den [|p T] l H; [reflexivity|discriminate]. Qed.
Lemma flat_none : forall T l, (forall x, ~ In x (map snd T)) -> flat T l = l /\ T = [].
Proof. intros [|(f, s) T] l H; [auto|]. exfalso. apply (H s). left. reflexivity. Qed.

(** ** Hiding: the words d become sentinels. *)

(** The fields of a text around d. *)
Fixpoint pieces (s : str) (fs : list str) : list (str * str) * str :=
  match fs with
  | [] => ([], [])
  | [f] => ([], f)
  | f :: fs' => let (T, l) := pieces s fs' in ((f, s) :: T, l)
  end.
Lemma pieces_flat : forall s fs, let (T, l) := pieces s fs in flat T l = join s fs.
Proof.
  intros s fs. induction fs as [|f fs IH]; [exact eq_refl|]. destruct fs as [|g fs]; [exact eq_refl|]. cbn [pieces] in *. destruct (match fs with [] => ([], g) | _ :: _ => let (T, l) := pieces s fs in ((g, s) :: T, l) end) as (T, l).
  cbn [flat]. rewrite IH. reflexivity.
Qed.
Lemma pieces_meaning : forall den s fs, let (T, l) := pieces s fs in meaning den T l = join (den s) fs.
Proof.
  intros den s fs. induction fs as [|f fs IH]; [exact eq_refl|]. destruct fs as [|g fs]; [exact eq_refl|]. cbn [pieces] in *. destruct (match fs with [] => ([], g) | _ :: _ => let (T, l) := pieces s fs in ((g, s) :: T, l) end) as (T, l).
  cbn [meaning]. rewrite IH. reflexivity.
Qed.

Lemma hit_inside : forall (d x : str) f R, x <> [] -> (forall c, In c d -> ~ In c x) -> has_prefix d (f ++ x ++ R) = has_prefix d f || match d with [] => true | _ => false end.
Proof.
  intros d x f R NX. revert f. induction d as [|c d IH]; intros f D; [cbn; destruct f; reflexivity|]. rewrite orb_false_r. destruct f as [|e f].
  - destruct x as [|a x]; [congruence|]. cbn [app has_prefix]. destruct (Ascii.eqb c a) eqn:E; [|reflexivity]. apply Ascii.eqb_eq in E. subst a. exfalso. apply (D c); left; reflexivity.
  - cbn [app has_prefix]. destruct (Ascii.eqb c e); [|reflexivity]. cbn [andb]. rewrite IH by (intros c' I; apply D; right; exact I). destruct d; [cbn; destruct f; reflexivity|apply orb_false_r].
Qed.
Lemma replace_skip : forall (d s x : str) R, d <> [] -> (forall c, In c d -> ~ In c x) -> replace_all d s (x ++ R) = x ++ replace_all d s R.
Proof.
  intros d s x R ND D. induction x as [|a x IH]; [reflexivity|]. cbn [app]. rewrite replace_all_cons.
  - rewrite IH; [reflexivity|]. intros c I J. apply (D c I). right. exact J.
  - destruct d as [|c d]; [congruence|]. cbn [has_prefix]. destruct (Ascii.eqb c a) eqn:E; [|reflexivity]. apply Ascii.eqb_eq in E. subst a. exfalso. apply (D c); left; reflexivity.
Qed.
Lemma replace_cut : forall (d s x : str) f R, d <> [] -> x <> [] -> (forall c, In c d -> ~ In c x) -> replace_all d s (f ++ x ++ R) = replace_all d s f ++ x ++ replace_all d s R.
Proof.
  intros d s x f R ND NX D. revert f. apply (split_scan_ind d ND).
  - cbn [app]. rewrite replace_skip by assumption. reflexivity.
  - intros f IH. rewrite <- app_assoc. rewrite !replace_all_sep by exact ND. rewrite IH, <- app_assoc. reflexivity.
  - intros c f H IH. cbn [app]. rewrite replace_all_cons.
    + rewrite IH. rewrite replace_all_cons by exact H. reflexivity.
    + change (c :: f ++ x ++ R) with ((c :: f) ++ x ++ R). rewrite hit_inside by assumption. rewrite H. destruct d; [congruence|reflexivity].
Qed.

Lemma contains_cut : forall (d x : str) f R, d <> [] -> x <> [] -> (forall c, In c d -> ~ In c x) ->
  contains d f = false -> contains d R = false -> contains d (f ++ x ++ R) = false.
Proof.
  intros d x f R ND NX D F HR. destruct (contains d (f ++ x ++ R)) eqn:C; [|reflexivity]. exfalso. apply contains_false_index in F, HR. rewrite index_None in F, HR.
  assert (C' : exists a t, f ++ x ++ R = a ++ d ++ t) by (apply contains_iff; exact C). clear C. destruct C' as (a & t & C).
  revert a C F. induction f as [|e f IH]; intros a C F.
  - cbn [app] in C. clear F. revert a C. assert (D' : forall c, In c d -> ~ In c x) by exact D. clear NX D. revert D'. induction x as [|y x IHx]; intros D' a C.
    + cbn [app] in C. subst R. specialize (HR (List.length a)). rewrite skipn_app, skipn_all, Nat.sub_diag in HR. cbn [app skipn] in HR. rewrite has_prefix_app in HR. assert (true = false) by (apply HR; rewrite !app_length; lia). discriminate.
    + destruct a as [|z a].
      * destruct d as [|c d]; [congruence|]. cbn [app] in C. inversion C. subst. apply (D' c); left; reflexivity.
      * cbn [app] in C. inversion C as [[E H]]. apply (IHx (fun c I J => D' c I (or_intror J)) a H).
  - destruct a as [|z a].
    + cbn [app] in C. specialize (F 0 (Nat.le_0_l _)). cbn [skipn] in F. assert (P : has_prefix d ((e :: f) ++ x ++ R) = true) by (apply has_prefix_iff; exists t; exact C).
      rewrite hit_inside in P by assumption. rewrite F in P. destruct d; [congruence|discriminate].
    + cbn [app] in C. inversion C as [[E H]]. apply (IH a H). intros k L. apply (F (S k)). cbn [List.length]. lia.
Qed.

Lemma contains_cons : forall d c s, contains d (c :: s) = has_prefix d (c :: s) || contains d s.
Proof.
  intros d c s. destruct (has_prefix d (c :: s)) eqn:H.
  - cbn [orb]. apply contains_iff. apply has_prefix_iff in H. destruct H as (t & H). exists [], t. exact H.
  - cbn [orb]. destruct (contains d s) eqn:C.
    + apply contains_iff in C. destruct C as (a & t & ->). apply contains_iff. exists (c :: a), t. reflexivity.
    + destruct (contains d (c :: s)) eqn:C2; [|reflexivity]. apply contains_iff in C2. destruct C2 as (a & t & E). destruct a as [|z a].
      * cbn [app] in E. assert (has_prefix d (c :: s) = true) by (apply has_prefix_iff; exists t; exact E). congruence.
      * cbn [app] in E. inversion E. subst. assert (contains d (a ++ d ++ t) = true) by (apply contains_iff; exists a, t; reflexivity). congruence.
Qed.

Lemma split_fields_no : forall d, d <> [] -> forall s, Forall (fun f => contains d f = false) (split d s).
Proof.
  intros d ND. assert (Z : contains d [] = false).
  { destruct (contains d []) eqn:C; [|reflexivity]. apply contains_iff in C. destruct C as (a & t & E). symmetry in E. apply app_eq_nil in E. destruct E as (_ & E). apply app_eq_nil in E. destruct E. congruence. }
  apply (split_scan_ind d ND).
  - rewrite split_nil. constructor; [exact Z|constructor].
  - intros s IH. rewrite split_eq_sep by exact ND. constructor; [exact Z|exact IH].
  - intros c s H IH. rewrite split_eq_nosep by exact H. pose proof (join_split d s ND) as J. destruct (split d s) as [|x l]; [constructor|]. pose proof (Forall_inv IH) as Hx. pose proof (Forall_inv_tail IH) as Hl. cbv beta in Hx. constructor; [|exact Hl].
    rewrite contains_cons, Hx, orb_false_r. destruct (has_prefix d (c :: x)) eqn:P; [|reflexivity]. exfalso. apply has_prefix_iff in P. destruct P as (t & P).
    assert (Q : exists u, s = x ++ u) by (rewrite <- J; destruct l; [exists []; symmetry; apply app_nil_r|eexists; apply join_cons; discriminate]). destruct Q as (u & ->).
    assert (has_prefix d (c :: x ++ u) = true) by (apply has_prefix_iff; exists (t ++ u); change (c :: x ++ u) with ((c :: x) ++ u); rewrite P, <- app_assoc; reflexivity). congruence.
Qed.
Lemma in_join : forall d l f, In f l -> exists a z, join d l = a ++ f ++ z.
Proof.
  intros d l f. induction l as [|x l IH]; [intros []|]. destruct l as [|y l].
  - intros [->|[]]. exists [], []. rewrite app_nil_r. reflexivity.
  - intros [->|I].
    + exists []. eexists. rewrite join_cons by discriminate. reflexivity.
    + destruct (IH I) as (a & z & E). rewrite join_cons by discriminate. rewrite E. exists (x ++ d ++ a), z. rewrite <- !app_assoc. reflexivity.
Qed.
Lemma split_fields_other : forall d e s, d <> [] -> contains e s = false -> Forall (fun f => contains e f = false) (split d s).
Proof.
  intros d e s ND H. apply Forall_forall. intros f I. destruct (in_join d _ f I) as (a & z & E). rewrite join_split in E by exact ND. rewrite E in H. exact (contains_mid _ _ _ _ H).
Qed.

(** The words d in the fields become s. *)
Fixpoint veil (d s : str) (T : list (str * str)) (l : str) : list (str * str) * str :=
  match T with
  | [] => pieces s (split d l)
  | (f, x) :: T' =>
      let (T1, l1) := pieces s (split d f) in
      let (T2, l2) := veil d s T' l in (T1 ++ (l1, x) :: T2, l2)
  end.
Lemma flat_app : forall T1 f x T2 l, flat (T1 ++ (f, x) :: T2) l = flat T1 f ++ x ++ flat T2 l.
Proof. intros T1 f x T2 l. induction T1 as [|(g, y) T1 IH]; [reflexivity|]. cbn [app flat]. rewrite IH, <- !app_assoc. reflexivity. Qed.
Lemma meaning_app : forall den T1 f x T2 l, meaning den (T1 ++ (f, x) :: T2) l = meaning den T1 f ++ den x ++ meaning den T2 l.
Proof. intros den T1 f x T2 l. induction T1 as [|(g, y) T1 IH]; [reflexivity|]. cbn [app meaning]. rewrite IH, <- !app_assoc. reflexivity. Qed.

Definition apart (d x : str) : Prop := x <> [] /\ forall c, In c d -> ~ In c x.

Lemma veil_flat : forall d s T l, d <> [] -> Forall (fun fx => apart d (snd fx)) T -> replace_all d s (flat T l) = let (T', l') := veil d s T l in flat T' l'.
Proof.
  intros d s T l ND. induction T as [|(f, x) T IH]; intro A.
  - cbn [flat veil]. pose proof (pieces_flat s (split d l)) as P. destruct (pieces s (split d l)). symmetry. exact P.
  - inversion A as [|? ? (NX & D) A']; subst. cbn [snd] in *. cbn [flat veil]. rewrite replace_cut by assumption. rewrite (IH A'). pose proof (pieces_flat s (split d f)) as P. destruct (pieces s (split d f)) as (T1, l1). destruct (veil d s T l) as (T2, l2).
    rewrite flat_app, P. reflexivity.
Qed.
Lemma veil_meaning : forall den s T l, den s <> [] -> let (T', l') := veil (den s) s T l in meaning den T' l' = meaning den T l.
Proof.
  intros den s T l ND. induction T as [|(f, x) T IH].
  - cbn [meaning veil]. pose proof (pieces_meaning den s (split (den s) l)) as P. destruct (pieces s (split (den s) l)). rewrite P. apply join_split. exact ND.
  - cbn [meaning veil]. pose proof (pieces_meaning den s (split (den s) f)) as P. destruct (pieces s (split (den s) f)) as (T1, l1). destruct (veil (den s) s T l) as (T2, l2). rewrite meaning_app, P, IH, join_split by exact ND. reflexivity.
Qed.

(** All fields have p, all sentinels q. *)
Definition each (p q : str -> Prop) (T : list (str * str)) (l : str) : Prop := Forall (fun fs => p (fst fs) /\ q (snd fs)) T /\ p l.
Lemma pieces_each : forall (p q : str -> Prop) s fs, fs <> [] -> Forall p fs -> q s -> let (T, l) := pieces s fs in each p q T l.
Proof.
  intros p q s fs NE F Q. induction fs as [|f fs IH]; [congruence|]. inversion F; subst. destruct fs as [|g fs]; [split; [constructor|assumption]|].
  specialize (IH ltac:(discriminate) ltac:(assumption)). cbn [pieces] in *. destruct (match fs with [] => ([], g) | _ :: _ => let (T, l) := pieces s fs in ((g, s) :: T, l) end) as (T, l).
  destruct IH as (A & B). split; [|exact B]. constructor; [split; assumption|exact A].
Qed.
Lemma veil_each : forall (p p' q : str -> Prop) d s T l, (forall f, p f -> Forall p' (split d f)) -> q s -> each p q T l -> let (T', l') := veil d s T l in each p' q T' l'.
Proof.
  intros p p' q d s T l Hp Q. induction T as [|(f, x) T IH]; intros (A & B).
  - cbn [veil]. apply pieces_each; [apply split_nonnil|apply Hp; exact B|exact Q].
  - inversion A as [|? ? (Hf & Hx) A']; subst. cbn [fst snd] in *. specialize (IH (conj A' B)). cbn [veil].
    pose proof (pieces_each p' q s (split d f) (split_nonnil _ _) (Hp f Hf) Q) as P. destruct (pieces s (split d f)) as (T1, l1). destruct (veil d s T l) as (T2, l2). destruct P as (P1 & P2). destruct IH as (I1 & I2).
    split; [|exact I2]. apply Forall_app. split; [exact P1|]. constructor; [split; assumption|exact I1].
Qed.
Lemma each_not_contains : forall d T l, d <> [] -> each (fun f => contains d f = false) (fun x => apart d x) T l -> contains d (flat T l) = false.
Proof.
  intros d T l ND. induction T as [|(f, x) T IH]; intros (A & B); [exact B|]. inversion A as [|? ? (Hf & (Hx & Hd)) A']; subst. cbn [fst snd flat] in *. apply contains_cut; auto. apply IH. split; assumption.
Qed.
End Sentinels.
