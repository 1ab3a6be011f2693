(** Proofs about scripts. *)
From Coq Require Import String Ascii List ZArith NArith Bool Lia ZifyBool ZifyN.
From Verif Require Import GoStr GoStrFacts Utf8 Utf8Facts TextProofs ReModel ReProofs CliModel CliSpec CliProofs ScriptModel ScriptSpec.
Import ListNotations.

Lemma re_space_iff c : re_space c = true <-> wspace c.
Proof.
  unfold re_space, wspace, newline. rewrite existsb_exists. split.
  - intros (x & I & E). apply Ascii.eqb_eq in E. subst. exact I.
  - intros I. exists c. split; [exact I|apply Ascii.eqb_refl].
Qed.
Lemma re_space_not c : re_space c = false <-> ~ wspace c.
Proof. rewrite <- re_space_iff. destruct (re_space c); split; intros; congruence. Qed.
Lemma re_blank_iff c : re_blank c = true <-> (c = " "%char \/ c = "009"%char).
Proof. unfold re_blank. rewrite orb_true_iff, !Ascii.eqb_eq. reflexivity. Qed.

Lemma spaces_re w : spaces w <-> Forall (fun c => re_space c = true) w.
Proof. unfold spaces. split; apply Forall_impl; intros c; apply re_space_iff. Qed.
Lemma word_re w : word w <-> Forall (fun c => negb (re_space c) = true) w.
Proof. unfold word. split; apply Forall_impl; intros c; rewrite negb_true_iff; apply re_space_not. Qed.
Lemma blanks_re w : blanks w <-> Forall (fun c => re_blank c = true) w.
Proof. unfold blanks. split; apply Forall_impl; intros c; apply re_blank_iff. Qed.
Lemma flush_stops s : flush s <-> stops re_space s.
Proof. destruct s; cbn; [tauto|]. symmetry. apply re_space_not. Qed.
Lemma blank_space c : re_blank c = true -> re_space c = true.
Proof. rewrite re_blank_iff, re_space_iff. unfold wspace. cbn. intuition. Qed.

(** A text that starts with white space, or is empty. *)
Definition halts (s : str) : Prop := stops (fun c => negb (re_space c)) s.

(** ** line_end *)
Lemma line_end_app b s : spaces b -> line_end s -> line_end (b ++ s).
Proof. intros B (b' & r & -> & B' & R). exists (b ++ b'), r. rewrite app_assoc. split; [reflexivity|]. split; [apply Forall_app; split; assumption|exact R]. Qed.
Lemma line_end_word c s : ~ wspace c -> ~ line_end (c :: s).
Proof.
  intros N (b & r & E & B & R). destruct b as [|d b].
  - cbn in E. subst r. destruct R as [R|(r' & R)]; [discriminate|]. injection R as -> _. apply N. unfold wspace. cbn. tauto.
  - injection E as <- _. inversion B; contradiction.
Qed.
Lemma line_end_flush e s : spaces e -> flush s -> line_end (e ++ s) <-> (In newline e \/ s = []).
Proof.
  intros W F. split.
  - intros (b & r & E & B & R).
    revert b E B R. induction W as [|c e C W IH]; intros b E B R.
    + cbn in E. destruct s as [|d s]; [right; reflexivity|]. exfalso. apply (line_end_word d s F). exists b, r. auto.
    + destruct b as [|d b].
      * cbn in E. subst r. destruct R as [R|(r' & R)]; [discriminate|]. injection R as -> _. left. left. reflexivity.
      * injection E as -> E. inversion B; subst. destruct (IH b E) as [I|I]; [assumption|assumption|left; right; exact I|right; exact I].
  - intros [I| ->].
    + apply in_split in I as (a & b & ->). exists a, (newline :: b ++ s). rewrite <- app_assoc. split; [reflexivity|].
      apply Forall_app in W as (W & _). split; [exact W|right; eexists; reflexivity].
    + exists e, []. auto.
Qed.

(** ** The parts of the expression, from the end *)
Notation RSpaces := (RStar true (RByte re_space)).
Notation RWord := (RStar true (RByte (fun c => negb (re_space c)))).
Notation RBlanks := (RStar true (RByte re_blank)).
Definition Rtail : re := RSeq RSpaces (RGroup 3 (RStar true (RByte (fun _ => true)))).
Definition last_k : place -> groups -> option groups := fun _ g => Some g.
Definition tail_k : place -> groups -> option groups := fun p g => rmatch Rtail p g last_k.
Definition end_k : place -> groups -> option groups := fun p g => rmatch (RSeq RSpaces REol) p g tail_k.
Definition app_k : place -> groups -> option groups := fun p g => rmatch (ROpt (RGroup 2 RWord)) p g end_k.
Definition blank_k : place -> groups -> option groups := fun p g => rmatch RBlanks p g app_k.
Definition prog_k : place -> groups -> option groups := fun p g => rmatch (RGroup 1 RWord) p g blank_k.
Definition space_k : place -> groups -> option groups := fun p g => rmatch RSpaces p g prog_k.

Lemma tail_ok p e s g : spaces e -> flush s -> tail_k (p, e ++ s) g = Some ((3, s) :: g).
Proof.
  intros E F. unfold tail_k, Rtail. cbn [rmatch]. change (star_loop true (fun p g k => rmatch (RByte re_space) p g k)) with (star_loop true (fun p g (k : place -> groups -> option groups) => rmatch (RByte re_space) p g k)).
  match goal with |- star_loop true _ ?k _ _ _ = _ => change (rmatch RSpaces (p, e ++ s) g k = Some ((3, s) :: g)) end.
  rewrite star_class; [|apply spaces_re; exact E|apply flush_stops; exact F].
  apply desc_first. 
  match goal with |- star_loop true _ ?k _ _ _ = _ => change (rmatch (RStar true (RByte (fun _ => true))) (lastc p e, s) g k = Some ((3, s) :: g)) end.
  apply star_any. unfold last_k. do 3 f_equal. pose proof (taken_app (lastc p e) s [] (lastc (lastc p e) s)) as T. rewrite app_nil_r in T. exact T.
Qed.

Lemma end_some p e s g : spaces e -> flush s -> line_end (e ++ s) -> end_k (p, e ++ s) g = Some ((3, s) :: g).
Proof.
  intros E F L. unfold end_k. 
  match goal with |- rmatch (RSeq ?a ?b) ?q ?g ?k = _ => change (rmatch a q g (fun p g => rmatch b p g k) = Some ((3, s) :: g)) end.
  rewrite star_class; [|apply spaces_re; exact E|apply flush_stops; exact F].
  assert (K : forall a b, e = a ++ b -> rmatch REol (lastc p a, b ++ s) g tail_k = if match b ++ s with [] => true | c :: _ => Ascii.eqb c NLc end then Some ((3, s) :: g) else None).
  { intros a b ->. apply Forall_app in E as (_ & E). cbn [rmatch snd]. destruct (b ++ s) as [|c r] eqn:B.
    - rewrite <- B. apply tail_ok; assumption.
    - destruct (Ascii.eqb c NLc); [|reflexivity]. rewrite <- B. apply tail_ok; assumption. }
  apply desc_all.
  - intros a b H. rewrite (K a b H). destruct (match b ++ s with [] => true | c :: _ => Ascii.eqb c NLc end); auto.
  - apply line_end_flush in L; [|assumption|assumption]. destruct L as [I| ->].
    + apply in_split in I as (a & b & ->). exists a, (newline :: b). split; [reflexivity|]. rewrite (K _ _ eq_refl). reflexivity.
    + exists e, []. rewrite app_nil_r. split; [reflexivity|]. rewrite (K e [] (eq_sym (app_nil_r e))). reflexivity.
Qed.

Lemma end_none p e s g : spaces e -> flush s -> ~ line_end (e ++ s) -> end_k (p, e ++ s) g = None.
Proof.
  intros E F L. unfold end_k. 
  match goal with |- rmatch (RSeq ?a ?b) ?q ?g ?k = _ => change (rmatch a q g (fun p g => rmatch b p g k) = None) end.
  rewrite star_class; [|apply spaces_re; exact E|apply flush_stops; exact F].
  apply desc_none. intros a b H. cbn [rmatch snd]. destruct (b ++ s) as [|c r] eqn:B.
  - exfalso. apply L. apply app_eq_nil in B as (-> & ->). apply line_end_flush; auto.
  - destruct (Ascii.eqb c NLc) eqn:N; [|reflexivity]. apply Ascii.eqb_eq in N. subst c. exfalso. apply L. rewrite H, <- app_assoc, B.
    subst e. apply Forall_app in E as (E & _). apply line_end_app; [exact E|]. exists [], (NLc :: r). split; [reflexivity|]. split; [constructor|right; exists r; reflexivity].
Qed.

Lemma flush_word a r : word a -> a <> [] -> flush (a ++ r).
Proof. intros W N. destruct a as [|c a]; [contradiction|]. inversion W; assumption. Qed.
Lemma not_end_word a r : word a -> a <> [] -> ~ line_end (a ++ r).
Proof. intros W N. destruct a as [|c a]; [contradiction|]. inversion W; subst. apply line_end_word. assumption. Qed.

(** The second word: a followed by e ++ s. *)
Lemma app_some p a e s g : word a -> halts (e ++ s) -> spaces e -> flush s -> line_end (e ++ s) -> app_k (p, a ++ e ++ s) g = Some ((3, s) :: (2, a) :: g).
Proof.
  intros A H E F L. unfold app_k, ROpt. cbn [rmatch].
  match goal with |- match star_loop true _ ?k _ _ _ with _ => _ end = _ => change (match rmatch RWord (p, a ++ e ++ s) g k with Some x => Some x | None => end_k (p, a ++ e ++ s) g end = Some ((3, s) :: (2, a) :: g)) end.
  rewrite star_class; [|apply word_re; exact A|exact H].
  rewrite (desc_first _ a (e ++ s) ((3, s) :: (2, a) :: g)); [reflexivity|]. cbv beta. rewrite taken_app. apply end_some; assumption.
Qed.

Lemma app_none p a e s g : word a -> halts (e ++ s) -> spaces e -> flush s -> ~ line_end (e ++ s) -> app_k (p, a ++ e ++ s) g = None.
Proof.
  intros A H E F L. unfold app_k, ROpt. cbn [rmatch].
  match goal with |- match star_loop true _ ?k _ _ _ with _ => _ end = _ => change (match rmatch RWord (p, a ++ e ++ s) g k with Some x => Some x | None => end_k (p, a ++ e ++ s) g end = None) end.
  rewrite star_class; [|apply word_re; exact A|exact H].
  assert (X : forall q b h, word b -> end_k (q, b ++ e ++ s) h = None).
  { intros q b h B. destruct b as [|c b]; [exact (end_none q e s h E F L)|].
    refine (end_none q [] ((c :: b) ++ e ++ s) h _ _ _); [constructor|apply flush_word; [exact B|discriminate]|]. apply (not_end_word (c :: b)); [exact B|discriminate]. }
  rewrite desc_none; [apply X; exact A|]. intros b c ->. cbv beta. apply X. apply Forall_app in A as (_ & A). exact A.
Qed.

Lemma halts_app c s : wspace c -> halts (c :: s).
Proof. intros W. apply re_space_iff in W. unfold halts, stops. apply negb_false_iff. exact W. Qed.

(** Every text is a word, white space and the rest. *)
Lemma cut_word y : exists a e s, y = a ++ e ++ s /\ word a /\ spaces e /\ flush s /\ halts (e ++ s).
Proof.
  destruct (span_class (fun c => negb (re_space c)) y) as (a & r & -> & A & T). destruct (span_class re_space r) as (e & s & -> & E & F).
  exists a, e, s. split; [reflexivity|]. split; [apply word_re; exact A|]. split; [apply spaces_re; exact E|]. split; [apply flush_stops; exact F|exact T].
Qed.

(** What the second word and the end of the line give on any text. *)
Definition ended (y a s : str) : Prop := exists e, y = a ++ e ++ s /\ word a /\ spaces e /\ flush s /\ halts (e ++ s) /\ line_end (e ++ s).
Lemma app_any p y g : (exists a s, ended y a s /\ app_k (p, y) g = Some ((3, s) :: (2, a) :: g)) \/ ((forall a s, ~ ended y a s) /\ app_k (p, y) g = None).
Proof.
  destruct (cut_word y) as (a & e & s & -> & A & E & F & H).
  assert (D : line_end (e ++ s) \/ ~ line_end (e ++ s)).
  { rewrite line_end_flush by assumption. destruct (in_dec ascii_dec newline e) as [I|I]; [auto|]. destruct s; [auto|]. right. intros [X|X]; [auto|discriminate]. }
  destruct D as [D|D].
  - left. exists a, s. split; [|apply app_some; assumption]. exists e. auto 10.
  - right. split; [|apply app_none; assumption]. intros a' s' (e' & Y & A' & E' & F' & H' & L').
    assert (XX : a = a' /\ e ++ s = e' ++ s').
    { clear -Y A A' H H'. revert a' A' Y. induction A as [|c a C A IH]; intros a' A' Y.
      - destruct a' as [|d a']; [auto|]. exfalso. cbn in Y. rewrite Y in H. inversion A'; subst. unfold halts, stops in H. apply negb_false_iff in H. apply re_space_iff in H. contradiction.
      - destruct a' as [|d a'].
        + exfalso. cbn in Y. rewrite <- Y in H'. unfold halts, stops in H'. apply negb_false_iff in H'. apply re_space_iff in H'. contradiction.
        + injection Y as -> Y. inversion A'; subst. destruct (IH a') as (-> & ->); auto. }
    destruct XX as (_ & XX). rewrite XX in D. contradiction.
Qed.

Lemma ended_space c y a s : wspace c -> ended (c :: y) a s -> a = [] /\ line_end (c :: y) .
Proof.
  intros C (e & Y & A & E & F & H & L). destruct a as [|d a]; [|exfalso; injection Y as <- _; inversion A; contradiction].
  cbn in Y. rewrite Y. auto.
Qed.
Lemma ended_end e s : spaces e -> flush s -> line_end (e ++ s) -> ended (e ++ s) [] s.
Proof.
  intros E F L. exists e. repeat split; try assumption; [constructor|]. destruct e as [|c e]; [|inversion E; apply halts_app; assumption].
  destruct s as [|c s]; [exact I|]. exfalso. apply (line_end_word c s F). exact L.
Qed.

(** The blanks between the words. *)
Lemma blank_any p b x g : blanks b -> stops re_blank x ->
  (exists a s, ended x a s /\ blank_k (p, b ++ x) g = Some ((3, s) :: (2, a) :: g)) \/ ((forall a s, ~ ended x a s) /\ blank_k (p, b ++ x) g = None).
Proof.
  intros B T. unfold blank_k. rewrite star_class; [|apply blanks_re; exact B|exact T].
  destruct (app_any (lastc p b) x g) as [(a & s & D & K)|(N & K)].
  - left. exists a, s. split; [exact D|]. apply desc_first. exact K.
  - right. split; [exact N|]. apply desc_none. intros b1 b2 ->. destruct b2 as [|c b2]; [rewrite app_nil_r in K; exact K|].
    destruct (app_any (lastc p b1) ((c :: b2) ++ x) g) as [(a & s & D & K')|(_ & K')]; [exfalso|exact K'].
    apply Forall_app in B as (_ & B). assert (S2 : spaces (c :: b2)) by (eapply Forall_impl; [|exact B]; intros d Hd; apply re_space_iff, blank_space, re_blank_iff; exact Hd).
    apply ended_space in D as (_ & D); [|inversion S2; assumption]. change (line_end ((c :: b2) ++ x)) in D.
    destruct (cut_word x) as (a' & e & s' & -> & A & E & F & H). destruct a' as [|d a'].
    + cbn [app] in *. apply (N [] s'). apply ended_end; [assumption|assumption|]. change (line_end ((c :: b2) ++ e ++ s')) in D. rewrite app_assoc in D. apply line_end_flush in D; [|apply Forall_app; split; assumption|assumption].
      apply line_end_flush; [assumption|assumption|]. destruct D as [D|D]; [|auto]. apply in_app_iff in D as [D|D]; [|auto]. exfalso.
      pose proof (proj1 (Forall_forall _ _) B newline D) as [X|X]; discriminate X.
    + apply line_end_flush in D; [|exact S2|apply flush_word; [exact A|discriminate]]. destruct D as [D|D]; [|discriminate].
      pose proof (proj1 (Forall_forall _ _) B newline D) as [X|X]; discriminate X.
Qed.

(** The first word p0 followed by blanks b and x. *)
Lemma halts_blanks b x : halts (b ++ x) -> b = [] -> halts x.
Proof. intros H ->. exact H. Qed.

Lemma prog_any p w b x g : word w -> halts (b ++ x) -> blanks b -> stops re_blank x ->
  (exists a s, ended x a s /\ prog_k (p, w ++ b ++ x) g = Some ((3, s) :: (2, a) :: (1, w) :: g)) \/ ((forall a s, ~ ended x a s) /\ prog_k (p, w ++ b ++ x) g = None).
Proof.
  intros W H B T. unfold prog_k. rewrite rm_group.
  rewrite star_class; [|apply word_re; exact W|exact H].
  destruct (blank_any (lastc p w) b x ((1, w) :: g) B T) as [(a & s & D & K)|(N & K)].
  - left. exists a, s. split; [exact D|]. apply desc_first. rewrite taken_app. exact K.
  - right. split; [exact N|]. apply desc_none. intros w1 w2 ->. destruct w2 as [|c w2].
    + rewrite app_nil_r in *. cbn [app]. rewrite taken_app. exact K.
    + apply Forall_app in W as (_ & W). assert (NB : stops re_blank ((c :: w2) ++ b ++ x)).
      { inversion W; subst. cbn. destruct (re_blank c) eqn:R; [|reflexivity]. apply blank_space, re_space_iff in R. contradiction. }
      destruct (blank_any (lastc p w1) [] ((c :: w2) ++ b ++ x) ((1, taken (p, (w1 ++ c :: w2) ++ b ++ x) (lastc p w1, (c :: w2) ++ b ++ x)) :: g)) as [(a & s & D & K')|(_ & K')]; [constructor|exact NB| |exact K'].
      exfalso. destruct D as (e & Y & A & E & F & HE & L).
      assert (XX : c :: w2 = a /\ b ++ x = e ++ s).
      { clear -Y W A H HE. revert a A Y. induction W as [|d w D W IH]; intros a A Y.
        - destruct a as [|d a]; [auto|]. exfalso. cbn in Y. rewrite Y in H. inversion A; subst. unfold halts, stops in H. apply negb_false_iff in H. apply re_space_iff in H. contradiction.
        - destruct a as [|d' a].
          + exfalso. cbn in Y. rewrite <- Y in HE. unfold halts, stops in HE. apply negb_false_iff in HE. apply re_space_iff in HE. contradiction.
          + injection Y as -> Y. inversion A; subst. destruct (IH a) as (-> & ->); auto. }
      destruct XX as (_ & XX). rewrite <- XX in L.
      destruct (cut_word x) as (a' & e' & s' & -> & A' & E' & F' & H'). assert (SB : spaces b) by (eapply Forall_impl; [|exact B]; intros d Hd; apply re_space_iff, blank_space, re_blank_iff; exact Hd).
      destruct a' as [|d a'].
      * cbn [app] in *. apply (N [] s'). apply ended_end; [assumption|assumption|]. rewrite app_assoc in L. apply line_end_flush in L; [|apply Forall_app; split; assumption|assumption].
        apply line_end_flush; [assumption|assumption|]. destruct L as [L|L]; [|auto]. apply in_app_iff in L as [L|L]; [|auto]. exfalso.
        pose proof (proj1 (Forall_forall _ _) B newline L) as [X|X]; discriminate X.
      * apply line_end_flush in L; [|exact SB|apply flush_word; [exact A'|discriminate]]. destruct L as [L|L]; [|discriminate].
        pose proof (proj1 (Forall_forall _ _) B newline L) as [X|X]; discriminate X.
Qed.

(** ** Uniqueness *)
Lemma word_cut a r a' r' : word a -> halts r -> word a' -> halts r' -> a ++ r = a' ++ r' -> a = a' /\ r = r'.
Proof.
  intros A H A' H' Y. revert a' A' Y. induction A as [|c a C A IH]; intros a' A' Y.
  - destruct a' as [|d a']; [auto|]. exfalso. cbn in Y. rewrite Y in H. inversion A'; subst. unfold halts, stops in H. apply negb_false_iff in H. apply re_space_iff in H. contradiction.
  - destruct a' as [|d a'].
    + exfalso. cbn in Y. rewrite <- Y in H'. unfold halts, stops in H'. apply negb_false_iff in H'. apply re_space_iff in H'. contradiction.
    + injection Y as -> Y. inversion A'; subst. destruct (IH a') as (-> & ->); auto.
Qed.
Lemma space_cut e s e' s' : spaces e -> flush s -> spaces e' -> flush s' -> e ++ s = e' ++ s' -> e = e' /\ s = s'.
Proof.
  intros A H A' H' Y. revert e' A' Y. induction A as [|c e C A IH]; intros e' A' Y.
  - destruct e' as [|d e']; [auto|]. exfalso. cbn in Y. rewrite Y in H. inversion A'; subst. contradiction.
  - destruct e' as [|d e'].
    + exfalso. cbn in Y. rewrite <- Y in H'. contradiction.
    + injection Y as -> Y. inversion A'; subst. destruct (IH e') as (-> & ->); auto.
Qed.
Lemma ended_unique y a s a' s' : ended y a s -> ended y a' s' -> a = a' /\ s = s'.
Proof.
  intros (e & -> & A & E & F & H & _) (e' & Y & A' & E' & F' & H' & _).
  destruct (word_cut _ _ _ _ A H A' H' Y) as (-> & Y'). destruct (space_cut _ _ _ _ E F E' F' Y') as (_ & ->). auto.
Qed.

Lemma blanks_spaces b : blanks b -> spaces b.
Proof. intros B. eapply Forall_impl; [|exact B]. intros d Hd. apply re_space_iff, blank_space, re_blank_iff. exact Hd. Qed.

Lemma line_end_drop b x : blanks b -> line_end (b ++ x) -> exists s, ended x [] s.
Proof.
  intros B L. destruct (cut_word x) as (a' & e & s' & -> & A & E & F & H). destruct a' as [|d a'].
  - exists s'. cbn [app] in *. apply ended_end; [assumption|assumption|]. rewrite app_assoc in L. apply line_end_flush in L; [|apply Forall_app; split; [apply blanks_spaces|]; assumption|assumption].
    apply line_end_flush; [assumption|assumption|]. destruct L as [D|D]; [|auto]. apply in_app_iff in D as [D|D]; [|auto]. exfalso.
    pose proof (proj1 (Forall_forall _ _) B newline D) as [X|X]; discriminate X.
  - exfalso. apply line_end_flush in L; [|apply blanks_spaces; exact B|apply flush_word; [exact A|discriminate]]. destruct L as [D|D]; [|discriminate].
    pose proof (proj1 (Forall_forall _ _) B newline D) as [X|X]; discriminate X.
Qed.

(** The words after #! and white space. *)
Definition two_words (z pr a s : str) : Prop := exists b x, z = pr ++ b ++ x /\ word pr /\ blanks b /\ halts (b ++ x) /\ stops re_blank x /\ ended x a s.

Lemma prog_z p z g : (exists pr a s, two_words z pr a s /\ prog_k (p, z) g = Some ((3, s) :: (2, a) :: (1, pr) :: g)) \/ ((forall pr a s, ~ two_words z pr a s) /\ prog_k (p, z) g = None).
Proof.
  destruct (span_class (fun c => negb (re_space c)) z) as (pr & y & -> & W & H). apply word_re in W. destruct (span_class re_blank y) as (b & x & -> & B & T). apply blanks_re in B.
  destruct (prog_any p pr b x g W H B T) as [(a & s & D & K)|(N & K)].
  - left. exists pr, a, s. split; [|exact K]. exists b, x. auto 10.
  - right. split; [|exact K]. intros pr' a s (b' & x' & Y & W' & B' & H' & T' & D). destruct (word_cut _ _ _ _ W H W' H' Y) as (-> & Y').
    assert (X : x = x').
    { clear -Y' B B' T T'. revert b' B' Y'. induction B as [|c b C B IH]; intros b' B' Y.
      - destruct b' as [|d b']; [auto|]. exfalso. cbn in Y. rewrite Y in T. inversion B'; subst. unfold stops in T. apply re_blank_iff in H1. congruence.
      - destruct b' as [|d b'].
        + exfalso. cbn in Y. rewrite <- Y in T'. unfold stops in T'. apply re_blank_iff in C. congruence.
        + injection Y as -> Y. inversion B'; subst. apply (IH b'); auto. }
    subst x'. exact (N _ _ D).
Qed.

Lemma two_words_none z a s : (forall pr a s, ~ two_words z pr a s) -> ~ ended z a s.
Proof.
  intros N (e & -> & A & E & F & H & L). destruct (span_class re_blank (e ++ s)) as (b & x & Y & B & T). apply blanks_re in B.
  rewrite Y in L. destruct (line_end_drop b x B L) as (s' & D). apply (N a [] s'). exists b, x. rewrite <- Y. auto 10.
Qed.

Lemma space_some p w z g pr a s : spaces w -> flush z -> two_words z pr a s -> exists pr' a' s', two_words z pr' a' s' /\ space_k (p, w ++ z) g = Some ((3, s') :: (2, a') :: (1, pr') :: g).
Proof.
  intros W F Z. unfold space_k. rewrite star_class; [|apply spaces_re; exact W|apply flush_stops; exact F].
  destruct (prog_z (lastc p w) z g) as [(pr' & a' & s' & D & K)|(N & _)]; [|destruct (N _ _ _ Z)].
  exists pr', a', s'. split; [exact D|]. apply desc_first. exact K.
Qed.

Lemma prog_space p c w z g : wspace c -> spaces w -> flush z -> (forall pr a s, ~ two_words z pr a s) ->
  prog_k (p, c :: w ++ z) g = None \/ (In newline (c :: w) /\ prog_k (p, c :: w ++ z) g = Some ((3, z) :: (2, []) :: (1, []) :: g)).
Proof.
  intros C W F N. destruct (prog_z p (c :: w ++ z) g) as [(pr & a & s & (b & x & Y & P & B & H & T & D) & K)|(_ & K)]; [right|left; exact K].
  destruct pr as [|d pr]; [|exfalso; injection Y as <- _; inversion P; contradiction]. cbn [app] in Y.
  assert (CC : (exists b', c :: w = b ++ b' /\ x = b' ++ z)).
  { clear -Y B C W F. assert (S1 : spaces (c :: w)) by (constructor; assumption). change (c :: w ++ z) with ((c :: w) ++ z) in Y. revert Y S1. generalize (c :: w). intros v Y V.
    revert v V Y. induction B as [|d b D B IH]; intros v V Y.
    - exists v. auto.
    - destruct v as [|e v].
      + exfalso. cbn in Y. rewrite Y in F. apply F. apply re_space_iff, blank_space, re_blank_iff. exact D.
      + injection Y as -> Y. inversion V; subst. destruct (IH v) as (b' & -> & ->); auto. exists b'. auto. }
  destruct CC as (b' & CW & ->). assert (SB : spaces b') by (assert (SS : spaces (c :: w)) by (constructor; assumption); rewrite CW in SS; apply Forall_app in SS as (_ & SS); exact SS).
  destruct b' as [|d b'].
  - exfalso. exact (two_words_none z a s N D).
  - destruct (ended_space d (b' ++ z) a s) as (-> & L); [inversion SB; assumption|exact D|]. change (line_end ((d :: b') ++ z)) in L.
    destruct (ended_unique _ _ _ _ _ D (ended_end (d :: b') z SB F L)) as (_ & ->).
    apply line_end_flush in L; [|exact SB|exact F]. destruct L as [L|L].
    + split; [rewrite CW; apply in_app_iff; right; exact L|exact K].
    + exfalso. subst z. apply (N [] [] []). exists [], []. repeat split; try constructor. exists []. repeat split; try constructor. exists [], []. repeat split; [constructor|left; reflexivity].
Qed.

Lemma space_none p w z g : spaces w -> flush z -> (forall pr a s, ~ two_words z pr a s) ->
  space_k (p, w ++ z) g = if in_dec ascii_dec newline w then Some ((3, z) :: (2, []) :: (1, []) :: g) else None.
Proof.
  intros W F N. unfold space_k. rewrite star_class; [|apply spaces_re; exact W|apply flush_stops; exact F].
  assert (K0 : forall q, prog_k (q, z) g = None).
  { intros q. destruct (prog_z q z g) as [(pr & a & s & D & _)|(_ & K)]; [destruct (N _ _ _ D)|exact K]. }
  destruct (in_dec ascii_dec newline w) as [I|I].
  - apply desc_all.
    + intros a b ->. destruct b as [|c b]; [left; apply K0|]. apply Forall_app in W as (_ & W). inversion W; subst.
      destruct (prog_space (lastc p a) c b z g) as [K|(_ & K)]; auto.
    + apply in_split in I as (a & b & ->). exists a, (newline :: b). split; [reflexivity|]. apply Forall_app in W as (_ & W). inversion W; subst.
      destruct (prog_z (lastc p a) ((newline :: b) ++ z) g) as [(pr & a' & s & D & K)|(N' & _)].
      * destruct (prog_space (lastc p a) newline b z g) as [K'|(_ & K')]; auto. exfalso. discriminate (eq_trans (eq_sym K) K').
      * exfalso. apply (N' [] [] z). exists [], ((newline :: b) ++ z). repeat split; try constructor. apply ended_end; [exact W|exact F|]. apply line_end_flush; [exact W|exact F|]. left. left. reflexivity.
  - apply desc_none. intros a b ->. destruct b as [|c b]; [apply K0|]. apply Forall_app in W as (_ & W). inversion W; subst.
    destruct (prog_space (lastc p a) c b z g) as [K|(J & _)]; auto. exfalso. apply I. apply in_app_iff. right. exact J.
Qed.

(** ** The whole expression *)
Lemma text_hash p t g (k : place -> groups -> option groups) : rmatch (RText $"#!") (p, t) g k = (if has_prefix $"#!" t then k (Some "!"%char, skipn 2 t) g else None).
Proof.
  unfold lit. destruct t as [|c [|d t]]; cbn [list_ascii_of_string RText rmatch snd has_prefix skipn]; [reflexivity|destruct (Ascii.eqb "#" c); reflexivity|].
  destruct (Ascii.eqb "#" c); [|reflexivity]. destruct (Ascii.eqb "!" d) eqn:D; [|reflexivity]. apply Ascii.eqb_eq in D. subst. reflexivity.
Qed.

Lemma shebang_match t : flush t -> rmatch shebang (None, t) [] last_k =
  match (if has_prefix $"#!" t then space_k (Some "!"%char, skipn 2 t) [] else None) with
  | Some g => Some g
  | None => Some [(3, t)]
  end.
Proof.
  intros F. unfold shebang. rewrite rm_seq.
  match goal with |- rmatch RBol ?q ?gg ?kk = _ => change (kk q gg = match (if has_prefix $"#!" t then space_k (Some "!"%char, skipn 2 t) [] else None) with Some g => Some g | None => Some [(3, t)] end) end.
  cbv beta. rewrite rm_seq, rm_opt. fold Rtail. 
  assert (T : rmatch Rtail (None, t) [] last_k = Some [(3, t)]) by (exact (tail_ok None [] t [] (Forall_nil _) F)).
  rewrite T. rewrite rm_seq.
  pose proof (star_class re_space (fun p g => rmatch (RSeq (RText $"#!") (RSeq RSpaces (RSeq (RGroup 1 RWord) (RSeq RBlanks (RSeq (ROpt (RGroup 2 RWord)) (RSeq RSpaces REol)))))) p g (fun p g => rmatch Rtail p g last_k)) [] [] t None (Forall_nil _) (proj1 (flush_stops t) F)) as X.
  cbn [app desc] in X. rewrite rm_seq, text_hash in X.
  exact (f_equal (fun o => match o with Some x => Some x | None => Some [(3, t)] end) X).
Qed.

Lemma find_shebang t : flush t -> find_submatch shebang None t = rmatch shebang (None, t) [] last_k.
Proof.
  intros F. pose proof (shebang_match t F) as X. destruct t as [|c t]; unfold find_submatch; fold find_submatch; fold last_k; rewrite X; clear;
    destruct (if has_prefix _ _ then _ else None); reflexivity.
Qed.

Lemma tight_flush t : tight t -> flush t.
Proof.
  intros (T & _). destruct t as [|c t]; [exact I|]. intros W.
  assert (A : (N_of_ascii c < 128)%N) by (unfold wspace, newline in W; cbn in W; intuition subst; reflexivity).
  rewrite chunks_ascii in T by exact A. specialize (T _ _ eq_refl). cbn in T. unfold wspace, newline in W. cbn in W. intuition subst; discriminate.
Qed.

Lemma blank_cut b x b' x' : blanks b -> stops re_blank x -> blanks b' -> stops re_blank x' -> b ++ x = b' ++ x' -> b = b' /\ x = x'.
Proof.
  intros B T B' T' Y. revert b' B' Y. induction B as [|c b C B IH]; intros b' B' Y.
  - destruct b' as [|d b']; [auto|]. exfalso. cbn in Y. rewrite Y in T. inversion B'; subst. unfold stops in T. apply re_blank_iff in H1. congruence.
  - destruct b' as [|d b'].
    + exfalso. cbn in Y. rewrite <- Y in T'. unfold stops in T'. apply re_blank_iff in C. congruence.
    + injection Y as -> Y. inversion B'; subst. destruct (IH b') as (-> & ->); auto.
Qed.
Lemma two_words_unique z pr a s pr' a' s' : two_words z pr a s -> two_words z pr' a' s' -> pr = pr' /\ a = a' /\ s = s'.
Proof.
  intros (b & x & -> & W & B & H & T & D) (b' & x' & Y & W' & B' & H' & T' & D').
  destruct (word_cut _ _ _ _ W H W' H' Y) as (-> & Y'). destruct (blank_cut _ _ _ _ B T B' T' Y') as (_ & ->).
  destruct (ended_unique _ _ _ _ _ D D') as (-> & ->). auto.
Qed.

Lemma line_end_halts e s : spaces e -> flush s -> line_end (e ++ s) -> halts (e ++ s).
Proof. intros E F L. destruct (ended_end e s E F L) as (e' & -> & _ & _ & _ & H & _). exact H. Qed.

Lemma script_words t pr a s : script_text t pr a s <-> exists w z, t = $"#!" ++ w ++ z /\ spaces w /\ flush z /\ pr <> [] /\ two_words z pr a s.
Proof.
  split.
  - intros (w & b & e & -> & W & P & N & B & BA & A & E & F & L). exists w, (pr ++ b ++ a ++ e ++ s). split; [reflexivity|]. split; [exact W|]. split; [apply flush_word; assumption|]. split; [exact N|].
    destruct a as [|c a].
    + cbn [app]. destruct (span_class re_blank (b ++ e ++ s)) as (b' & x & Y & B' & T). apply blanks_re in B'.
      assert (L' : line_end (b ++ e ++ s)) by (apply line_end_app; [apply blanks_spaces; exact B|exact L]).
      assert (H' : halts (b ++ e ++ s)) by (rewrite app_assoc; apply line_end_halts; [apply Forall_app; split; [apply blanks_spaces|]; assumption|exact F|rewrite <- app_assoc; exact L']).
      rewrite Y in L', H'. destruct (line_end_drop b' x B' L') as (s' & D). 
      assert (s' = s) as ->. { destruct D as (e' & X & _ & E' & F' & _ & _). cbn in X. subst x. rewrite !app_assoc in Y. apply space_cut in Y as (_ & Y); [symmetry; exact Y|apply Forall_app; split; [apply blanks_spaces|]; assumption|exact F|apply Forall_app; split; [apply blanks_spaces|]; assumption|exact F']. }
      exists b', x. rewrite Y. auto 10.
    + exists b, ((c :: a) ++ e ++ s). split; [reflexivity|]. split; [exact P|]. split; [exact B|]. split; [destruct b as [|d b]; [discriminate (BA eq_refl)|apply halts_app; apply blanks_spaces in B; inversion B; assumption]|].
      split; [cbn; inversion A; subst; destruct (re_blank c) eqn:R; [apply blank_space, re_space_iff in R; contradiction|reflexivity]|].
      exists e. split; [reflexivity|]. split; [exact A|]. split; [exact E|]. split; [exact F|]. split; [apply line_end_halts; assumption|exact L].
  - intros (w & z & -> & W & F & N & (b & x & -> & P & B & H & T & (e & -> & A & E & FS & HE & L))). exists w, b, e. repeat split; try assumption.
    intros ->. cbn [app] in H. destruct a as [|c a]; [reflexivity|]. exfalso. inversion A; subst. unfold halts, stops in H. cbn [app] in H. apply negb_false_iff, re_space_iff in H. contradiction.
Qed.

Lemma hash_skip r : skipn 2 ($"#!" ++ r) = r.
Proof. reflexivity. Qed.

Lemma found_script t pr a s : flush t -> script_text t pr a s -> find_submatch shebang None t = Some [(3, s); (2, a); (1, pr)].
Proof.
  intros F H. rewrite find_shebang, shebang_match by exact F. apply script_words in H as (w & z & -> & W & FZ & N & D).
  rewrite has_prefix_app, hash_skip. destruct (space_some (Some "!"%char) w z [] pr a s W FZ D) as (pr' & a' & s' & D' & K).
  destruct (two_words_unique _ _ _ _ _ _ _ D D') as (<- & <- & <-). rewrite K. reflexivity.
Qed.

Lemma parts_script u t pr a s : trimmed u t -> script_text t pr a s -> script_parts u = (pr, a, s).
Proof.
  intros T H. unfold script_parts. rewrite (trim_unique _ _ T). destruct T as (_ & _ & _ & _ & _ & T). rewrite (found_script t pr a s); [reflexivity|apply tight_flush; exact T|exact H].
Qed.

(** The text is no script. *)
Lemma found_other t : flush t -> (forall pr a s, ~ script_text t pr a s) ->
  (forall s, bare_shebang t s -> find_submatch shebang None t = Some [(3, s); (2, []); (1, [])]) /\
  ((forall s, ~ bare_shebang t s) -> find_submatch shebang None t = Some [(3, t)]).
Proof.
  intros F N. rewrite find_shebang, shebang_match by exact F.
  assert (TW : forall w z, t = $"#!" ++ w ++ z -> spaces w -> flush z -> forall pr a s, two_words z pr a s -> pr = []).
  { intros w z E W FZ pr a s D. destruct pr as [|c pr]; [reflexivity|]. destruct (N (c :: pr) a s). apply script_words. exists w, z. repeat split; try assumption. discriminate. }
  assert (E0 : forall z, flush z -> forall a s, two_words z [] a s -> z = [] /\ a = [] /\ s = []).
  { intros z FZ a s (b & x & -> & _ & B & H & T & (e & -> & A & E & FS & HE & L)). destruct b as [|c b]; [|apply blanks_spaces in B; inversion B; cbn in FZ; contradiction].
    cbn [app] in *. destruct a as [|c a]; [|exfalso; inversion A; subst; unfold halts, stops in H; apply negb_false_iff, re_space_iff in H; contradiction].
    cbn [app] in *. destruct e as [|c e]; [|inversion E; cbn in FZ; contradiction]. apply line_end_flush in L; [|constructor|exact FS]. destruct L as [L| ->]; [destruct L|auto]. }
  split.
  - intros s (w & -> & W & FS & NL). rewrite has_prefix_app, hash_skip.
    destruct (prog_z None s []) as [(pr & a & s' & D & _)|(NT & _)].
    + pose proof (TW w s eq_refl W FS pr a s' D). subst pr. destruct (E0 s FS a s' D) as (-> & -> & ->).
      destruct (space_some (Some "!"%char) w [] [] [] [] [] W FS D) as (pr' & a' & s'' & D' & K). destruct (two_words_unique _ _ _ _ _ _ _ D D') as (<- & <- & <-). rewrite K. reflexivity.
    + rewrite space_none by assumption. destruct NL as [NL| ->]; [destruct (in_dec ascii_dec newline w); [reflexivity|contradiction]|].
      exfalso. apply (NT [] [] []). exists [], []. repeat split; try constructor. exists []. repeat split; try constructor. exists [], []. repeat split; [constructor|left; reflexivity].
  - intros NB. destruct (has_prefix $"#!" t) eqn:P; [|reflexivity]. apply has_prefix_iff in P as (r & ->). rewrite hash_skip.
    destruct (span_class re_space r) as (w & z & -> & W & FZ). apply spaces_re in W. apply flush_stops in FZ.
    destruct (prog_z None z []) as [(pr & a & s' & D & _)|(NT & _)].
    + pose proof (TW w z eq_refl W FZ pr a s' D). subst pr. destruct (E0 z FZ a s' D) as (-> & -> & ->). destruct (NB []). exists w. auto.
    + rewrite space_none by assumption. destruct (in_dec ascii_dec newline w) as [I|I]; [|reflexivity]. destruct (NB z). exists w. auto.
Qed.


Lemma script_iff u t : trimmed u t -> (is_shebang_script u = true <-> exists pr a s, script_text t pr a s).
Proof.
  intros T. unfold is_shebang_script. rewrite (trim_unique _ _ T). destruct T as (_ & _ & _ & _ & _ & T). pose proof (tight_flush t T) as F. split.
  - intros H. destruct (has_prefix $"#!" t) eqn:P.
    + apply has_prefix_iff in P as (r & ->). destruct (span_class re_space r) as (w & z & -> & W & FZ). apply spaces_re in W. apply flush_stops in FZ.
      destruct (prog_z None z []) as [(pr & a & s' & D & _)|(NT & _)].
      * destruct pr as [|c pr]; [exfalso|exists (c :: pr), a, s'; apply script_words; exists w, z; repeat split; try assumption; discriminate].
        rewrite find_shebang, shebang_match, has_prefix_app, hash_skip in H by exact F. destruct (space_some (Some "!"%char) w z [] [] a s' W FZ D) as (pr' & a' & s'' & D' & K). destruct (two_words_unique _ _ _ _ _ _ _ D D') as (<- & <- & <-). rewrite K in H. discriminate H.
      * exfalso. rewrite find_shebang, shebang_match, has_prefix_app, hash_skip, space_none in H by assumption. destruct (in_dec ascii_dec newline w); discriminate H.
    + exfalso. rewrite find_shebang, shebang_match, P in H by exact F. discriminate H.
  - intros (pr & a & s & H). rewrite (found_script t pr a s F H). apply script_words in H as (_ & _ & _ & _ & _ & N & _). cbn. destruct pr; [contradiction|reflexivity].
Qed.

Lemma parts_other u t : trimmed u t -> is_shebang_script u = false ->
  (forall s, bare_shebang t s -> script_parts u = ([], [], s)) /\ ((forall s, ~ bare_shebang t s) -> script_parts u = ([], [], t)).
Proof.
  intros T H. assert (N : forall pr a s, ~ script_text t pr a s) by (intros pr a s X; assert (Y : is_shebang_script u = true) by (apply (script_iff u t T); eauto); congruence).
  unfold script_parts. rewrite (trim_unique _ _ T). destruct T as (_ & _ & _ & _ & _ & T). destruct (found_other t (tight_flush t T) N) as (A & B).
  split; [intros s X; rewrite (A s X); reflexivity|intros X; rewrite (B X); reflexivity].
Qed.

(** ** Commands *)
Lemma printable_word w : printable w -> word w.
Proof. apply Forall_impl. intros c (A & B) W. unfold wspace, newline in W. cbn in W. intuition subst; apply A; reflexivity. Qed.

Lemma trim_twice u t : trimmed u t -> trimmed (trim_space u) t.
Proof. intros T. rewrite (trim_unique _ _ T). destruct T as (_ & _ & _ & _ & _ & T). exists [], []. rewrite app_nil_r. repeat split; try constructor; apply T. Qed.

Lemma file_script look glob name u t pr a s args : trimmed u t -> script_text t pr a s ->
  command_from_file look glob name u args = launched (pr :: opt_word a ++ name :: glob_func glob false args).
Proof.
  intros T H. unfold command_from_file. rewrite (parts_script _ t pr a s (trim_twice u t T) H).
  apply script_words in H as (_ & _ & _ & _ & _ & N & _). destruct pr as [|c pr]; [contradiction|]. destruct a; reflexivity.
Qed.

Lemma white_visible c b : white b -> In c b -> (33 <= N_of_ascii c <= 126)%N -> False.
Proof.
  intros W I (A & B). apply in_split in I as (x & y & ->). unfold white in W. rewrite chunks_app_cut in W.
  - apply Forall_app in W as (_ & W). rewrite chunks_ascii in W by lia. inversion W; subst. cbn [fst] in *. unfold is_space_rune in *. lia.
  - unfold cont_byte, within. lia.
Qed.

Lemma printable_last k c : printable (k ++ [c]) -> (33 <= N_of_ascii c <= 126)%N.
Proof. intros P. apply Forall_app in P as (_ & P). inversion P; assumption. Qed.

(** Trimming cuts nothing visible off. *)
Lemma trim_keeps core c rest t : (33 <= N_of_ascii c <= 126)%N -> trimmed (core ++ c :: rest) t -> flush (core ++ c :: rest) ->
  (forall d r, core ++ c :: rest = d :: r -> (33 <= N_of_ascii d <= 126)%N) -> exists q b, t = core ++ c :: q /\ rest = q ++ b.
Proof.
  intros C (a & b & E & WA & WB & _) F V. destruct a as [|d a].
  - cbn in E. assert (L : length core < length t).
    { destruct (Nat.lt_ge_cases (length core) (length t)) as [L|L]; [exact L|exfalso].
      apply (white_visible c b WB); [|exact C]. assert (X : skipn (length t) (core ++ c :: rest) = b) by (rewrite E, skipn_app, skipn_all, Nat.sub_diag; reflexivity).
      rewrite <- X, skipn_app. apply in_app_iff. right. replace (length t - length core) with 0 by lia. left. reflexivity. }
    assert (X : firstn (length core) t = core) by (assert (Y := f_equal (firstn (length core)) E); rewrite !firstn_app, Nat.sub_diag, firstn_all in Y; replace (length core - length t) with 0 in Y by lia; cbn in Y; rewrite !app_nil_r in Y; symmetry; exact Y).
    rewrite <- (firstn_skipn (length core) t), X in E |- *. rewrite <- app_assoc in E. apply app_inv_head in E. destruct (skipn (length core) t) as [|d q] eqn:K.
    + exfalso. assert (Y := f_equal (@length ascii) K). rewrite skipn_length in Y. cbn in Y. lia.
    + injection E as <- E. exists q, b. auto.
  - exfalso. cbn in E. specialize (V _ _ E). exact (white_visible d (d :: a) WA (or_introl eq_refl) V).
Qed.

Lemma span_text q : exists e s, q = e ++ s /\ spaces e /\ flush s.
Proof. destruct (span_class re_space q) as (e & s & E & W & F). exists e, s. split; [exact E|]. split; [apply spaces_re; exact W|apply flush_stops; exact F]. Qed.

Lemma temp_script pr a y t : printable pr -> pr <> [] -> printable a -> trimmed ($"#! " ++ pr ++ $" " ++ a ++ newline :: y) t -> exists s, script_text t pr a s.
Proof.
  intros P N A T. destruct (exists_last N) as (pr' & c & ->).
  assert (HE : forall r d r', $"#! " ++ r = d :: r' -> (33 <= N_of_ascii d <= 126)%N) by (intros r d r' E; injection E as <- _; cbn; lia).
  assert (FL : forall r, flush ($"#! " ++ r)) by (intros r; cbn; unfold wspace, newline; cbn; intuition discriminate).
  destruct (list_eq_dec ascii_dec a []) as [->|NA].
  - change ([] ++ newline :: y) with (newline :: y) in T.
    replace ($"#! " ++ (pr' ++ [c]) ++ $" " ++ newline :: y) with (($"#! " ++ pr') ++ c :: $" " ++ newline :: y) in T by (rewrite <- !app_assoc; reflexivity).
    apply trim_keeps in T as (q & b & -> & E); [|exact (printable_last _ _ P)|rewrite <- app_assoc; apply FL|intros d r X; rewrite <- app_assoc in X; exact (HE _ _ _ X)].
    destruct (span_text q) as (e & s & -> & SE & F). exists s, $" ", [], e. repeat split; try assumption; try constructor.
    + rewrite <- !app_assoc. reflexivity.
    + unfold wspace. cbn. auto.
    + constructor.
    + exact (printable_word _ P).
    + destruct (e ++ s) as [|d [|d' r]].
      * exists [], []. repeat split; [constructor|auto].
      * injection E as <- _. exists $" ", []. repeat split; [repeat constructor; unfold wspace; cbn; auto|auto].
      * injection E as <- <- _. exists $" ", (newline :: r). repeat split; [repeat constructor; unfold wspace; cbn; auto|right; eexists; reflexivity].
  - destruct (exists_last NA) as (a' & c' & ->). clear NA.
    replace ($"#! " ++ (pr' ++ [c]) ++ $" " ++ (a' ++ [c']) ++ newline :: y) with (($"#! " ++ (pr' ++ [c]) ++ $" " ++ a') ++ c' :: newline :: y) in T by (rewrite <- !app_assoc; reflexivity).
    apply trim_keeps in T as (q & b & -> & E); [|exact (printable_last _ _ A)|rewrite <- app_assoc; apply FL|intros d r X; rewrite <- app_assoc in X; exact (HE _ _ _ X)].
    destruct (span_text q) as (e & s & -> & SE & F). exists s, $" ", $" ", e. repeat split; try assumption; try constructor.
    + rewrite <- !app_assoc. reflexivity.
    + unfold wspace. cbn. auto.
    + constructor.
    + exact (printable_word _ P).
    + auto.
    + constructor.
    + discriminate.
    + exact (printable_word _ A).
    + destruct (e ++ s) as [|d r].
      * exists [], []. repeat split; [constructor|auto].
      * injection E as <- _. exists [], (newline :: r). repeat split; [constructor|right; eexists; reflexivity].
Qed.

Lemma temp_added content args : temp_content content args = content ++ added args.
Proof. destruct args; [symmetry; apply app_nil_r|reflexivity]. Qed.

Lemma save_script look glob temp pr a s args : printable pr -> pr <> [] -> printable a ->
  save_temp look glob temp ($"#! " ++ pr ++ $" " ++ a ++ newline :: s) args =
  {| l_command := Some (pr :: opt_word a ++ [temp]); l_temp := Some ($"#! " ++ pr ++ $" " ++ a ++ newline :: s ++ added args); l_error := false |}.
Proof.
  intros P N A. unfold save_temp. rewrite temp_added.
  assert (E : ($"#! " ++ pr ++ $" " ++ a ++ newline :: s) ++ added args = $"#! " ++ pr ++ $" " ++ a ++ newline :: s ++ added args) by (rewrite <- !app_assoc; reflexivity).
  rewrite E. set (c := $"#! " ++ pr ++ $" " ++ a ++ newline :: s ++ added args).
  destruct (temp_script pr a (s ++ added args) (trim_space c) P N A (trim_trimmed c)) as (s' & D).
  cbv zeta. rewrite (file_script look glob temp c _ pr a s' [] (trim_trimmed c) D). reflexivity.
Qed.

Lemma string_script look glob shell temp u t pr a s args : trimmed u t -> script_text t pr a s -> printable pr -> printable a ->
  command_from_string look glob shell temp u args =
  {| l_command := Some (pr :: opt_word a ++ [temp]); l_temp := Some ($"#! " ++ pr ++ $" " ++ a ++ newline :: s ++ added args); l_error := false |}.
Proof.
  intros T H P A. unfold command_from_string. rewrite (parts_script _ t pr a s (trim_twice u t T) H).
  apply script_words in H as (_ & _ & _ & _ & _ & N & _). rewrite <- (save_script look glob temp pr a s args P N A). destruct pr as [|c pr]; [contradiction|]. reflexivity.
Qed.

Lemma shell_script pr y t : printable pr -> pr <> [] -> trimmed ($"#! " ++ pr ++ newline :: y) t -> exists s, script_text t pr [] s.
Proof.
  intros P N T. destruct (exists_last N) as (pr' & c & ->).
  replace ($"#! " ++ (pr' ++ [c]) ++ newline :: y) with (($"#! " ++ pr') ++ c :: newline :: y) in T by (rewrite <- !app_assoc; reflexivity).
  apply trim_keeps in T as (q & b & -> & E); [|exact (printable_last _ _ P)|cbn; unfold wspace, newline; cbn; intuition discriminate|intros d r X; injection X as <- _; cbn; lia].
  destruct (span_text q) as (e & s & -> & SE & F). exists s, $" ", [], e. repeat split; try assumption; try constructor.
  - rewrite <- !app_assoc. reflexivity.
  - unfold wspace. cbn. auto.
  - constructor.
  - exact (printable_word _ P).
  - destruct (e ++ s) as [|d r].
    + exists [], []. repeat split; [constructor|auto].
    + injection E as <- _. exists [], (newline :: r). repeat split; [constructor|right; eexists; reflexivity].
Qed.

Lemma no_hash t : has_prefix $"#!" t = false -> (forall pr a s, ~ script_text t pr a s) /\ forall s, ~ bare_shebang t s.
Proof.
  intros H. split.
  - intros pr a s (w & b & e & -> & _). rewrite has_prefix_app in H. discriminate.
  - intros s (w & -> & _). rewrite has_prefix_app in H. discriminate.
Qed.

Lemma parts_plain u t : trimmed u t -> has_prefix $"#!" t = false -> script_parts u = ([], [], t).
Proof.
  intros T H. destruct (no_hash t H) as (A & B). apply (parts_other u t T); [|exact B].
  destruct (is_shebang_script u) eqn:S; [|reflexivity]. apply (script_iff u t T) in S as (pr & a & s & X). destruct (A _ _ _ X).
Qed.

Lemma is_command_iff t : is_command t = true <-> forall c, In c t -> ~ In c ($" " ++ "009"%char :: $"|&$,;(){}<>[]").
Proof.
  unfold is_command. rewrite negb_true_iff. split.
  - intros H c I J. assert (X : existsb (fun c => contains_byte c ($" " ++ "009"%char :: $"|&$,;(){}<>[]")) t = true) by (apply existsb_exists; exists c; split; [exact I|apply contains_byte_In; exact J]). congruence.
  - intros H. destruct (existsb _ t) eqn:X; [|reflexivity]. apply existsb_exists in X as (c & I & J). apply contains_byte_In in J. destruct (H c I J).
Qed.

Lemma string_known look glob shell temp u t args : trimmed u t -> has_prefix $"#!" t = false -> look t = true ->
  command_from_string look glob shell temp u args = launched (t :: glob_func glob false args).
Proof. intros T H L. unfold command_from_string. rewrite (parts_plain _ t (trim_twice u t T) H). cbn [str_eqb negb]. rewrite L. reflexivity. Qed.

Lemma string_unknown look glob shell temp u t args : trimmed u t -> has_prefix $"#!" t = false -> look t = false ->
  (forall c, In c t -> ~ In c ($" " ++ "009"%char :: $"|&$,;(){}<>[]")) -> command_from_string look glob shell temp u args = {| l_command := None; l_temp := None; l_error := true |}.
Proof. intros T H L C. apply is_command_iff in C. unfold command_from_string. rewrite (parts_plain _ t (trim_twice u t T) H). cbn [str_eqb negb]. rewrite L, C. reflexivity. Qed.

Lemma string_shell look glob shell temp u t args c : trimmed u t -> has_prefix $"#!" t = false -> look t = false ->
  In c t -> In c ($" " ++ "009"%char :: $"|&$,;(){}<>[]") -> printable shell -> shell <> [] ->
  command_from_string look glob shell temp u args = {| l_command := Some [shell; temp]; l_temp := Some ($"#! " ++ shell ++ newline :: t ++ added args); l_error := false |}.
Proof.
  intros T H L I J P N. unfold command_from_string. rewrite (parts_plain _ t (trim_twice u t T) H). cbn [str_eqb negb]. rewrite L.
  destruct (is_command t) eqn:C; [exfalso; exact (proj1 (is_command_iff t) C c I J)|].
  unfold save_temp. rewrite temp_added.
  assert (E : ($"#! " ++ shell ++ newline :: t) ++ added args = $"#! " ++ shell ++ newline :: t ++ added args) by (rewrite <- !app_assoc; reflexivity).
  change NLc with newline. rewrite E. set (k := $"#! " ++ shell ++ newline :: t ++ added args).
  destruct (shell_script shell (t ++ added args) (trim_space k) P N (trim_trimmed k)) as (s' & D).
  cbv zeta. rewrite (file_script look glob temp k _ shell [] s' [] (trim_trimmed k) D). reflexivity.
Qed.

Lemma file_known look glob name u t args : trimmed u t -> has_prefix $"#!" t = false -> look t = true ->
  command_from_file look glob name u args = launched (t :: glob_func glob false args).
Proof. intros T H L. unfold command_from_file. rewrite (parts_plain _ t (trim_twice u t T) H). cbn [str_eqb negb]. rewrite L. reflexivity. Qed.

Lemma file_words look glob name u ws args : ws <> [] -> 1 < length ws -> Forall (fun w => ~ In " "%char w) ws -> trimmed u (join $" " ws) -> has_prefix $"#!" (join $" " ws) = false -> look (join $" " ws) = false ->
  command_from_file look glob name u args = launched (ws ++ glob_func glob false args).
Proof.
  intros N2 LW W T H L. unfold command_from_file. rewrite (parts_plain _ _ (trim_twice u _ T) H). cbn [str_eqb negb]. rewrite L.
  assert (C : contains $" " (join $" " ws) = true).
  { destruct ws as [|a [|b r]]; [contradiction|cbn in LW; lia|]. apply contains_iff. exists a, (join $" " (b :: r)). reflexivity. }
  rewrite C. rewrite (split1_join " "%char); [reflexivity|assumption|assumption].
Qed.
