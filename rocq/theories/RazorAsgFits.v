(** Razor documents with assignments fit the automaton. *)
From Coq Require Import String Ascii List ZArith NArith Bool Lia ZifyBool ZifyN.
From Verif Require Import GoStr GoStrFacts Utf8 TemplateModel TemplateSpec TemplateProofs RazorExprModel RazorWordsSpec
  ReModel ReSyntaxModel RazorTableModel RazorAssignModel ReSound RazorRefSpec RazorRefAuto RazorRefProofs RazorRefMain RazorAsgSpec RazorAsgAuto RazorAsgExpr RazorAsgVal3 RazorAsgWrite2 RazorAsgMatch.
Import ListNotations.
Local Open Scope char_scope.

Section Open.
Variable open : bool.
Notation ad := (adelta open).
Notation fit := (fits (adelta open)).
Lemma str_eqb_refl' : forall s, str_eqb s s = true.
Proof. intro s. apply str_eqb_eq. reflexivity. Qed.
Fixpoint runs (q s q' : str) : Prop :=
  match s with
  | [] => q = q'
  | c :: s => exists q1, In q1 (ad q c) /\ runs q1 s q'
  end.
Lemma runs_fits : forall s q q' t, runs q s q' -> fit q' t -> fit q (s ++ t).
Proof.
  induction s as [|c s IH]; intros q q' t R F; [cbn in R; subst; exact F|]. destruct R as (q1 & I & R). exists q1. split; [exact I | exact (IH _ _ _ R F)].
Qed.
Lemma runs_app : forall a b q q1 q2, runs q a q1 -> runs q1 b q2 -> runs q (a ++ b) q2.
Proof.
  induction a as [|c a IH]; intros b q q1 q2 R F; [cbn in R; subst; exact F|]. destruct R as (q0 & I & R). exists q0. split; [exact I | exact (IH _ _ _ _ R F)].
Qed.
Lemma runs_loop : forall (P : ascii -> Prop) q s, (forall c, P c -> In q (ad q c)) -> Forall P s -> runs q s q.
Proof. intros P q s H F. induction F as [|c s C F IH]; [reflexivity|]. exists q. split; [exact (H c C) | exact IH]. Qed.

(** ** Suffixes *)
Lemma inner_step : forall q c q', q <> $"L" -> In q' (ad q c) -> c <> "@" /\ (if Ascii.eqb c "010" then q' = $"L" else q' <> $"L").
Proof.
  intros q c q' NL I.
  assert (OS : forall b c q', In q' (op_step b c) -> c <> "@" /\ c <> "010" /\ q' <> $"L").
  { clear. intros b c q' I. unfold op_step, one_of in I.
    repeat match type of I with In _ (if ?x then _ else _) => destruct x eqn:?E | In _ [] => destruct I | In _ [_] => destruct I as [<-|[]] end;
    (split; [intros ->; cbn in *; try discriminate; destruct b; discriminate | split; [intros ->; cbn in *; try discriminate; destruct b; discriminate | discriminate]]). }
  assert (NS : forall u c q', In q' (name_step2 u c) -> q' <> $"L").
  { clear. intros u c q' I. unfold name_step2, name_state2 in I. cbv zeta in I.
    repeat match type of I with In _ (if ?x then _ else _) => destruct x eqn:?E | In _ [] => destruct I | In _ [_] => destruct I as [<-|[]] end. destruct (existsb _ _); discriminate. }
  assert (AN : forall c q', In q' (after_name c) -> c <> "@" /\ c <> "010" /\ q' <> $"L").
  { clear - OS. intros c q' I. unfold after_name in I. destruct (Ascii.eqb c ".") eqn:E; [|destruct (is_blank c) eqn:E2; [|exact (OS _ _ _ I)]].
    - destruct I as [<-|[]]. apply Ascii.eqb_eq in E. subst. repeat split; discriminate.
    - destruct I as [<-|[]]. repeat split; try discriminate; intros ->; discriminate. }
  unfold adelta in I. 
  repeat match type of I with
         | In _ (if str_eqb q $"L" then _ else _) => destruct (str_eqb q $"L") eqn:?E; [exfalso; apply NL; apply str_eqb_eq; assumption|]
         | In _ (if negb ?b then _ else _) => destruct b; cbn [negb] in I
         | In _ (if ?x then _ else _) => destruct x eqn:?E
         | In _ [] => destruct I | In _ [_] => destruct I as [<-|[]] end.
  all: try (apply AN in I; destruct I as (A1 & A2 & A3); split; [exact A1 | rewrite (proj2 (Ascii.eqb_neq _ _) A2); exact A3]).
  all: try (apply OS in I; destruct I as (A1 & A2 & A3); split; [exact A1 | rewrite (proj2 (Ascii.eqb_neq _ _) A2); exact A3]).
  all: try (apply NS in I; split; [intros ->; discriminate | destruct (Ascii.eqb_spec c "010") as [->|_]; [discriminate | exact I]]).
  all: try (split; [intros ->; discriminate | destruct (Ascii.eqb_spec c "010") as [->|_]; try discriminate; reflexivity]).
  destruct q as [|x u]; [destruct I|]. destruct x as [[] [] [] [] [] [] [] []]; try destruct I.
  destruct (is_word c) eqn:W.
  - apply NS in I. split; [intros ->; discriminate | destruct (Ascii.eqb_spec c "010") as [->|_]; [discriminate | exact I]].
  - apply AN in I; destruct I as (A1 & A2 & A3); split; [exact A1 | rewrite (proj2 (Ascii.eqb_neq _ _) A2); exact A3].
Qed.
Lemma fits_text : forall s q, q <> $"L" -> fit q s -> fit $"T" s.
Proof.
  induction s as [|c s IH]; intros q NL F; [exact I|]. destruct F as (q' & I & F). destruct (inner_step q c q' NL I) as [A1 A2]. destruct (Ascii.eqb_spec c "010") as [->|N].
  - subst q'. exists $"L". split; [left; reflexivity | exact F].
  - exists $"T". split; [|exact (IH q' A2 F)]. unfold adelta. cbn [str_eqb]. change (str_eqb $"T" $"L") with false. change (str_eqb $"T" $"T") with true. cbn iota.
    rewrite (proj2 (Ascii.eqb_neq c "010") N), (proj2 (Ascii.eqb_neq c "@") A1). left. reflexivity.
Qed.
Lemma fits_suffix : forall u t q, fit q (u ++ t) -> exists q', In q' inits /\ fit q' t.
Proof.
  induction u as [|c u IH]; intros t q F.
  - destruct (list_eq_dec ascii_dec q $"L") as [->|N]; [exists $"L"; split; [left; reflexivity | exact F] | exists $"T"; split; [right; left; reflexivity | exact (fits_text t q N F)]].
  - destruct F as (q' & _ & F). exact (IH t q' F).
Qed.
Lemma asilent_idle : forall bytes fuel, (forall c, In c bytes) -> forall ws r s, asilent_with bytes fuel open ws r = true -> fit $"L" s -> (forall w, In w ws -> contains w s = false) -> idle r s.
Proof.
  intros bytes fuel ALL ws r s H F W. unfold asilent_with in H. cbv zeta beta in H. destruct (needs bytes fuel ws [] [r]) eqn:N; [exact (needs_idle bytes fuel ALL ws r s N W)|].
  intros u t E t' EA. rewrite E in F. destruct (fits_suffix u t _ F) as (q & Q & FQ). exact (dead_sound bytes ALL (adelta open) _ _ _ _ _ H Q FQ EA).
Qed.

(** ** Lines *)
Lemma blank_iff : forall c, blank_char c -> is_blank c = true.
Proof. intros c. apply is_blank_iff. Qed.
Definition rest_fits (t : str) : Prop := t = [] \/ exists r, t = "010" :: r /\ fit $"L" r.
Lemma text_fits : forall s q t, q = $"L" \/ q = $"T" -> ~ In "@" s -> ~ In "010" s -> rest_fits t -> fit q (s ++ t).
Proof.
  induction s as [|c s IH]; intros q t Q A N R.
  - destruct R as [->|(r & -> & F)]; [exact I|]. exists $"L". split; [destruct Q as [->| ->]; left; reflexivity | exact F].
  - assert (CA : Ascii.eqb c "@" = false) by (apply Ascii.eqb_neq; intros ->; apply A; left; reflexivity).
    assert (CN : Ascii.eqb c "010" = false) by (apply Ascii.eqb_neq; intros ->; apply N; left; reflexivity).
    assert (IH' : forall q, q = $"L" \/ q = $"T" -> fit q (s ++ t)) by (intros q0 Q0; apply IH; [exact Q0 | intro; apply A; right; assumption | intro; apply N; right; assumption | exact R]).
    destruct Q as [->| ->].
    + destruct (is_blank c) eqn:B.
      * exists $"L". split; [|apply IH'; left; reflexivity]. change (In $"L" (if is_blank c || Ascii.eqb c "010" then [$"L"] else if Ascii.eqb c "@" then [$"@"] else [$"T"])). rewrite B. left. reflexivity.
      * exists $"T". split; [|apply IH'; right; reflexivity]. change (In $"T" (if is_blank c || Ascii.eqb c "010" then [$"L"] else if Ascii.eqb c "@" then [$"@"] else [$"T"])). rewrite B, CN, CA. left. reflexivity.
    + exists $"T". split; [|apply IH'; right; reflexivity]. change (In $"T" (if Ascii.eqb c "010" then [$"L"] else if Ascii.eqb c "@" then [] else [$"T"])). rewrite CN, CA. left. reflexivity.
Qed.
Lemma indent_runs : forall b, Forall blank_char b -> runs $"L" b $"L".
Proof.
  intros b B. apply (runs_loop blank_char); [|exact B]. intros c C. apply blank_iff in C. change (In $"L" (if is_blank c || Ascii.eqb c "010" then [$"L"] else if Ascii.eqb c "@" then [$"@"] else [$"T"])). rewrite C. left. reflexivity.
Qed.
Lemma blank_runs : forall b, Forall blank_char b -> runs $"B" b $"B".
Proof.
  intros b B. apply (runs_loop blank_char); [|exact B]. intros c C. apply blank_iff in C. change (In $"B" (if is_blank c then [$"B"] else op_step true c)). rewrite C. left. reflexivity.
Qed.
Lemma gap_runs : forall b, Forall blank_char b -> runs $"V" b $"V".
Proof.
  intros b B. apply (runs_loop blank_char); [|exact B]. intros c C. apply blank_iff in C. change (In $"V" (if is_blank c then [$"V"] else if is_value c then [$"E"] else [])). rewrite C. left. reflexivity.
Qed.
Lemma value_iff : forall c, value_char c -> is_value c = true.
Proof.
  intros c [W|[B|I]]; unfold is_value.
  - apply is_word_iff in W. rewrite W. reflexivity.
  - apply blank_iff in B. rewrite B. rewrite orb_true_r. reflexivity.
  - rewrite orb_true_iff. right. unfold one_of. apply existsb_exists. exists c. split; [exact I | apply Ascii.eqb_refl].
Qed.
Lemma value_runs : forall E, Forall value_char E -> (exists c r, E = c :: r /\ ~ blank_char c) -> runs $"V" E $"E".
Proof.
  intros E F (c & r & -> & NB). inversion F as [|? ? VC VR]; subst. exists $"E". split.
  - change (In $"E" (if is_blank c then [$"V"] else if is_value c then [$"E"] else [])). rewrite (value_iff c VC). destruct (is_blank c) eqn:B; [apply is_blank_iff in B; contradiction | left; reflexivity].
  - apply (runs_loop value_char); [|exact VR]. intros d D. change (In $"E" (if is_value d then [$"E"] else if Ascii.eqb d "010" then [$"L"] else [])). rewrite (value_iff d D). left. reflexivity.
Qed.
Lemma value_fits : forall E t, Forall value_char E -> (exists c r, E = c :: r /\ ~ blank_char c) -> rest_fits t -> fit $"V" (E ++ t).
Proof.
  intros E t F X R. apply (runs_fits _ _ $"E"); [exact (value_runs E F X)|]. destruct R as [->|(r & -> & FR)]; [exact I|]. exists $"L". split; [left; reflexivity | exact FR].
Qed.
(** The operator, after blanks or at once *)
Lemma op_runs : forall q (blank : bool) o, op_ok o -> (blank = false -> forall op, o = Update op -> ~ In op [$"+"; $"-"; $"*"; $"%"]) ->
  (forall c q', In q' (op_step blank c) -> is_word c = false -> Ascii.eqb c "." = false -> is_blank c = false -> In q' (ad q c)) -> runs q (op_text o) $"V".
Proof.
  intros q blank o O NB ST. destruct o as [| |op].
  - exists $"O=". split; [apply ST; try reflexivity; left; reflexivity|]. exists $"V". split; [left; reflexivity | reflexivity].
  - exists $"V". split; [apply ST; try reflexivity; left; reflexivity | reflexivity].
  - specialize (O op eq_refl). cbn in O.
    repeat (destruct O as [<-|O]; [first
      [ exists $"O="; split; [apply ST; try reflexivity; destruct blank; [left; reflexivity | try (exfalso; apply (NB eq_refl _ eq_refl); cbn; tauto); left; reflexivity] | exists $"V"; split; [left; reflexivity | reflexivity]]
      | exists $"O<"; split; [apply ST; try reflexivity; destruct blank; left; reflexivity|]; exists $"O="; split; [left; reflexivity|]; exists $"V"; split; [left; reflexivity | reflexivity]
      | exists $"O>"; split; [apply ST; try reflexivity; destruct blank; left; reflexivity|]; exists $"O="; split; [left; reflexivity|]; exists $"V"; split; [left; reflexivity | reflexivity]
      | exists $"O&"; split; [apply ST; try reflexivity; destruct blank; left; reflexivity|]; exists $"V"; split; [left; reflexivity | reflexivity]
      | exists $"O&"; split; [apply ST; try reflexivity; destruct blank; left; reflexivity|]; exists $"O="; split; [left; reflexivity|]; exists $"V"; split; [left; reflexivity | reflexivity]] |]).
    destruct O.
Qed.

(** ** Targets *)
Definition past (q : str) : Prop := q = $"I" \/ exists u, q = "n" :: u.
Lemma past_after : forall q c, past q -> is_word c = false -> ad q c = after_name c.
Proof. intros q c [->|(u & ->)] W; unfold adelta; cbn -[after_name is_word]; rewrite W; reflexivity. Qed.
Lemma word_I : forall w, Forall word_char w -> runs $"I" w $"I".
Proof. intros w W. apply (runs_loop word_char); [|exact W]. intros c C. apply is_word_iff in C. unfold adelta. cbn -[after_name is_word]. rewrite C. left. reflexivity. Qed.
Lemma word_J : forall w, Forall word_char w -> runs $"J" w $"J".
Proof. intros w W. apply (runs_loop word_char); [|exact W]. intros c C. apply is_word_iff in C. unfold adelta. cbn -[after_name is_word]. rewrite C. left. reflexivity. Qed.
Lemma name_dot : forall n, name_ok n -> runs $"@." n $"I".
Proof.
  intros n (c & r & -> & A & W & _). exists $"I". split; [|exact (word_I r W)]. apply is_alpha_iff in A. unfold adelta. cbn -[after_name is_word is_alpha]. rewrite A. left. reflexivity.
Qed.
Lemma name_dollar : forall n, name_ok n -> runs $"@$" n $"I".
Proof.
  intros n (c & r & -> & A & W & _). exists $"I". split; [|exact (word_I r W)]. apply is_alpha_iff in A. unfold adelta. cbn -[after_name is_word is_alpha Ascii.eqb]. rewrite A.
  destruct (Ascii.eqb_spec c ".") as [->|_]; [discriminate | left; reflexivity].
Qed.
Lemma name_brace : forall n, name_ok n -> runs $"{" n $"J".
Proof.
  intros n (c & r & -> & A & W & _). exists $"J". split; [|exact (word_J r W)]. apply is_alpha_iff in A. unfold adelta. cbn -[after_name is_word is_alpha Ascii.eqb]. rewrite A. left. reflexivity.
Qed.
Lemma fields_past : forall l q, past q -> Forall name_ok l -> exists q', past q' /\ runs q (fields l) q'.
Proof.
  induction l as [|n l IH]; intros q P F; [exists q; split; [exact P | reflexivity]|]. inversion F; subst.
  destruct (IH $"I" (or_introl eq_refl)) as (q' & P' & R); [assumption|]. exists q'. split; [exact P'|]. change (fields (n :: l)) with ("." :: (n ++ fields l)).
  exists $"@.". split; [rewrite past_after by (try exact P; reflexivity); left; reflexivity|]. apply (runs_app _ _ _ $"I"); [apply name_dot; assumption | exact R].
Qed.
Lemma fields_brace : forall l, Forall name_ok l -> runs $"J" (fields l) $"J".
Proof.
  induction l as [|n l IH]; intros F; [reflexivity|]. inversion F; subst. change (fields (n :: l)) with ("." :: (n ++ fields l)).
  exists $"{". split; [left; reflexivity|]. apply (runs_app _ _ _ $"J"); [apply name_brace; assumption | apply IH; assumption].
Qed.
Lemma mem_iff : forall v l, mem v l = true -> In v l.
Proof. intros v l H. unfold mem in H. apply existsb_exists in H. destruct H as (x & I & E). apply str_eqb_eq in E. subst. exact I. Qed.
Lemma name_keys : open = true -> forall n, name_ok n -> ~ prefix_of $"else" n -> ~ prefix_of $"end" n -> exists q, past q /\ runs $"@" n q.
Proof.
  intros OP n (c & r & -> & A & W & _) K1 K2.
  assert (G0 : forall r u, Forall word_char r -> (forall k, In k kw2 -> ~ prefix_of k (u ++ r)) -> exists q, past q /\ runs (name_state2 u) r q).
  { clear. induction r as [|c r IH]; intros u W K.
    - exists (name_state2 u). split; [|reflexivity]. unfold past, name_state2. destruct (existsb _ _); [right; exists u; reflexivity | left; reflexivity].
    - inversion W; subst. match goal with X : word_char c |- _ => apply is_word_iff in X; rename X into WC end. unfold name_state2. destruct (existsb _ _).
      + destruct (IH (u ++ [c])) as (q & P & R); [assumption | intros k I; rewrite <- app_assoc; exact (K k I)|]. exists q. split; [exact P|]. exists (name_state2 (u ++ [c])). split; [|exact R].
        unfold adelta. cbn -[is_word name_step2 after_name]. rewrite WC. unfold name_step2. cbv zeta. destruct (mem (u ++ [c]) kw2) eqn:M; [|left; reflexivity]. exfalso. apply mem_iff in M. apply (K _ M).
        exists r. rewrite <- app_assoc. reflexivity.
      + exists $"I". split; [left; reflexivity|]. apply word_I. constructor; [apply is_word_iff; exact WC | assumption]. }
  destruct (G0 r [c] W) as (q & P & R); [intros k [<-|[<-|[]]]; assumption|]. exists q. split; [exact P|]. exists (name_state2 [c]). split; [|exact R].
  apply is_alpha_iff in A. unfold adelta. cbn -[is_word is_alpha name_step2 after_name Ascii.eqb]. rewrite OP, A. cbn [negb]. destruct (Ascii.eqb_spec c "{") as [->|_]; [discriminate|].
  unfold name_step2. cbv zeta. destruct (mem ([] ++ [c]) kw2) eqn:M; [|left; reflexivity]. apply mem_iff in M. cbn in M. destruct M as [M|[M|[]]]; discriminate M.
Qed.
Lemma plain_target : open = true -> forall t, target_ok t -> t_kind t <> Braced -> exists q, past q /\ runs $"L" (target_text t) q.
Proof.
  intros OP t (F & K) NB. destruct (names_split t) as (n & l & EN).
  assert (FN : name_ok n /\ Forall name_ok l) by (rewrite EN in F; inversion F; subst; split; assumption). destruct FN as [FN FL].
  assert (AT0 : forall s q, runs $"@" s q -> runs $"L" ("@" :: s) q) by (intros s q R; exists $"@"; split; [left; reflexivity | exact R]).
  unfold target_text. rewrite EN, dotted_fields. destruct (t_kind t); [| | | |contradiction].
  - destruct (K eq_refl n) as [K1 K2]; [rewrite EN; reflexivity|]. destruct (name_keys OP n FN K1 K2) as (q1 & P1 & R1). destruct (fields_past l q1 P1 FL) as (q & P & R).
    exists q. split; [exact P|]. apply AT0. exact (runs_app _ _ _ _ _ R1 R).
  - destruct (fields_past l $"I" (or_introl eq_refl) FL) as (q & P & R). exists q. split; [exact P|]. apply AT0. exists $"@$". split; [unfold adelta; cbn; rewrite OP; left; reflexivity|].
    exists $"@.". split; [left; reflexivity|]. exact (runs_app _ _ _ _ _ (name_dot n FN) R).
  - destruct (fields_past l $"I" (or_introl eq_refl) FL) as (q & P & R). exists q. split; [exact P|]. apply AT0. exists $"@.". split; [unfold adelta; cbn; rewrite OP; left; reflexivity|].
    exact (runs_app _ _ _ _ _ (name_dot n FN) R).
  - destruct (fields_past l $"I" (or_introl eq_refl) FL) as (q & P & R). exists q. split; [exact P|]. apply AT0. exists $"@$". split; [unfold adelta; cbn; rewrite OP; left; reflexivity|].
    exact (runs_app _ _ _ _ _ (name_dollar n FN) R).
Qed.
Lemma braced_target : forall t, Forall name_ok (names t) -> t_kind t = Braced -> runs $"L" (target_text t) $"B".
Proof.
  intros t F NB. destruct (names_split t) as (n & l & EN).
  assert (FN : name_ok n /\ Forall name_ok l) by (rewrite EN in F; inversion F; subst; split; assumption). destruct FN as [FN FL].
  unfold target_text. rewrite EN, dotted_fields, NB. exists $"@". split; [left; reflexivity|]. exists $"{". split; [left; reflexivity|].
  change (runs $"{" ((n ++ fields l) ++ $"}") $"B"). rewrite <- app_assoc. apply (runs_app _ _ _ $"J"); [exact (name_brace n FN)|]. apply (runs_app _ _ _ $"J"); [exact (fields_brace l FL)|]. exists $"B". split; [left; reflexivity | reflexivity].
Qed.
Definition covered (t : target) : Prop := open = true \/ t_kind t = Braced.
Lemma assign_runs : forall t b o, covered t -> target_ok t -> spacing_ok t b o -> op_ok o -> runs $"L" (target_text t ++ b ++ op_text o) $"V".
Proof.
  intros t b o C T (FB & NB) O.
  assert (BL : runs $"B" (op_text o) $"V") by (apply (op_runs $"B" true); [exact O | discriminate|]; intros c q' I _ _ B; change (In q' (if is_blank c then [$"B"] else op_step true c)); rewrite B; exact I).
  destruct (t_kind t) eqn:K.
  5:{ apply (runs_app _ _ _ $"B"); [apply braced_target; [apply T | exact K]|]. exact (runs_app _ _ _ _ _ (blank_runs b FB) BL). }
  all: assert (OP : open = true) by (destruct C as [C|C]; [exact C | congruence]);
    destruct (plain_target OP t T ltac:(congruence)) as (q & P & R); apply (runs_app _ _ _ q _ R); destruct b as [|c b].
  all: try (inversion FB as [|? ? BC FB']; subst; exists $"B"; split; [|exact (runs_app _ _ _ _ _ (blank_runs b FB') BL)]; apply blank_iff in BC; rewrite past_after;
    [unfold after_name; rewrite BC; destruct (Ascii.eqb_spec c ".") as [->|_]; [discriminate | left; reflexivity] | exact P | destruct (is_word c) eqn:W; [|reflexivity]; apply is_blank_iff in BC; destruct BC as [->| ->]; discriminate]).
  all: cbn [app]; apply (op_runs q false); [exact O | intros _ op OE; apply (NB eq_refl); [congruence | exact OE]|];
    intros c q' I W D B; rewrite past_after by assumption; unfold after_name; rewrite D, B; exact I.
Qed.
Lemma assign_fits : forall i t b1 o b2 E e u, covered t -> Forall blank_char i -> target_ok t -> spacing_ok t b1 o -> op_ok o -> Forall blank_char b2 -> text_ok E -> rest_fits u ->
  fit $"L" (line_source (Asg i t b1 o b2 E e) ++ u).
Proof.
  intros i t b1 o b2 E e u C B T SP O B2 (TE & HE & _) R. cbn [line_source].
  replace ((i ++ target_text t ++ b1 ++ op_text o ++ b2 ++ E) ++ u) with (i ++ (target_text t ++ b1 ++ op_text o) ++ b2 ++ E ++ u) by (rewrite <- !app_assoc; reflexivity).
  apply (runs_fits _ _ $"L"); [exact (indent_runs i B)|]. apply (runs_fits _ _ $"V"); [exact (assign_runs t b1 o C T SP O)|]. apply (runs_fits _ _ $"V"); [exact (gap_runs b2 B2)|].
  apply value_fits; assumption.
Qed.
(** ** Documents *)
Lemma lines_fit : forall (f : line -> str) l, (forall x u, In x l -> rest_fits u -> fit $"L" (f x ++ u)) -> fit $"L" (lines f l).
Proof.
  intros f. induction l as [|x l IH]; intros H; [exact I|]. destruct l as [|y l].
  - rewrite <- (app_nil_r (lines f [x])). apply H; [left; reflexivity | left; reflexivity].
  - change (lines f (x :: y :: l)) with (f x ++ "010" :: lines f (y :: l)). apply H; [left; reflexivity|]. right. eexists. split; [reflexivity|]. apply IH. intros z u I R. apply H; [right; exact I | exact R].
Qed.
End Open.
