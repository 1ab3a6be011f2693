From Coq Require Import String Ascii List ZArith NArith Bool PeanoNat Lia.
From Verif Require Import GoStr GoStrFacts Utf8 ValueModel ValueFacts ListModel DictModel DataModel HeapModel HeapSpec HeapProofs PathModel IncludeModel IncludeSpec IncludeProofs AliasModel AliasSpec.
Import ListNotations.

(** ** Letters *)
Lemma low_table c : (small c -> low c = c /\ c <> "196"%char /\ c <> "226"%char) /\
  (forall c', small c' -> nat_of_ascii c + 32 = nat_of_ascii c' -> low c = c' /\ c <> "196"%char /\ c <> "226"%char) /\
  (small (low c) -> small c \/ nat_of_ascii c + 32 = nat_of_ascii (low c)) /\ ~ small "196"%char /\ ~ small "226"%char /\ low "196" = "196"%char /\ low "226" = "226"%char.
Proof.
  assert (INJ : forall a b, nat_of_ascii a = nat_of_ascii b -> a = b) by (intros a b H; rewrite <- (ascii_nat_embedding a), <- (ascii_nat_embedding b), H; reflexivity).
  split; [|split; [|split; [|split; [|split; [|split]]]]]; try (unfold small; cbv; lia); try reflexivity.
  - destruct c as [[] [] [] [] [] [] [] []]; intros [A B]; vm_compute in A, B; try lia; repeat split; discriminate.
  - intros c' S1 E. split; [|split; intros ->; unfold small in S1; rewrite <- E in S1; cbv in S1; lia]. apply INJ. rewrite <- E. unfold small in S1. rewrite <- E in S1. clear E c'.
    destruct c as [[] [] [] [] [] [] [] []]; destruct S1 as [A B]; vm_compute in A, B; try lia; reflexivity.
  - destruct c as [[] [] [] [] [] [] [] []]; intros [A B]; vm_compute in A, B; try lia; first [left; split; vm_compute; lia|right; reflexivity].
Qed.
Lemma lower_cons c r : c <> "196"%char -> c <> "226"%char -> lower (c :: r) = low c :: lower r.
Proof.
  intros A B. destruct r as [|c1 r]; [reflexivity|]. cbn [lower]. destruct (Ascii.eqb_spec c "196"); [contradiction|]. cbn [andb]. destruct r as [|c2 r]; [reflexivity|]. destruct (Ascii.eqb_spec c "226"); [contradiction|]. reflexivity.
Qed.
Lemma lower_written key w : Forall small w -> lower key = w <-> written key w.
Proof.
  intro SM. split.
  - revert w SM. induction key as [key IH] using (well_founded_induction (Wf_nat.well_founded_ltof _ (@length ascii))). unfold Wf_nat.ltof in IH. intros w SM E. destruct key as [|c r]; [subst; constructor|].
    assert (DEF : lower (c :: r) = low c :: lower r -> written (c :: r) w).
    { intro X. rewrite X in E. subst w. inversion SM as [|? ? S1 S2]; subst. assert (W : written r (lower r)) by (apply IH; [cbn; lia|exact S2|reflexivity]).
      destruct (low_table c) as (T1 & _ & T3 & _). destruct (T3 S1) as [SC|SC]; [destruct (T1 SC) as [-> _]; apply wr_small; assumption|apply wr_capital; assumption]. }
    destruct r as [|c1 r]; [apply DEF; reflexivity|]. cbn [lower] in E, DEF. destruct (Ascii.eqb_spec c "196") as [->|N1].
    + destruct (Ascii.eqb_spec c1 "176") as [->|N2]; cbn [andb] in E, DEF.
      * subst w. inversion SM; subst. apply wr_dotted. apply IH; [cbn; lia|assumption|reflexivity].
      * destruct r as [|c2 r]; [apply DEF; reflexivity|]. change (Ascii.eqb "196" "226") with false in E, DEF. cbn [andb] in E, DEF. apply DEF; reflexivity.
    + cbn [andb] in E, DEF. destruct r as [|c2 r]; [apply DEF; reflexivity|]. destruct (Ascii.eqb_spec c "226") as [->|N2]; [|apply DEF; reflexivity]. destruct (Ascii.eqb_spec c1 "132") as [->|N3]; [|apply DEF; reflexivity].
      destruct (Ascii.eqb_spec c2 "170") as [->|N4]; [|apply DEF; reflexivity]. cbn [andb] in E. subst w. inversion SM; subst. apply wr_kelvin. apply IH; [cbn; lia|assumption|reflexivity].
  - intro W. clear SM. induction W as [|c r w S1 W IH|c c' r w S1 E W IH|r w W IH|r w W IH]; [reflexivity| | | |].
    + destruct (low_table c) as (T1 & _). destruct (T1 S1) as (X & A & B). rewrite lower_cons by assumption. rewrite X, IH. reflexivity.
    + destruct (low_table c) as (_ & T2 & _). destruct (T2 _ S1 E) as (X & A & B). rewrite lower_cons by assumption. rewrite X, IH. reflexivity.
    + cbn [lower]. cbn [Ascii.eqb andb]. rewrite IH. reflexivity.
    + cbn -[lower]. destruct r as [|c r]; cbn [lower]; rewrite <- IH; reflexivity.
Qed.
Lemma words_small name : Forall (Forall small) (words name).
Proof.
  unfold words. repeat (match goal with |- context [if ?b then _ else _] => destruct b end); repeat constructor; split; vm_compute; lia.
Qed.
Definition kind_of (name : str) : kind := if str_eqb name $"args" || str_eqb name $"aliases" then AList else if str_eqb name $"def" then ADict else Any.
Lemma mem_words key name : mem_str (lower key) (words name) = true <-> means key name.
Proof.
  rewrite mem_str_In. unfold means. split.
  - intro I. exists (lower key). split; [exact I|]. apply lower_written; [|reflexivity]. exact (proj1 (Forall_forall _ _) (words_small name) _ I).
  - intros (w & I & W). apply lower_written in W; [subst; exact I|]. exact (proj1 (Forall_forall _ _) (words_small name) _ I).
Qed.
Definition five : list str := [$"description"; $"group"; $"args"; $"aliases"; $"def"].
Lemma means_five key name : means key name -> In name five.
Proof.
  intros (w & I & _). unfold words in I. destruct (str_eqb_spec name $"description") as [->|_]; [left; reflexivity|]. destruct (str_eqb_spec name $"group") as [->|_]; [right; left; reflexivity|].
  destruct (str_eqb_spec name $"args") as [->|_]; [do 2 right; left; reflexivity|]. destruct (str_eqb_spec name $"aliases") as [->|_]; [do 3 right; left; reflexivity|]. destruct (str_eqb_spec name $"def") as [->|_]; [do 4 right; left; reflexivity|destruct I].
Qed.
Lemma means_unique key n1 n2 : means key n1 -> means key n2 -> n1 = n2.
Proof.
  intros A B. pose proof (means_five _ _ A) as F1. pose proof (means_five _ _ B) as F2. apply mem_words in A, B. apply mem_str_In in A, B.
  assert (T : forallb (fun n1 => forallb (fun n2 => str_eqb n1 n2 || forallb (fun w => negb (mem_str w (words n2))) (words n1)) five) five = true) by (vm_compute; reflexivity).
  rewrite forallb_forall in T. specialize (T _ F1). cbn beta in T. rewrite forallb_forall in T. specialize (T _ F2). cbn beta in T. destruct (str_eqb_spec n1 n2) as [->|_]; [reflexivity|]. cbn [orb] in T. rewrite forallb_forall in T. specialize (T _ A). cbn beta in T. apply mem_str_In in B. rewrite B in T. discriminate.
Qed.
Lemma setting_means key name k : setting key = Some (name, k) <-> means key name /\ k = kind_of name.
Proof.
  unfold setting. change [$"d"; $"desc"; $"description"] with (words $"description"). change [$"g"; $"group"] with (words $"group"). change [$"a"; $"args"; $"arguments"] with (words $"args").
  change [$"aliases"] with (words $"aliases"). change [$"def"; $"default"; $"defaults"] with (words $"def"). split.
  - destruct (mem_str (lower key) (words $"description")) eqn:M1; [intro H; inversion H; subst; split; [apply mem_words, M1|reflexivity]|].
    destruct (mem_str (lower key) (words $"group")) eqn:M2; [intro H; inversion H; subst; split; [apply mem_words, M2|reflexivity]|].
    destruct (mem_str (lower key) (words $"args")) eqn:M3; [intro H; inversion H; subst; split; [apply mem_words, M3|reflexivity]|].
    destruct (mem_str (lower key) (words $"aliases")) eqn:M4; [intro H; inversion H; subst; split; [apply mem_words, M4|reflexivity]|].
    destruct (mem_str (lower key) (words $"def")) eqn:M5; [intro H; inversion H; subst; split; [apply mem_words, M5|reflexivity]|discriminate].
  - intros [M ->]. pose proof (means_five _ _ M) as F.
    destruct (mem_str (lower key) (words $"description")) eqn:M1; [apply mem_words in M1; rewrite (means_unique _ _ _ M M1); reflexivity|].
    destruct (mem_str (lower key) (words $"group")) eqn:M2; [apply mem_words in M2; rewrite (means_unique _ _ _ M M2); reflexivity|].
    destruct (mem_str (lower key) (words $"args")) eqn:M3; [apply mem_words in M3; rewrite (means_unique _ _ _ M M3); reflexivity|].
    destruct (mem_str (lower key) (words $"aliases")) eqn:M4; [apply mem_words in M4; rewrite (means_unique _ _ _ M M4); reflexivity|].
    destruct (mem_str (lower key) (words $"def")) eqn:M5; [apply mem_words in M5; rewrite (means_unique _ _ _ M M5); reflexivity|]. exfalso.
    apply mem_words in M. cbn [In five] in F. repeat (destruct F as [<-|F]); [congruence..|destruct F].
Qed.
Lemma setting_none key : setting key = None <-> forall name, ~ means key name.
Proof.
  split.
  - intros H name M. pose proof (proj2 (setting_means key name (kind_of name)) (conj M eq_refl)). congruence.
  - intro H. destruct (setting key) as [[n k]|] eqn:S1; [|reflexivity]. apply setting_means in S1. destruct (H n (proj1 S1)).
Qed.
Lemma suits_kind name v : suits name v <-> has_kind (kind_of name) v = true.
Proof.
  unfold suits, kind_of. destruct (str_eqb_spec name $"args") as [->|N1]; cbn [orb].
  - split; [intros [H _]; destruct (H (or_introl eq_refl)) as (i & l & ->); reflexivity|]. destruct v; try discriminate. intros _. split; [eauto|discriminate].
  - destruct (str_eqb_spec name $"aliases") as [->|N2].
    + split; [intros [H _]; destruct (H (or_intror eq_refl)) as (i & l & ->); reflexivity|]. destruct v; try discriminate. intros _. split; [eauto|discriminate].
    + destruct (str_eqb_spec name $"def") as [->|N3].
      * split; [intros [_ H]; destruct (H eq_refl) as (i & l & ->); reflexivity|]. destruct v; try discriminate. intros _. split; [intros [X|X]; discriminate|eauto].
      * split; [reflexivity|]. intros _. split; [intros [X|X]; contradiction|contradiction].
Qed.
Lemma five_means name : In name five -> means name name.
Proof. intro F. apply mem_words. cbn [In five] in F. repeat (destruct F as [<-|F]); [reflexivity..|destruct F]. Qed.

(** ** The configuration *)
Definition reached (cfg c : list (str * value)) (done : list str) : Prop :=
  (forall k v, mget cfg k = Some v -> mget c k = Some v) /\
  (forall k v, mget c k = Some v -> mget cfg k = None -> exists key, In key done /\ mget cfg key = Some v /\ means key k) /\
  (forall key v name, In key done -> mget cfg key = Some v -> means key name -> mget c name = Some v).
Lemma configure_reaches cfg : sound cfg -> forall sched done c, reached cfg c done -> exists c', configure sched c = Ok c' /\ reached cfg c' (done ++ sched).
Proof.
  intros (ND & KS & UQ). assert (IN : forall k v, mget cfg k = Some v -> In (k, v) cfg /\ In k (map fst cfg)) by (intros k v H; apply mget_In in H; split; [exact H|exact (in_map fst _ _ H)]).
  induction sched as [|k sched IH]; intros done c (R1 & R2 & R3); [exists c; rewrite app_nil_r; split; [reflexivity|repeat split; assumption]|].
  assert (STEP : exists c1, configure_key c k = Ok c1 /\ reached cfg c1 (done ++ [k])).
  { unfold configure_key. destruct (mget c k) as [v|] eqn:G.
    - assert (W : exists name, means k name /\ suits name v /\ ((exists key, mget cfg key = Some v /\ means key name /\ (key = k \/ In key done /\ k = name)))).
      { destruct (mget cfg k) as [v'|] eqn:GC.
        - pose proof (R1 _ _ GC) as X. assert (v' = v) by congruence. subst v'. destruct (KS k v (proj1 (IN _ _ GC))) as (name & M & SU). exists name. split; [exact M|]. split; [exact SU|]. exists k. auto.
        - destruct (R2 _ _ G GC) as (key & I & KV & M). exists k. split; [apply five_means, (means_five _ _ M)|]. destruct (KS key v (proj1 (IN _ _ KV))) as (name & M' & SU). rewrite (means_unique _ _ _ M M') in *. split; [exact SU|]. exists key. auto. }
      destruct W as (name & M & SU & key & KV & MK & WHICH). rewrite (proj2 (setting_means k name (kind_of name)) (conj M eq_refl)). rewrite (proj1 (suits_kind name v) SU). exists (mset c name v). split; [reflexivity|].
      split; [|split].
      + intros k' v' G'. rewrite mget_mset. destruct (str_eqb_spec k' name) as [->|_]; [|apply R1, G']. f_equal. assert (key = name).
        { apply (UQ key name name); [apply (IN _ _ KV)|apply (IN _ _ G')|exact MK|apply five_means, (means_five _ _ MK)]. } subst. congruence.
      + intros k' v' G' N. rewrite mget_mset in G'. destruct (str_eqb_spec k' name) as [->|_].
        * inversion G'; subst v'. exists key. split; [|auto]. apply in_or_app. destruct WHICH as [->|[I _]]; [right; left; reflexivity|left; exact I].
        * destruct (R2 _ _ G' N) as (key' & I & X). exists key'. split; [apply in_or_app; left; exact I|exact X].
      + intros key' v' name' I KV' M'. rewrite mget_mset. destruct (str_eqb_spec name' name) as [->|NN].
        * f_equal. assert (key = key') by (apply (UQ key key' name); [apply (IN _ _ KV)|apply (IN _ _ KV')|exact MK|exact M']). subst. congruence.
        * apply in_app_or in I. destruct I as [I|[<-|[]]]; [apply (R3 _ _ _ I KV' M')|]. destruct (NN (means_unique _ _ _ M' M)).
    - exists c. split; [reflexivity|]. split; [exact R1|]. split.
      + intros k' v' G' N. destruct (R2 _ _ G' N) as (key' & I & X). exists key'. split; [apply in_or_app; left; exact I|exact X].
      + intros key' v' name' I KV' M'. apply in_app_or in I. destruct I as [I|[<-|[]]]; [apply (R3 _ _ _ I KV' M')|]. rewrite (R1 _ _ KV') in G. discriminate. }
  destruct STEP as (c1 & S1 & R'). destruct (IH _ _ R') as (c2 & S2 & R''). exists c2. cbn [configure]. rewrite S1, S2. split; [reflexivity|]. rewrite <- app_assoc in R''. exact R''.
Qed.
Lemma configure_says cfg sched : sound cfg -> visits cfg sched ->
  exists cfg', configure sched cfg = Ok cfg' /\ (forall k v, In (k, v) cfg -> mget cfg' k = Some v) /\ forall name v, In name five -> mget cfg' name = Some v <-> says cfg name v.
Proof.
  intros SO VS. destruct (configure_reaches cfg SO sched [] cfg) as (c & C & R1 & R2 & R3).
  { split; [auto|]. split; [congruence|intros ? ? ? []]. }
  destruct SO as (ND & KS & UQ). assert (IN : forall k v, In (k, v) cfg -> mget cfg k = Some v) by (intros k v I; apply mget_In_NoDup; assumption).
  exists c. split; [exact C|]. split; [intros k v I; apply R1, IN, I|]. intros name v F. split.
  - intro G. destruct (mget cfg name) as [v'|] eqn:GC.
    + pose proof (R1 _ _ GC) as X. assert (v' = v) by congruence. subst. exists name. split; [apply mget_In, GC|apply five_means, F].
    + destruct (R2 _ _ G GC) as (key & _ & KV & M). exists key. split; [apply mget_In, KV|exact M].
  - intros (key & I & M). apply (R3 key); [|apply IN, I|exact M]. apply VS, (in_map fst _ _ I).
Qed.
Lemma configure_unknown sched cfg key : In key sched -> mget cfg key <> None -> (forall name, ~ means key name) -> exists e, configure sched cfg = Err e.
Proof.
  revert cfg. induction sched as [|k sched IH]; intros cfg I G N; [destruct I|]. cbn [configure]. destruct I as [->|I].
  - unfold configure_key. destruct (mget cfg key) as [v|]; [|congruence]. rewrite (proj2 (setting_none key) N). eauto.
  - destruct (configure_key cfg k) as [c|e|e] eqn:CK; [|eauto|].
    + apply IH; [exact I| |exact N]. unfold configure_key in CK. destruct (mget cfg k) as [v|]; [|inversion CK; subst; exact G]. destruct (setting k) as [[name kd]|]; [|discriminate]. destruct (has_kind kd v); [|discriminate]. inversion CK; subst.
      rewrite mget_mset. destruct (str_eqb key name); [discriminate|exact G].
    + exfalso. unfold configure_key in CK. destruct (mget cfg k) as [v|]; [|discriminate]. destruct (setting k) as [[name kd]|]; [|discriminate]. destruct (has_kind kd v); discriminate.
Qed.
Section Info.
Context {V : Env}.
Definition not_empty (v : value) : Prop := is_empty_value (fun _ => false) v = false.
Lemma define_info cfg sched : sound cfg -> visits cfg sched -> forall fi, define sched cfg = Ok fi ->
  (forall s, says cfg $"group" (vstr s) -> s <> [] -> f_group fi = s) /\ ((forall v, says cfg $"group" v -> v = vstr []) -> f_group fi = $"User defined functions") /\
  (forall s, says cfg $"description" (vstr s) -> f_description fi = s) /\ ((forall v, ~ says cfg $"description" v) -> f_description fi = []) /\
  (forall i l, says cfg $"args" (VList i l) -> f_in fi = join $", " (map sprint l) /\ Forall2 (fun v w => exists r, fields (sprint v) = w :: r) l (f_arguments fi)) /\
  ((forall v, ~ says cfg $"args" v) -> f_arguments fi = []) /\
  (forall i l, says cfg $"aliases" (VList i l) -> f_aliases fi = map sprint l) /\ ((forall v, ~ says cfg $"aliases" v) -> f_aliases fi = []) /\
  (forall i m, says cfg $"def" (VDict i m) -> m <> [] -> f_defaults fi = VDict i m) /\ ((forall v, ~ says cfg $"def" v) -> f_defaults fi = VDict dflt []).
Proof.
  intros SO VS fi D. destruct (configure_says cfg sched SO VS) as (c & C & _ & SA). unfold define in D. rewrite C in D. cbn [bind] in D. unfold function_info in D.
  destruct (as_string (defval c $"group" _)) as [g|e|e] eqn:G; try discriminate D. cbn [bind] in D. destruct (as_string (defval c $"description" _)) as [ds|e|e] eqn:DS; try discriminate D. cbn [bind] in D.
  destruct (as_strings (defval c $"args" _)) as [ar|e|e] eqn:AR; try discriminate D. cbn [bind] in D. destruct (as_strings (defval c $"aliases" _)) as [al|e|e] eqn:AL; try discriminate D. cbn [bind] in D.
  destruct (as_dict (defval c $"def" _)) as [df|e|e] eqn:DF; try discriminate D. cbn [bind] in D. destruct (first_words ar) as [ws|e|e] eqn:FW; try discriminate D. cbn [bind] in D. inversion D; subst fi; clear D. cbn [f_group f_description f_arguments f_in f_aliases f_defaults].
  assert (GET : forall name v, In name five -> says cfg name v -> mget c name = Some v) by (intros name v F X; apply SA; assumption).
  assert (NOT : forall name, In name five -> (forall v, ~ says cfg name v) -> mget c name = None) by (intros name F X; destruct (mget c name) eqn:Y; [apply SA in Y; [destruct (X _ Y)|exact F]|reflexivity]).
  assert (ARL : forall i l, says cfg $"args" (VList i l) -> ar = map sprint l).
  { intros i l X. apply GET in X; [|vm_compute; tauto]. unfold defval in AR. rewrite X in AR. destruct l; inversion AR; reflexivity. }
  split; [|split; [|split; [|split; [|split; [|split; [|split; [|split; [|split]]]]]]]].
  - intros s X NE. apply GET in X; [|vm_compute; tauto]. unfold defval in G. rewrite X in G. destruct s; [contradiction|]. inversion G. reflexivity.
  - intro X. unfold defval in G. destruct (mget c $"group") as [v|] eqn:Y; [|inversion G; reflexivity]. apply SA in Y; [|vm_compute; tauto]. rewrite (X _ Y) in G. inversion G. reflexivity.
  - intros s X. apply GET in X; [|vm_compute; tauto]. unfold defval in DS. rewrite X in DS. destruct s; inversion DS; reflexivity.
  - intro X. apply NOT in X; [|vm_compute; tauto]. unfold defval in DS. rewrite X in DS. inversion DS. reflexivity.
  - intros i l X. rewrite (ARL i l X) in *. split; [reflexivity|]. clear -FW. revert ws FW. induction l as [|v l IH]; intros ws FW; [inversion FW; constructor|]. cbn [map first_words] in FW. destruct (fields (sprint v)) as [|w r] eqn:FV; [discriminate|].
    destruct (first_words (map sprint l)) as [ws'|e|e]; try discriminate. cbn [bind] in FW. inversion FW; subst. constructor; [eauto|apply IH; reflexivity].
  - intro X. apply NOT in X; [|vm_compute; tauto]. unfold defval in AR. rewrite X in AR. inversion AR; subst. inversion FW. reflexivity.
  - intros i l X. apply GET in X; [|vm_compute; tauto]. unfold defval in AL. rewrite X in AL. destruct l; inversion AL; reflexivity.
  - intro X. apply NOT in X; [|vm_compute; tauto]. unfold defval in AL. rewrite X in AL. inversion AL. reflexivity.
  - intros i m X NE. apply GET in X; [|vm_compute; tauto]. unfold defval in DF. rewrite X in DF. destruct m; [contradiction|]. inversion DF. reflexivity.
  - intro X. apply NOT in X; [|vm_compute; tauto]. unfold defval in DF. rewrite X in DF. inversion DF. reflexivity.
Qed.
End Info.
Section Total.
Context {V : Env}.
Lemma define_ok cfg sched : sound cfg -> visits cfg sched ->
  (forall v, says cfg $"group" v \/ says cfg $"description" v -> exists s, v = vstr s) -> (forall i l v, says cfg $"args" (VList i l) -> In v l -> fields (sprint v) <> []) ->
  exists fi, define sched cfg = Ok fi.
Proof.
  intros SO VS TX NB. destruct (configure_says cfg sched SO VS) as (c & C & _ & SA). unfold define. rewrite C. cbn [bind]. unfold function_info.
  assert (SU : forall name v, In name five -> mget c name = Some v -> suits name v).
  { intros name v F G. apply SA in G; [|exact F]. destruct G as (key & I & M). destruct SO as (_ & KS & _). destruct (KS _ _ I) as (n' & M' & X). rewrite (means_unique _ _ _ M M'). exact X. }
  assert (STR : forall name def, In name five -> (name = $"group" \/ name = $"description") -> exists s, as_string (defval c name (vstr def)) = Ok s).
  { intros name def F W. unfold defval. destruct (mget c name) as [v|] eqn:G; [|eexists; reflexivity]. apply SA in G; [|exact F]. assert (X : exists s, v = vstr s) by (apply TX; destruct W as [W|W]; subst name; auto). destruct X as (s & ->). destruct s; eexists; reflexivity. }
  assert (LST : forall name, In name five -> (name = $"args" \/ name = $"aliases") -> exists i l, defval c name (VList dflt []) = VList i l /\ (l = [] \/ says cfg name (VList i l))).
  { intros name F W. unfold defval. destruct (mget c name) as [v|] eqn:G; [|exists dflt, []; auto]. destruct (SU _ _ F G) as [X _]. destruct (X W) as (i & l & ->). destruct (is_empty_value _ _); [exists dflt, []; auto|]. exists i, l. split; [reflexivity|right; apply SA; assumption]. }
  destruct (STR $"group" $"User defined functions" ltac:(vm_compute; tauto) ltac:(auto)) as (g & ->). cbn [bind]. destruct (STR $"description" [] ltac:(vm_compute; tauto) ltac:(auto)) as (ds & ->). cbn [bind].
  destruct (LST $"args" ltac:(vm_compute; tauto) ltac:(auto)) as (i1 & l1 & E1 & S1). rewrite E1. cbn [as_strings bind]. destruct (LST $"aliases" ltac:(vm_compute; tauto) ltac:(auto)) as (i2 & l2 & E2 & S2). rewrite E2. cbn [as_strings bind].
  assert (DD : exists v, as_dict (defval c $"def" (VDict dflt [])) = Ok v).
  { unfold defval. destruct (mget c $"def") as [v|] eqn:G; [|eexists; reflexivity]. destruct (SU $"def" v ltac:(vm_compute; tauto) G) as [_ X]. destruct (X eq_refl) as (i & m & ->). destruct (is_empty_value _ _); eexists; reflexivity. }
  destruct DD as (df & ->). cbn [bind]. assert (FW : exists ws, first_words (map sprint l1) = Ok ws).
  { assert (NB' : forall v, In v l1 -> fields (sprint v) <> []) by (intros v I; destruct S1 as [->|S1]; [destruct I|exact (NB _ _ v S1 I)]). clear -NB'. induction l1 as [|v l IH]; [eexists; reflexivity|]. cbn [map first_words]. destruct (fields (sprint v)) as [|w r] eqn:FV; [destruct (NB' v (or_introl eq_refl) FV)|].
    destruct IH as (ws & ->); [intros v' I; apply NB'; right; exact I|]. eexists; reflexivity. }
  destruct FW as (ws & ->). eexists; reflexivity.
Qed.
End Total.

(** ** Merging in a new dictionary *)
Definition avoids (n : loc) (h : heap) : Prop := forall p k i q, mget (map_at h p) k = Some (HDict i q) -> q <> n.
Lemma map_set_same h p k v x : mget (map_at h p) k = Some v -> forall k', mget (map_at (h_dict_set h p k v) x) k' = mget (map_at h x) k'.
Proof.
  intros G k'. destruct (Nat.eq_dec x p) as [->|N]; [|rewrite map_set_ne by exact N; reflexivity]. destruct (Nat.lt_ge_cases p (length h)) as [L|L]; [|rewrite map_at_out in G by exact L; discriminate].
  rewrite map_set_eq by exact L. rewrite mget_mset. destruct (str_eqb_spec k' k) as [->|_]; [symmetry; exact G|reflexivity].
Qed.
Lemma avoids_set n h p k v : avoids n h -> (forall i q, v = HDict i q -> q <> n) -> avoids n (h_dict_set h p k v).
Proof.
  intros A B x k' i q G. destruct (Nat.eq_dec x p) as [->|N]; [|rewrite map_set_ne in G by exact N; exact (A _ _ _ _ G)]. destruct (Nat.lt_ge_cases p (length h)) as [L|L].
  - rewrite map_set_eq in G by exact L. rewrite mget_mset in G. destruct (str_eqb_spec k' k) as [->|_]; [inversion G; subst; exact (B _ _ eq_refl)|exact (A _ _ _ _ G)].
  - rewrite map_at_out in G by (rewrite set_length; exact L). discriminate.
Qed.
Lemma merge_other n : forall f h p q h', avoids n h -> p <> n -> h_deep_merge f h p q = Some h' -> avoids n h' /\ forall k, mget (map_at h' n) k = mget (map_at h n) k.
Proof.
  induction f as [|f IH]; intros h p q h' A NE H; [discriminate|]. cbn [h_deep_merge] in H.
  assert (G : forall ks h h', avoids n h -> fold_left (merge_step (h_deep_merge f) p q) ks (Some h) = Some h' -> avoids n h' /\ forall k, mget (map_at h' n) k = mget (map_at h n) k); [|exact (G _ _ _ A H)].
  clear A H h h'. induction ks as [|k0 ks IHk]; intros h h' A H; [inversion H; subst; auto|]. cbn [fold_left] in H. destruct (merge_step (h_deep_merge f) p q (Some h) k0) as [h1|] eqn:ST; [|rewrite none_loop in H; discriminate].
  assert (X : avoids n h1 /\ forall k, mget (map_at h1 n) k = mget (map_at h n) k).
  { cbn [merge_step] in ST. destruct (mget (map_at h q) k0) as [sv|] eqn:Q; [|inversion ST; subst; auto]. destruct (mget (map_at h p) k0) as [tv|] eqn:P.
    - destruct tv as [| | |i a]; try (inversion ST; subst; auto). destruct sv as [| | |j b]; try (inversion ST; subst; auto). destruct (h_deep_merge f h a b) as [h2|] eqn:RC; [|discriminate]. inversion ST; subst.
      destruct (IH _ _ _ _ A (A _ _ _ _ P) RC) as [A2 M2]. split; [apply avoids_set; [exact A2|intros i' q' E; inversion E; subst; exact (A _ _ _ _ P)]|]. intro k. rewrite map_set_ne by congruence. apply M2.
    - inversion ST; subst. split; [apply avoids_set; [exact A|intros i' q' E; subst; exact (A _ _ _ _ Q)]|]. intro k. rewrite map_set_ne by congruence. reflexivity. }
  destruct X as [A1 M1]. destruct (IHk _ _ A1 H) as [A2 M2]. split; [exact A2|]. intro k. rewrite M2. apply M1.
Qed.
Lemma merge_fresh n f h q h' : avoids n h -> q <> n -> n < length h -> h_deep_merge f h n q = Some h' ->
  avoids n h' /\ forall k, mget (map_at h' n) k = match mget (map_at h n) k with Some v => Some v | None => mget (map_at h q) k end.
Proof.
  intros A NE L H. destruct f as [|f]; [discriminate|]. cbn [h_deep_merge] in H.
  assert (G : forall ks h1 h', grows h h1 -> avoids n h1 -> fold_left (merge_step (h_deep_merge f) n q) ks (Some h1) = Some h' -> (forall k, In k ks -> mget (map_at h q) k <> None) ->
    (forall k, mget (map_at h n) k <> None -> mget (map_at h1 n) k = mget (map_at h n) k) ->
    (forall k, mget (map_at h n) k = None -> ~ In k ks -> mget (map_at h1 n) k = mget (map_at h q) k) ->
    (forall k, mget (map_at h n) k = None -> mget (map_at h1 n) k <> None -> mget (map_at h1 n) k = mget (map_at h q) k) ->
    avoids n h' /\ forall k, mget (map_at h' n) k = match mget (map_at h n) k with Some v => Some v | None => mget (map_at h q) k end).
  { clear H h'. induction ks as [|k0 ks IHk]; intros h1 h' GR A1 H KS I1 I2 I3.
    - inversion H; subst. split; [exact A1|]. intro k. destruct (mget (map_at h n) k) eqn:X; [rewrite I1 by congruence; exact X|apply I2; [exact X|intros []]].
    - cbn [fold_left] in H. destruct (merge_step (h_deep_merge f) n q (Some h1) k0) as [h2|] eqn:ST; [|rewrite none_loop in H; discriminate].
      assert (Q0 : exists sv, mget (map_at h q) k0 = Some sv /\ mget (map_at h1 q) k0 = Some sv).
      { destruct (mget (map_at h q) k0) as [sv|] eqn:Q; [|destruct (KS k0 (or_introl eq_refl) Q)]. exists sv. split; [reflexivity|apply GR, Q]. } destruct Q0 as (sv & Q0 & Q1).
      assert (GR2 : grows h h2) by (apply (grows_trans _ h1); [exact GR|apply (step_grows (h_deep_merge f) n q h1 k0 h2 (merge_grows f) ST)]).
      cbn [merge_step] in ST. rewrite Q1 in ST. destruct (mget (map_at h1 n) k0) as [tv|] eqn:T1.
      + assert (X : avoids n h2 /\ forall k, mget (map_at h2 n) k = mget (map_at h1 n) k).
        { destruct tv as [| | |i a]; try (inversion ST; subst; auto). destruct sv as [| | |j b]; try (inversion ST; subst; auto). destruct (h_deep_merge f h1 a b) as [h3|] eqn:RC; [|discriminate]. inversion ST; subst.
          destruct (merge_other n _ _ _ _ _ A1 (A1 _ _ _ _ T1) RC) as [A3 M3]. split; [apply avoids_set; [exact A3|intros i' q' E; inversion E; subst; exact (A1 _ _ _ _ T1)]|]. intro k. rewrite (map_set_same h3 n k0 (HDict i a) n) by (rewrite M3; exact T1). apply M3. }
        destruct X as [A2 M2]. apply (IHk h2 h' GR2 A2 H).
        * intros k I. apply KS. right. exact I.
        * intros k X. rewrite M2. apply I1, X.
        * intros k X NI. rewrite M2. destruct (str_eqb_spec k k0) as [->|NK]; [apply I3; [exact X|congruence]|]. apply I2; [exact X|]. intros [E|E]; [congruence|contradiction].
        * intros k X Y. rewrite M2 in *. apply I3; assumption.
      + inversion ST; subst h2. clear ST. assert (L1 : n < length h1) by (destruct GR; lia).
        assert (N0 : mget (map_at h n) k0 = None) by (destruct (mget (map_at h n) k0) as [v|] eqn:X; [rewrite I1 in T1 by congruence; congruence|reflexivity]).
        assert (M2 : forall k, mget (map_at (h_dict_set h1 n k0 sv) n) k = if str_eqb k k0 then Some sv else mget (map_at h1 n) k) by (intro k; rewrite map_set_eq by exact L1; apply mget_mset).
        apply (IHk _ h' GR2 ltac:(apply avoids_set; [exact A1|intros i' q' E; subst; exact (A1 _ _ _ _ Q1)]) H).
        * intros k I. apply KS. right. exact I.
        * intros k X. rewrite M2. destruct (str_eqb_spec k k0) as [->|_]; [congruence|apply I1, X].
        * intros k X NI. rewrite M2. destruct (str_eqb_spec k k0) as [->|NK]; [symmetry; exact Q0|]. apply I2; [exact X|]. intros [E|E]; [congruence|contradiction].
        * intros k X. rewrite M2. destruct (str_eqb_spec k k0) as [->|NK]; [intros _; symmetry; exact Q0|]. apply I3; exact X. }
  apply (G (mkeys (map_at h q)) h h' (grows_refl h) A H).
  - intros k I X. apply mget_keys in I. destruct I as (v & I). congruence.
  - auto.
  - intros k X NI. rewrite X. destruct (mget (map_at h q) k) eqn:Y; [|reflexivity]. exfalso. apply NI, mget_keys. eauto.
  - congruence.
Qed.
Lemma flat_merge n f h q h' : n < length h -> n <> q -> NoDup (mkeys (map_at h q)) -> (forall k i a j b, mget (map_at h n) k = Some (HDict i a) -> mget (map_at h q) k = Some (HDict j b) -> False) ->
  h_deep_merge f h n q = Some h' -> length h' = length h /\ (forall x, x <> n -> hget h' x = hget h x) /\
  forall k, mget (map_at h' n) k = match mget (map_at h n) k with Some v => Some v | None => mget (map_at h q) k end.
Proof.
  intros L NE ND NC H. destruct f as [|f]; [discriminate|]. cbn [h_deep_merge] in H.
  destruct (flat_loop (h_deep_merge f) n q NE (mkeys (map_at h q)) h L) as (h1 & E & LN & FR & MG); [intros; eapply NC; eassumption|exact ND|].
  pose proof (eq_trans (eq_sym H) E) as X. inversion X; subst h1. split; [exact LN|]. split; [exact FR|]. intro k. rewrite MG. destruct (mget (map_at h n) k); [reflexivity|].
  destruct (mem_str k (mkeys (map_at h q))) eqn:M; [reflexivity|]. destruct (mget (map_at h q) k) eqn:Y; [|reflexivity]. exfalso. assert (I : In k (mkeys (map_at h q))) by (apply mget_keys; eauto). apply mem_str_In in I. congruence.
Qed.
Section Call.
Context {G : Engine}.
Variable d : impl.
Variable convert : heap -> str -> option (heap * hval).
Variable names : list str.
Variable defaults : loc.
Notation call_context := (call_context d convert names defaults).

Lemma old_map h o x : x < length h -> map_at (h ++ o) x = map_at h x.
Proof. intro L. unfold map_at. rewrite hget_app_old by exact L. reflexivity. Qed.
Lemma new_map h : map_at (h ++ [OMap []]) (length h) = [].
Proof. unfold map_at. rewrite hget_app_new. reflexivity. Qed.
Lemma avoids_new h : wellformed h -> avoids (length h) (h ++ [OMap []]).
Proof.
  intros [W _] p k i q X. destruct (Nat.lt_ge_cases p (length h)) as [L|L]; [rewrite old_map in X by exact L; pose proof (W _ _ _ _ X); lia|].
  destruct (Nat.eq_dec p (length h)) as [->|N]; [rewrite new_map in X; discriminate|]. rewrite map_at_out in X by (rewrite app_length; cbn [length]; lia). discriminate.
Qed.
(** The start of a call: the heap [h1] with the new dictionary n. *)
Lemma default_set fuel h j p h1 : wellformed h -> p < length h ->
  (match map_at (h ++ [OMap []]) p with [] => set_key fuel (h ++ [OMap []]) (length h) $"DEFAULT" (HDict j p) | _ => Some (h ++ [OMap []]) end) = Some h1 ->
  length h1 = S (length h) /\ keeps h h1 /\ avoids (length h) h1 /\
  forall k, mget (map_at h1 (length h)) k = match map_at h p with [] => if str_eqb k $"DEFAULT" then Some (HDict j p) else None | _ => None end.
Proof.
  intros WF PL H. rewrite old_map in H by exact PL. assert (L1 : length (h ++ [OMap []]) = S (length h)) by (rewrite app_length; cbn [length]; lia). pose proof (avoids_new h WF) as AV.
  destruct (map_at h p) as [|kv m].
  - unfold set_key in H. destruct (walks _ _ _); [|discriminate]. inversion H; subst. rewrite set_length. split; [exact L1|]. split; [apply keeps_set; [apply keeps_app|lia]|]. split; [apply avoids_set; [exact AV|intros i q E; inversion E; subst; lia]|].
    intro k. rewrite map_set_eq by lia. rewrite new_map. rewrite mget_mset. reflexivity.
  - inversion H; subst. split; [exact L1|]. split; [apply keeps_app|]. split; [exact AV|]. intro k. rewrite new_map. reflexivity.
Qed.
Lemma first3 (a b c : option hval) : match match a with Some v => Some v | None => b end with Some v => Some v | None => c end = first_of [a; b; c].
Proof. destruct a, b, c; reflexivity. Qed.
Lemma grows_map h h' x k v : grows h h' -> mget (map_at h x) k = Some v -> mget (map_at h' x) k = Some v.
Proof. intros [_ X]. apply X. Qed.
Definition parts (h : heap) (p : loc) (j : impl) (k : str) : option hval := match map_at h p with [] => if str_eqb k $"DEFAULT" then Some (HDict j p) else None | _ => None end.
(** A dictionary [a], of which [h0] knows the entries, the defaults and the context. *)
Lemma merge_three fuel h p j h1 a h' : wellformed h -> p < length h -> defaults < length h -> a <> length h -> grows h h1 -> keeps h h1 -> length h < length h1 -> avoids (length h) h1 -> NoDup (mkeys (map_at h1 a)) ->
  (forall k, mget (map_at h1 (length h)) k = parts h p j k) -> h_merge fuel h1 (length h) [a; defaults; p] = Some h' ->
  grows h h' /\ (map_at h p = [] -> mget (map_at h' (length h)) $"DEFAULT" = Some (HDict j p)) /\
  (forall k v, map_at h p <> [] \/ k <> $"DEFAULT" -> first_of [mget (map_at h1 a) k; mget (map_at h defaults) k; mget (map_at h p) k] = Some v -> mget (map_at h' (length h)) k = Some v).
Proof.
  intros WF PL DL AL GR0 K L1 AV NDA C1 M. set (n := length h) in *. cbn [h_merge] in M. match type of M with context [h_deep_merge fuel h1 ?x a] => change x with n in M end. destruct (h_deep_merge fuel h1 n a) as [h2|] eqn:M1; [|discriminate M]. destruct (h_deep_merge fuel h2 n defaults) as [h3|] eqn:M2; [|discriminate]. destruct (h_deep_merge fuel h3 n p) as [h4|] eqn:M3; [|discriminate]. inversion M; subst h4. clear M.
  pose proof (merge_grows _ _ _ _ _ M1) as G1. pose proof (merge_grows _ _ _ _ _ M2) as G2. pose proof (merge_grows _ _ _ _ _ M3) as G3. assert (PN : p <> n) by lia. assert (DN : defaults <> n) by lia.
  destruct (merge_fresh n _ _ _ _ AV AL L1 M1) as [A2 C2]. assert (L2 : n < length h2) by (destruct G1; lia). destruct (merge_fresh n _ _ _ _ A2 DN L2 M2) as [A3 C3]. assert (L3 : n < length h3) by (destruct G2; lia). destruct (merge_fresh n _ _ _ _ A3 PN L3 M3) as [A4 C4].
  split; [apply (grows_trans _ h3); [apply (grows_trans _ h2); [apply (grows_trans _ h1)|]|]; assumption|]. split.
  { intro E. rewrite C4, C3, C2, C1. unfold parts. rewrite E. reflexivity. }
  intros k v OR FO. assert (N1 : mget (map_at h1 n) k = None).
  { rewrite C1. unfold parts. destruct (map_at h p) eqn:MP; [|reflexivity]. destruct OR as [X|X]; [contradiction|]. destruct (str_eqb_spec k $"DEFAULT"); [contradiction|reflexivity]. }
  rewrite C4, C3, C2, N1. cbn [first_of] in FO. destruct (mget (map_at h1 a) k) as [va|] eqn:VA; [exact FO|]. destruct (mget (map_at h defaults) k) as [vd|] eqn:VD.
  { rewrite (grows_map h h2 defaults k vd); [exact FO| |exact VD]. apply (grows_trans _ h1); assumption. }
  assert (VP0 : mget (map_at h p) k = Some v) by (destruct (mget (map_at h p) k); exact FO). clear FO. rename VP0 into VP. assert (NE : map_at h p <> []) by (intro X; rewrite X in VP; discriminate).
  assert (E1 : forall k, mget (map_at h1 n) k = None) by (intro k'; rewrite C1; unfold parts; destruct (map_at h p); [contradiction|reflexivity]).
  destruct (flat_merge n fuel h1 a h2 L1 ltac:(congruence) NDA ltac:(intros k' ? ? ? ? X; rewrite E1 in X; discriminate) M1) as (_ & FR & _).
  assert (D2 : map_at h2 defaults = map_at h defaults) by (unfold map_at; rewrite FR by exact DN; rewrite K by exact DL; reflexivity). rewrite D2, VD.
  apply (grows_map h h3 p k v); [|exact VP]. apply (grows_trans _ h2); [apply (grows_trans _ h1)|]; assumption.
Qed.
Lemma merge_three_flat fuel h p j h1 a h' : wellformed h -> p < length h -> defaults < length h -> a <> length h -> keeps h h1 -> length h < length h1 -> map_at h p <> [] -> NoDup (mkeys (map_at h1 a)) ->
  (forall k, mget (map_at h1 (length h)) k = parts h p j k) ->
  disjoint h1 a defaults -> disjoint h1 a p -> disjoint h1 defaults p ->
  h_merge fuel h1 (length h) [a; defaults; p] = Some h' ->
  (forall x, x <> length h -> hget h' x = hget h1 x) /\ length h' = length h1 /\ forall k, mget (map_at h' (length h)) k = first_of [mget (map_at h1 a) k; mget (map_at h defaults) k; mget (map_at h p) k].
Proof.
  intros WF PL DL AL K L1 NE NDA C1 DJ1 DJ2 DJ3 M. set (n := length h) in *. cbn [h_merge] in M. match type of M with context [h_deep_merge fuel h1 ?x a] => change x with n in M end. destruct (h_deep_merge fuel h1 n a) as [h2|] eqn:M1; [|discriminate M]. destruct (h_deep_merge fuel h2 n defaults) as [h3|] eqn:M2; [|discriminate]. destruct (h_deep_merge fuel h3 n p) as [h4|] eqn:M3; [|discriminate]. inversion M; subst h4. clear M.
  assert (PN : p <> n) by lia. assert (DN : defaults <> n) by lia. assert (E1 : forall k, mget (map_at h1 n) k = None) by (intro k'; rewrite C1; unfold parts; destruct (map_at h p); [contradiction|reflexivity]).
  destruct (flat_merge n fuel h1 a h2 L1 ltac:(congruence) NDA ltac:(intros k' ? ? ? ? X; rewrite E1 in X; discriminate) M1) as (LN2 & FR2 & C2).
  assert (MD2 : map_at h2 defaults = map_at h1 defaults) by (unfold map_at; rewrite FR2 by exact DN; reflexivity). assert (MDH : map_at h1 defaults = map_at h defaults) by (apply map_at_keeps; assumption). assert (MPH : map_at h1 p = map_at h p) by (apply map_at_keeps; assumption).
  destruct (flat_merge n fuel h2 defaults h3 ltac:(lia) ltac:(congruence)) as (LN3 & FR3 & C3); [rewrite MD2, MDH; apply WF| |exact M2|].
  { intros k i1 a1 j1 b1 X Y. rewrite C2, E1 in X. rewrite MD2 in Y. exact (DJ1 _ _ _ _ _ X Y). }
  assert (MP3 : map_at h3 p = map_at h1 p) by (unfold map_at; rewrite FR3, FR2 by exact PN; reflexivity).
  destruct (flat_merge n fuel h3 p h' ltac:(lia) ltac:(congruence)) as (LN4 & FR4 & C4); [rewrite MP3, MPH; apply WF| |exact M3|].
  { intros k i1 a1 j1 b1 X Y. rewrite C3, C2, E1, MD2 in X. rewrite MP3 in Y. destruct (mget (map_at h1 a) k) eqn:VA; [inversion X; subst; exact (DJ2 _ _ _ _ _ VA Y)|exact (DJ3 _ _ _ _ _ X Y)]. }
  split; [intros x NX; rewrite FR4, FR3, FR2 by exact NX; reflexivity|]. split; [lia|]. intro k. rewrite C4, C3, C2, E1, MD2, MP3, MDH, MPH. cbn [first_of]. destruct (mget (map_at h1 a) k); [reflexivity|]. destruct (mget (map_at h defaults) k); [reflexivity|]. destruct (mget (map_at h p) k); reflexivity.
Qed.
Lemma call_dictionary fuel i a h j p h' r : wellformed h -> p < length h -> a < length h -> defaults < length h -> length names <> 1 ->
  call_context fuel [HDict i a] h (HDict j p) = Some (h', r) ->
  r = Some (length h) /\ grows h h' /\ (map_at h p = [] -> mget (map_at h' (length h)) $"DEFAULT" = Some (HDict j p)) /\
  (forall k v, map_at h p <> [] \/ k <> $"DEFAULT" -> first_of [mget (map_at h a) k; mget (map_at h defaults) k; mget (map_at h p) k] = Some v -> mget (map_at h' (length h)) k = Some v) /\
  (map_at h p <> [] -> disjoint h a defaults -> disjoint h a p -> disjoint h defaults p ->
     keeps h h' /\ forall k, mget (map_at h' (length h)) k = first_of [mget (map_at h a) k; mget (map_at h defaults) k; mget (map_at h p) k]).
Proof.
  intros WF PL AL DL NN H. unfold AliasModel.call_context in H. cbn [context_of try_dictionary] in H. unfold context_of, try_dictionary in H. destruct (walks fuel (h ++ [OMap []]) (HDict j p)); [|discriminate].
  match type of H with context [match ?x with Some _ => _ | None => None end] => destruct x as [h1|] eqn:DS end; [|discriminate].
  destruct (default_set _ _ _ _ _ WF PL DS) as (L1 & K & AV & C1). unfold only_argument in H. destruct (Nat.eqb_spec (length names) 1); [contradiction|]. unfold try_dictionary in H. destruct (walks fuel h1 (HDict i a)); [|discriminate].
  match type of H with context [h_merge fuel h1 ?x ?y] => destruct (h_merge fuel h1 x y) as [h2|] eqn:M end; [|discriminate H]. inversion H; subst. clear H. assert (GR : grows h h1) by (apply grows_keeps; [exact K|lia]).
  assert (MA : map_at h1 a = map_at h a) by (apply map_at_keeps; assumption). assert (NDA : NoDup (mkeys (map_at h1 a))) by (rewrite MA; apply WF).
  destruct (merge_three fuel h p j h1 a h' WF PL DL ltac:(lia) GR K ltac:(lia) AV NDA C1 M) as (A & B & C). rewrite MA in C. split; [reflexivity|]. split; [exact A|]. split; [exact B|]. split; [exact C|].
  intros NE DJ1 DJ2 DJ3. assert (DJ : forall x y, x < length h -> y < length h -> disjoint h x y -> disjoint h1 x y) by (intros x y LX LY D; unfold disjoint; rewrite !(map_at_keeps h h1) by assumption; exact D).
  destruct (merge_three_flat fuel h p j h1 a h' WF PL DL ltac:(lia) K ltac:(lia) NE NDA C1 (DJ _ _ AL DL DJ1) (DJ _ _ AL PL DJ2) (DJ _ _ DL PL DJ3) M) as (FR & _ & E). rewrite MA in E. split; [|exact E]. intros x LX. rewrite FR by lia. apply K, LX.
Qed.
Lemma call_text fuel i a s h j p hc h' r : wellformed h -> p < length h -> map_at h p <> [] -> defaults < length h -> length names <> 1 ->
  convert (h ++ [OMap []]) s = Some (hc, HDict i a) -> fresh_data (h ++ [OMap []]) hc -> length h < a ->
  call_context fuel [HScal (SStr false s)] h (HDict j p) = Some (h', r) ->
  r = Some (length h) /\ grows h h' /\
  (forall k v, first_of [mget (map_at hc a) k; mget (map_at h defaults) k; mget (map_at h p) k] = Some v -> mget (map_at h' (length h)) k = Some v).
Proof.
  intros WF PL NE DL NN CV (FK & FL & FR & FN) AL H. unfold AliasModel.call_context, context_of, try_dictionary in H. destruct (walks fuel (h ++ [OMap []]) (HDict j p)); [|discriminate].
  rewrite old_map in H by exact PL. destruct (map_at h p) as [|kv m] eqn:MP; [contradiction|]. unfold only_argument in H. destruct (Nat.eqb_spec (length names) 1); [contradiction|]. rewrite CV in H. unfold try_dictionary in H. destruct (walks fuel hc (HDict i a)); [|discriminate].
  match type of H with context [h_merge fuel hc ?x ?y] => destruct (h_merge fuel hc x y) as [h2|] eqn:M end; [|discriminate H]. inversion H; subst. clear H. assert (LA : length (h ++ [OMap []]) = S (length h)) by (rewrite app_length; cbn [length]; lia).
  assert (K : keeps h hc) by (apply (keeps_trans _ (h ++ [OMap []])); [apply keeps_app|lia|exact FK]).
  assert (AV : avoids (length h) hc).
  { intros x k i0 q X. destruct (Nat.lt_ge_cases x (length (h ++ [OMap []]))) as [L|L]; [|pose proof (FR _ _ _ _ L X); lia]. rewrite (map_at_keeps (h ++ [OMap []]) hc x FK L) in X. exact (avoids_new h WF _ _ _ _ X). }
  assert (C1 : forall k, mget (map_at hc (length h)) k = parts h p j k).
  { intro k. rewrite (map_at_keeps (h ++ [OMap []]) hc (length h) FK) by lia. rewrite new_map. unfold parts. rewrite MP. reflexivity. }
  destruct (merge_three fuel h p j hc a h' WF PL DL ltac:(lia) ltac:(apply grows_keeps; [exact K|lia]) K ltac:(lia) AV (FN a ltac:(lia)) C1 M) as (A & _ & C). rewrite <- MP. split; [reflexivity|]. split; [exact A|]. intros k v X. apply C; [left; rewrite MP; discriminate|exact X].
Qed.

(** ** Positional arguments *)
Lemma bound_dec ns : forall args k, (exists v, bound ns args k v) \/ (forall i, nth_error ns i = Some k -> nth_error args i = None).
Proof.
  induction ns as [|k0 ns IH]; intros args k; [right; intros [|i]; discriminate|]. destruct args as [|a args]; [right; intros [|i] _; reflexivity|]. destruct (IH args k) as [(v & i & A & B & C)|N].
  - left. exists v, (S i). split; [exact A|]. split; [exact B|]. intros [|j] LJ X; [lia|]. apply (C j); [lia|exact X].
  - destruct (str_eqb_spec k0 k) as [->|NE]; [|right; intros [|i] X; [cbn in X; congruence|exact (N i X)]]. left. exists a, 0. split; [reflexivity|]. split; [reflexivity|]. intros [|j] LJ X; [lia|exact (N j X)].
Qed.
Lemma bound_tail k0 ns a args k v : bound ns args k v -> bound (k0 :: ns) (a :: args) k v.
Proof. intros (i & A & B & C). exists (S i). split; [exact A|]. split; [exact B|]. intros [|j] L X; [lia|]. apply (C j); [lia|exact X]. Qed.
Lemma bound_unique ns args k v w : bound ns args k v -> bound ns args k w -> v = w.
Proof.
  intros (i & A & B & C) (j & A' & B' & C'). destruct (Nat.lt_trichotomy i j) as [L|[->|L]]; [rewrite (C j L A') in B'; discriminate|congruence|rewrite (C' i L A) in B; discriminate].
Qed.
Lemma bind_spec f n : forall args ns h h', n < length h -> bind_arguments d f h n ns args = Some h' ->
  (forall x, x <> n -> x < length h -> hget h' x = hget h x) /\ length h <= length h' /\
  (length ns < length args -> exists s, mget (map_at h' n) $"ARGS" = Some (HList d s) /\ contents h' s = skipn (length ns) args) /\
  (forall k v, length args <= length ns \/ k <> $"ARGS" -> bound ns args k v -> mget (map_at h' n) k = Some v) /\
  (forall k, length args <= length ns \/ k <> $"ARGS" -> (forall v, ~ bound ns args k v) -> mget (map_at h' n) k = mget (map_at h n) k).
Proof.
  induction args as [|a args IH]; intros ns h h' L H.
  - cbn [bind_arguments] in H. assert (h' = h) by (destruct ns; inversion H; reflexivity). subst. split; [auto|]. split; [lia|]. split; [cbn; lia|]. split; [|auto]. intros k v _ (i & _ & X & _). destruct i; discriminate.
  - destruct ns as [|k0 ns].
    + cbn [bind_arguments] in H. unfold new_args, halloc, set_key in H. match type of H with context [walks f ?x ?y] => destruct (walks f x y) end; [|discriminate H]. inversion H; subst; clear H. assert (L2 : n < length (h ++ [OArr (a :: args)])) by (rewrite app_length; lia).
      split; [intros x N LX; unfold h_dict_set; rewrite hget_hput_ne by exact N; apply hget_app_old, LX|]. split; [rewrite set_length, app_length; lia|]. split; [|split].
      * intros _. eexists. split; [rewrite map_set_eq by exact L2; apply mget_mset_eq|]. cbn [skipn length]. unfold contents, cells_at. cbn [s_arr s_off s_len]. unfold h_dict_set. rewrite hget_hput_ne by lia. rewrite hget_app_new. cbn [skipn]. exact (firstn_all (a :: args)).
      * intros k v _ (i & X & _). destruct i; discriminate.
      * intros k [X|X] _; [cbn in X; lia|]. rewrite map_set_eq by exact L2. rewrite mget_mset_ne by (intro X0; apply X; symmetry; exact X0). rewrite old_map by exact L. reflexivity.
    + cbn [bind_arguments] in H. unfold set_key in H. destruct (walks f h a); [|discriminate H]. destruct (IH ns _ _ ltac:(rewrite set_length; exact L) H) as (A & B & C & D & E). rewrite set_length in *.
      split; [intros x N LX; rewrite A by assumption; unfold h_dict_set; apply hget_hput_ne, N|]. split; [exact B|]. split; [intro X; apply C; cbn in X; lia|].
      assert (OR : forall k, length (a :: args) <= length (k0 :: ns) \/ k <> $"ARGS" -> length args <= length ns \/ k <> $"ARGS") by (intros k [X|X]; [left; cbn in X; lia|right; exact X]). split.
      * intros k v O BD. destruct (bound_dec ns args k) as [(w & BW)|NB].
        { rewrite (bound_unique _ _ _ _ _ BD (bound_tail _ _ _ _ _ _ BW)). apply D; [apply OR, O|exact BW]. }
        { assert (NB' : forall w, ~ bound ns args k w) by (intros w (i & X & Y & _); rewrite (NB i X) in Y; discriminate). rewrite E by (try apply OR; assumption). destruct BD as (i & X & Y & _). destruct i as [|i]; [|cbn in X, Y; rewrite (NB i X) in Y; discriminate].
          cbn in X, Y. inversion X; inversion Y; subst. rewrite map_set_eq by exact L. apply mget_mset_eq. }
      * intros k O NB. rewrite E; [|apply OR, O|intros w BW; exact (NB w (bound_tail _ _ _ _ _ _ BW))]. rewrite map_set_eq by exact L. apply mget_mset_ne. intros ->. destruct (bound_dec (k :: ns) (a :: args) k) as [(w & BW)|X]; [exact (NB w BW)|]. discriminate (X 0 eq_refl).
Qed.
Lemma call_positional fuel args h j p h' r : wellformed h -> p < length h -> defaults < length h -> positional convert names args ->
  call_context fuel args h (HDict j p) = Some (h', r) ->
  r = Some (length h) /\ grows h h' /\
  (length names < length args -> exists s, mget (map_at h' (length h)) $"ARGS" = Some (HList d s) /\ contents h' s = skipn (length names) args) /\
  (forall k v, length args <= length names \/ k <> $"ARGS" -> bound names args k v -> mget (map_at h' (length h)) k = Some v) /\
  (forall k v, length args <= length names \/ k <> $"ARGS" -> (forall w, ~ bound names args k w) -> map_at h p <> [] \/ k <> $"DEFAULT" -> first_of [mget (map_at h defaults) k; mget (map_at h p) k] = Some v -> mget (map_at h' (length h)) k = Some v) /\
  (map_at h p <> [] -> disjoint h defaults p -> keeps h h' /\ forall k, length args <= length names \/ k <> $"ARGS" -> (forall w, ~ bound names args k w) -> mget (map_at h' (length h)) k = first_of [mget (map_at h defaults) k; mget (map_at h p) k]).
Proof.
  intros WF PL DL POS H. unfold AliasModel.call_context, context_of, try_dictionary in H. destruct (walks fuel (h ++ [OMap []]) (HDict j p)); [|discriminate].
  match type of H with context [match ?x with Some _ => _ | None => None end] => destruct x as [h1|] eqn:DS end; [|discriminate].
  destruct (default_set _ _ _ _ _ WF PL DS) as (L1 & K & AV & C1).
  assert (OA : only_argument convert names fuel h1 args = Some (h1, args, None)).
  { unfold only_argument. destruct args as [|a [|b args]]; try reflexivity. destruct (Nat.eqb_spec (length names) 1); [reflexivity|]. destruct POS as [X|[X|X]]; [cbn in X; lia|contradiction|]. specialize (X a (or_introl eq_refl)).
    destruct a as [|[| | |nm s]|i s|i q]; try destruct X; try reflexivity. destruct nm; [reflexivity|]. rewrite X. reflexivity. }
  rewrite OA in H. destruct (walks fuel h1 (HDict j p)); [|discriminate]. cbn [h_merge] in H.
  match type of H with context [h_deep_merge fuel h1 ?n defaults] => destruct (h_deep_merge fuel h1 n defaults) as [h2|] eqn:M1 end; [|discriminate H].
  match type of H with context [h_deep_merge fuel h2 ?n p] => destruct (h_deep_merge fuel h2 n p) as [h3|] eqn:M2 end; [|discriminate H].
  match type of H with context [bind_arguments d fuel h3 ?n names args] => destruct (bind_arguments d fuel h3 n names args) as [h4|] eqn:BA end; [|discriminate H]. inversion H; subst; clear H.
  set (n := length h) in *. assert (PN : p <> n) by lia. assert (DN : defaults <> n) by lia. assert (Ln1 : n < length h1) by lia. assert (G0 : grows h h1) by (apply grows_keeps; [exact K|lia]).
  pose proof (merge_grows _ _ _ _ _ M1) as G1. pose proof (merge_grows _ _ _ _ _ M2) as G2. destruct (merge_fresh n _ _ _ _ AV DN Ln1 M1) as [A2 C2]. assert (L2 : n < length h2) by (destruct G1; lia). destruct (merge_fresh n _ _ _ _ A2 PN L2 M2) as [A3 C3]. assert (L3 : n < length h3) by (destruct G2; lia).
  destruct (bind_spec fuel n args names h3 h' L3 BA) as (FR & LN & SUR & BND & NBD).
  assert (G3 : grows h h3) by (apply (grows_trans _ h2); [apply (grows_trans _ h1)|]; assumption).
  split; [reflexivity|]. split.
  { split; [destruct G3; lia|]. intros x k v X. destruct (Nat.lt_ge_cases x (length h)) as [LX|LX]; [|rewrite map_at_out in X by exact LX; discriminate]. unfold map_at. rewrite FR by (destruct G3; lia). apply (proj2 G3), X. }
  split; [exact SUR|]. split; [exact BND|].
  assert (MD1 : map_at h1 defaults = map_at h defaults) by (apply map_at_keeps; assumption). assert (MP1 : map_at h1 p = map_at h p) by (apply map_at_keeps; assumption). split.
  - intros k v O NB OR FO. rewrite NBD by assumption. rewrite C3, C2, MD1. rewrite C1.
    assert (N1 : match map_at h p with [] => if str_eqb k $"DEFAULT" then Some (HDict j p) else None | _ => None end = None).
    { destruct (map_at h p) eqn:MP; [|reflexivity]. destruct OR as [X|X]; [contradiction|]. destruct (str_eqb_spec k $"DEFAULT"); [contradiction|reflexivity]. }
    rewrite N1. cbn [first_of] in FO. destruct (mget (map_at h defaults) k) as [vd|] eqn:VD; [exact FO|]. apply (grows_map h1 h2 p k v G1). rewrite MP1. destruct (mget (map_at h p) k); exact FO.
  - intros NE DJ. assert (E1 : forall k, mget (map_at h1 n) k = None) by (intro k'; rewrite C1; destruct (map_at h p); [contradiction|reflexivity]).
    destruct (flat_merge n fuel h1 defaults h2 Ln1 ltac:(congruence)) as (LN2 & FR2 & _); [rewrite MD1; apply WF|intros k' ? ? ? ? X; rewrite E1 in X; discriminate|exact M1|].
    assert (MP2 : map_at h2 p = map_at h1 p) by (unfold map_at; rewrite FR2 by exact PN; reflexivity).
    destruct (flat_merge n fuel h2 p h3 L2 ltac:(congruence)) as (LN3 & FR3 & _); [rewrite MP2, MP1; apply WF| |exact M2|].
    { intros k i1 a1 j1 b1 X Y. rewrite C2, E1, MD1 in X. rewrite MP2, MP1 in Y. exact (DJ _ _ _ _ _ X Y). }
    split; [intros x LX; rewrite FR by (unfold n; lia); rewrite FR3, FR2 by (unfold n; lia); apply K, LX|]. intros k O NB. rewrite NBD by assumption. rewrite C3, C2, E1, MD1, MP2, MP1. cbn [first_of]. destruct (mget (map_at h defaults) k); [reflexivity|]. destruct (mget (map_at h p) k); reflexivity.
Qed.
End Call.
Lemma configure_settings cfg sched : sound cfg -> visits cfg sched ->
  exists cfg', configure sched cfg = Ok cfg' /\ (forall k v, In (k, v) cfg -> mget cfg' k = Some v) /\ forall name v, words name <> [] -> mget cfg' name = Some v <-> says cfg name v.
Proof.
  intros SO VS. destruct (configure_says cfg sched SO VS) as (c & A & B & C). exists c. split; [exact A|]. split; [exact B|]. intros name v W. apply C. unfold words in W.
  destruct (str_eqb_spec name $"description") as [->|_]; [left; reflexivity|]. destruct (str_eqb_spec name $"group") as [->|_]; [right; left; reflexivity|].
  destruct (str_eqb_spec name $"args") as [->|_]; [do 2 right; left; reflexivity|]. destruct (str_eqb_spec name $"aliases") as [->|_]; [do 3 right; left; reflexivity|]. destruct (str_eqb_spec name $"def") as [->|_]; [do 4 right; left; reflexivity|contradiction].
Qed.
Lemma configure_wrong cfg sched key v : visits cfg sched -> NoDup (map fst cfg) -> In (key, v) cfg -> (forall name, ~ means key name) -> exists e, configure sched cfg = Err e.
Proof. intros VS ND I N. apply (configure_unknown _ _ key); [apply VS, (in_map fst _ _ I)| |exact N]. rewrite (mget_In_NoDup _ _ _ ND I). discriminate. Qed.
Lemma call_restores {G : Engine} grow d constants folder accept convert names defaults source fuel args st st' o :
  call grow d constants folder accept convert names defaults source fuel args st = Some (st', o) -> s_context st' = s_context st.
Proof.
  unfold call. destruct (call_context _ _ _ _ _ _ _ _) as [[h [n|]]|]; [| |discriminate].
  - intro H. apply run_restores in H. exact H.
  - intro H. inversion H. reflexivity.
Qed.
