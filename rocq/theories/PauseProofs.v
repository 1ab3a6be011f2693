(** Proofs about paused sections. *)
From Coq Require Import String Ascii List ZArith NArith Bool Arith Lia.
From Verif Require Import GoStr GoStrFacts SentinelFacts TemplateModel TemplateSpec TemplateProofs ProcessModel ProcessSpec.
Import ListNotations.

Definition br : ascii := "$"%char.
Definition mark : str := $"&paused-".

Lemma sent_left : sentinel br mark left_repl.
Proof. exists $"&paused-left&". split; [reflexivity|]. split; [cbn; intuition discriminate|reflexivity]. Qed.
Lemma sent_right : sentinel br mark right_repl.
Proof. exists $"&paused-right&". split; [reflexivity|]. split; [cbn; intuition discriminate|reflexivity]. Qed.
Lemma sent_razor : sentinel br mark razor_repl.
Proof. exists $"&paused-razor&". split; [reflexivity|]. split; [cbn; intuition discriminate|reflexivity]. Qed.
Lemma mark_nonempty : mark <> []. Proof. discriminate. Qed.

Definition three (x : str) : Prop := In x [left_repl; right_repl; razor_repl].
Lemma three_sentinel : forall x, three x -> sentinel br mark x.
Proof. intros x [<-|[<-|[<-|[]]]]; [apply sent_left|apply sent_right|apply sent_razor]. Qed.
Lemma three_letters : forall x c, three x -> In c x -> In c $"$&paused-left&$paused-right&$paused-razor&$".
Proof.
  intros x c T I. destruct T as [<-|[<-|[<-|[]]]].
  - unfold left_repl in I. change $"$&paused-left&$paused-right&$paused-razor&$" with ($"$&paused-left&$" ++ $"paused-right&$paused-razor&$"). apply in_or_app. left. exact I.
  - change $"$&paused-left&$paused-right&$paused-razor&$" with ($"$&paused-left&$paused-" ++ $"right&$" ++ $"paused-razor&$"). change right_repl with ($"$&paused-" ++ $"right&$") in I. apply in_app_or in I. destruct I as [I|I].
    + apply in_or_app. left. change $"$&paused-left&$paused-" with ($"$&paused-" ++ $"left&$paused-"). apply in_or_app. left. exact I.
    + apply in_or_app. right. apply in_or_app. left. exact I.
  - change $"$&paused-left&$paused-right&$paused-razor&$" with ($"$&paused-" ++ $"left&$paused-right&$paused-" ++ $"razor&$"). change razor_repl with ($"$&paused-" ++ $"razor&$") in I. apply in_app_or in I. destruct I as [I|I].
    + apply in_or_app. left. exact I.
    + apply in_or_app. right. apply in_or_app. right. exact I.
Qed.
Lemma three_apart : forall delim x, ordinary delim -> three x -> apart delim x.
Proof.
  intros delim x (_ & D) T. split; [apply (sentinel_nonempty br mark), three_sentinel; exact T|]. intros c I J. apply (D c I). apply (three_letters x); assumption.
Qed.
Lemma ordinary_mark : forall delim, ordinary delim -> delim <> [] /\ forall c, In c delim -> ~ In c mark.
Proof.
  intros delim (N & D). split; [exact N|]. intros c I J. apply (D c I). change $"$&paused-left&$paused-right&$paused-razor&$" with ($"$" ++ mark ++ $"left&$paused-right&$paused-razor&$"). apply in_or_app. right. apply in_or_app. left. exact J.
Qed.

(** The meaning of a sentinel. *)
Definition den (d : delims) (s : str) : str := if str_eqb s left_repl then left_delim d else if str_eqb s right_repl then right_delim d else razor_delim d.

(** A text with hidden words: fields without mark, and sentinels. *)
Definition hidden (d : delims) (line line' : str) : Prop :=
  exists T l, each (fun f => contains mark f = false) three T l /\ line' = flat T l /\ meaning (den d) T l = line.

Lemma each_good : forall T l, each (fun f => contains mark f = false) three T l -> good br mark T l.
Proof. intros T l (A & B). split; [|exact B]. eapply Forall_impl; [|exact A]. intros fs (H1 & H2). split; [exact H1|apply three_sentinel; exact H2]. Qed.

Lemma hidden_revert : forall d line line', ordinary_delims d -> hidden d line line' -> revert d line' = line.
Proof.
  intros d line line' (OL & OR & OZ) (T & l & E & -> & M). unfold revert.
  assert (Q : forall x, In x (map snd T) -> three x) by (intros x I; apply in_map_iff in I; destruct I as (fs & <- & I); destruct E as (E & _); rewrite Forall_forall in E; apply E; exact I).
  pose proof (each_good T l E) as G0. clear E.
  pose proof (put_flat br mark left_repl (left_delim d) T l sent_left G0) as P1. pose proof (put_good br mark mark_nonempty left_repl (left_delim d) T l (proj1 (ordinary_mark _ OL)) (proj2 (ordinary_mark _ OL)) G0) as G1.
  pose proof (put_meaning (den d) left_repl T l) as M1. pose proof (put_gone left_repl (left_delim d) T l) as X1. change (den d left_repl) with (left_delim d) in M1. destruct (put left_repl (left_delim d) T l) as (T1, l1). rewrite P1.
  pose proof (put_flat br mark right_repl (right_delim d) T1 l1 sent_right G1) as P2. pose proof (put_good br mark mark_nonempty right_repl (right_delim d) T1 l1 (proj1 (ordinary_mark _ OR)) (proj2 (ordinary_mark _ OR)) G1) as G2.
  pose proof (put_meaning (den d) right_repl T1 l1) as M2. pose proof (put_gone right_repl (right_delim d) T1 l1) as X2. change (den d right_repl) with (right_delim d) in M2. destruct (put right_repl (right_delim d) T1 l1) as (T2, l2). rewrite P2.
  pose proof (put_flat br mark razor_repl (razor_delim d) T2 l2 sent_razor G2) as P3.
  pose proof (put_meaning (den d) razor_repl T2 l2) as M3. pose proof (put_gone razor_repl (razor_delim d) T2 l2) as X3. change (den d razor_repl) with (razor_delim d) in M3. destruct (put razor_repl (razor_delim d) T2 l2) as (T3, l3). rewrite P3.
  assert (N : map snd T3 = []).
  { destruct (map snd T3) as [|x r] eqn:E; [reflexivity|]. exfalso. assert (I : In x (x :: r)) by (left; reflexivity). rewrite X3, X2, X1 in I. destruct I as (((I & N1) & N2) & N3). apply Q in I. destruct I as [<-|[<-|[<-|[]]]]; congruence. }
  rewrite <- (meaning_none (den d)) by exact N. congruence.
Qed.

Lemma hidden_none : forall d line, contains mark line = false -> hidden d line line.
Proof. intros d line H. exists [], line. split; [split; [constructor|exact H]|]. split; reflexivity. Qed.

Lemma hidden_veil : forall d line line' s, three s -> ordinary (den d s) -> hidden d line line' -> hidden d line (replace_all (den d s) s line').
Proof.
  intros d line line' s Ts O (T & l & E & -> & M). pose proof (veil_flat (den d s) s T l (proj1 O)) as V. pose proof (veil_meaning (den d) s T l (proj1 O)) as VM.
  pose proof (veil_each (fun f => contains mark f = false) (fun f => contains mark f = false) three (den d s) s T l (fun f H => split_fields_other (den d s) mark f (proj1 O) H) Ts E) as VE.
  destruct (veil (den d s) s T l) as (T', l'). exists T', l'. split; [exact VE|]. split; [|congruence]. apply V. destruct E as (E & _). eapply Forall_impl; [|exact E]. intros fs (_ & H). apply three_apart; assumption.
Qed.

(** What is hidden does not come back. *)
Lemma replace_gone : forall delim s, ordinary delim -> three s -> forall line, contains delim (replace_all delim s line) = false.
Proof.
  intros delim s O Ts line. pose proof (veil_flat delim s [] line (proj1 O) ltac:(constructor)) as V. cbn [flat] in V.
  pose proof (veil_each (fun _ => True) (fun f => contains delim f = false) (fun x => apart delim x) delim s [] line (fun f _ => split_fields_no delim (proj1 O) f) (three_apart _ _ O Ts)) as VE.
  destruct (veil delim s [] line) as (T', l'). rewrite V. apply each_not_contains; [exact (proj1 O)|]. apply VE. split; [constructor|exact I].
Qed.
Lemma replace_still : forall delim other s, ordinary delim -> ordinary other -> three s -> forall line, contains delim line = false -> contains delim (replace_all other s line) = false.
Proof.
  intros delim other s O O' Ts line H. pose proof (veil_flat other s [] line (proj1 O') ltac:(constructor)) as V. cbn [flat] in V.
  pose proof (veil_each (fun f => contains delim f = false) (fun f => contains delim f = false) (fun x => apart delim x) other s [] line (fun f Hf => split_fields_other other delim f (proj1 O') Hf) (three_apart _ _ O Ts)) as VE.
  destruct (veil other s [] line) as (T', l'). rewrite V. apply each_not_contains; [exact (proj1 O)|]. apply VE. split; [constructor|exact H].
Qed.

(** One line. *)
Lemma step_line : forall d go raz line, ordinary_delims d ->
  let '(go', raz', line') := pause_step d go raz line in
  go' = (go || contains pause_go_template line) && negb (contains resume_go_template line) /\
  raz' = (raz || contains pause_razor line) && negb (contains resume_razor line) /\
  (go' = true -> contains (left_delim d) line' = false /\ contains (right_delim d) line' = false /\ contains (razor_delim d) line' = false) /\
  (raz' = true -> contains (razor_delim d) line' = false) /\
  (go' = false -> raz' = false \/ contains (razor_delim d) line = false -> line' = line) /\
  (contains mark line = false -> revert d line' = line).
Proof.
  intros d go raz line (OL & OR & OZ). unfold pause_step. set (g := (go || contains pause_go_template line) && negb (contains resume_go_template line)). set (z := (raz || contains pause_razor line) && negb (contains resume_razor line)).
  assert (T1 : three left_repl) by (left; reflexivity). assert (T2 : three right_repl) by (right; left; reflexivity). assert (T3 : three razor_repl) by (right; right; left; reflexivity).
  split; [reflexivity|]. split; [reflexivity|].
  split; [|split; [|split]].
  - intros ->. rewrite orb_true_r. split; [|split].
    + apply replace_still; auto. apply replace_gone; auto.
    + apply replace_gone; auto.
    + apply replace_still; auto. apply replace_still; auto. apply replace_gone; auto.
  - intros ->. cbn [orb]. destruct g; [apply replace_still; auto; apply replace_still; auto|]; apply replace_gone; auto.
  - intros ->. cbn [orb]. rewrite orb_false_r. intros [->|H]; [reflexivity|]. destruct z; [apply replace_all_no; exact H|reflexivity].
  - intro H. apply hidden_revert; [exact (conj OL (conj OR OZ))|]. pose proof (hidden_none d line H) as H0.
    assert (H1 : hidden d line (if z || g then replace_all (razor_delim d) razor_repl line else line)) by (destruct (z || g); [exact (hidden_veil d line line razor_repl T3 OZ H0)|exact H0]).
    destruct g; [|exact H1]. apply (hidden_veil d line _ right_repl T2 OR). apply (hidden_veil d line _ left_repl T1 OL). exact H1.
Qed.

(** The state after each line. *)
Fixpoint states (on off : str) (s : bool) (lines : list str) : list bool :=
  match lines with [] => [] | l :: lines' => let s' := (s || contains on l) && negb (contains off l) in s' :: states on off s' lines' end.
Lemma states_spec : forall on off lines s i, i < List.length lines ->
  (nth i (states on off s lines) false = true <->
   paused on off lines i \/ (s = true /\ forall k, k <= i -> ~ holds (nth k lines []) off)).
Proof.
  intros on off lines. induction lines as [|l lines IH]; intros s i L; [cbn in L; lia|]. cbn [states]. destruct i as [|i].
  - cbn [nth]. rewrite andb_true_iff, orb_true_iff, negb_true_iff. rewrite (holds_iff l on). split.
    + intros ([->|H] & N); (assert (N' : ~ holds l off) by (rewrite <- holds_iff; congruence)).
      * right. split; [reflexivity|]. intros k Lk. replace k with 0 by lia. exact N'.
      * left. exists 0. split; [lia|]. split; [exact H|]. intros k Lk. replace k with 0 by lia. exact N'.
    + intros [(j & Lj & H & N)|(-> & N)].
      * replace j with 0 in * by lia. split; [right; exact H|]. specialize (N 0 ltac:(lia)). cbn [nth] in N. rewrite <- holds_iff in N. destruct (contains off l); congruence.
      * split; [left; reflexivity|]. specialize (N 0 ltac:(lia)). cbn [nth] in N. rewrite <- holds_iff in N. destruct (contains off l); congruence.
  - cbn [nth]. cbn [List.length] in L. rewrite IH by lia. clear IH. split.
    + intros [(j & Lj & H & N)|(H0 & N)].
      * left. exists (S j). split; [lia|]. split; [exact H|]. intros k Lk. destruct k as [|k]; [lia|]. apply N. lia.
      * apply andb_true_iff in H0. destruct H0 as (H0 & H1). apply negb_true_iff in H1. assert (N' : ~ holds l off) by (rewrite <- holds_iff; congruence).
        apply orb_true_iff in H0. destruct H0 as [->|H0].
        -- right. split; [reflexivity|]. intros [|k] Lk; [exact N'|apply N; lia].
        -- left. exists 0. split; [lia|]. split; [apply holds_iff; exact H0|]. intros [|k] Lk; [exact N'|apply N; lia].
    + intros [(j & Lj & H & N)|(-> & N)].
      * destruct j as [|j].
        -- right. cbn [nth] in H. split; [|intros k Lk; apply (N (S k)); lia]. apply holds_iff in H. rewrite H, orb_true_r. specialize (N 0 ltac:(lia)). cbn [nth] in N. rewrite <- holds_iff in N. destruct (contains off l); [congruence|reflexivity].
        -- left. exists j. split; [lia|]. split; [exact H|]. intros k Lk. apply (N (S k)). lia.
      * right. split; [|intros k Lk; apply (N (S k)); lia]. specialize (N 0 ltac:(lia)). cbn [nth] in N. rewrite <- holds_iff in N. destruct (contains off l); [congruence|reflexivity].
Qed.
Lemma states_paused : forall on off lines i, i < List.length lines -> (nth i (states on off false lines) false = true <-> paused on off lines i).
Proof. intros on off lines i L. rewrite states_spec by exact L. split; [intros [H|(H & _)]; [exact H|discriminate]|auto]. Qed.

Lemma lines_length : forall d lines go raz, List.length (pause_lines d go raz lines) = List.length lines.
Proof. intros d lines. induction lines as [|l lines IH]; intros go raz; [reflexivity|]. cbn [pause_lines]. destruct (pause_step d go raz l) as ((g & z) & l'). cbn [List.length]. rewrite IH. reflexivity. Qed.

Lemma lines_nth : forall d, ordinary_delims d -> forall lines go raz i, i < List.length lines ->
  let l := nth i lines [] in let l' := nth i (pause_lines d go raz lines) [] in
  let g := nth i (states pause_go_template resume_go_template go lines) false in let z := nth i (states pause_razor resume_razor raz lines) false in
  (g = true -> contains (left_delim d) l' = false /\ contains (right_delim d) l' = false /\ contains (razor_delim d) l' = false) /\
  (z = true -> contains (razor_delim d) l' = false) /\
  (g = false -> z = false \/ contains (razor_delim d) l = false -> l' = l) /\
  (contains mark l = false -> revert d l' = l).
Proof.
  intros d O lines. induction lines as [|x lines IH]; intros go raz i L; [cbn in L; lia|]. cbn [pause_lines states]. pose proof (step_line d go raz x O) as H.
  destruct (pause_step d go raz x) as ((g, z), x'). destruct H as (-> & -> & H). destruct i as [|i]; [exact H|]. cbn [List.length] in L. cbn [nth]. apply IH. lia.
Qed.

(** The lines of a text. *)
Lemma hide_lines : forall d lines, ordinary_delims d -> lines <> [] -> Forall (fun l => ~ In NL l) lines ->
  exists lines', hide d (join [NL] lines) = join [NL] lines' /\ List.length lines' = List.length lines /\
  forall i, i < List.length lines ->
    (code_paused lines i -> ~ holds (nth i lines' []) (left_delim d) /\ ~ holds (nth i lines' []) (right_delim d) /\ ~ holds (nth i lines' []) (razor_delim d)) /\
    (razor_paused lines i -> ~ holds (nth i lines' []) (razor_delim d)) /\
    (~ code_paused lines i -> ~ razor_paused lines i \/ ~ holds (nth i lines []) (razor_delim d) -> nth i lines' [] = nth i lines []) /\
    (~ holds (nth i lines []) $"&paused-" -> revert d (nth i lines' []) = nth i lines []).
Proof.
  intros d lines O NE F. unfold hide. rewrite split1_join by assumption. exists (pause_lines d false false lines). split; [reflexivity|]. split; [apply lines_length|].
  intros i L. pose proof (lines_nth d O lines false false i L) as H. cbv zeta in H. destruct H as (H1 & H2 & H3 & H4).
  unfold code_paused, razor_paused. rewrite <- !states_paused by exact L. unfold pause_go_template, resume_go_template, pause_razor, resume_razor in *.
  rewrite <- !holds_iff. split; [|split; [|split]].
  - intro P. destruct (H1 P) as (-> & -> & ->). repeat split; discriminate.
  - intro P. rewrite (H2 P). discriminate.
  - intros N Hr. apply H3; [apply not_true_is_false; exact N|]. destruct Hr as [Hr|Hr]; [left|right]; apply not_true_is_false; exact Hr.
  - intro N. apply H4. apply not_true_is_false. exact N.
Qed.

(** Sentinels do not go over the end of a line. *)
Lemma replace_line : forall s d a z, s <> [] -> ~ In NL s -> replace_all s d (a ++ NL :: z) = replace_all s d a ++ NL :: replace_all s d z.
Proof.
  intros s d a z NS N. change (a ++ NL :: z) with (a ++ [NL] ++ z). rewrite replace_cut; [reflexivity|exact NS|discriminate|]. intros c I [<-|[]]. contradiction.
Qed.
Lemma revert_line : forall d a z, revert d (a ++ NL :: z) = revert d a ++ NL :: revert d z.
Proof.
  intros d a z. unfold revert. rewrite !replace_line; try reflexivity; try discriminate; cbn; intuition discriminate.
Qed.
Lemma revert_join : forall d lines, lines <> [] -> revert d (join [NL] lines) = join [NL] (map (revert d) lines).
Proof.
  intros d lines. induction lines as [|l lines IH]; [congruence|]. intros _. destruct lines as [|x lines]; [reflexivity|].
  change (join [NL] (map (revert d) (l :: x :: lines))) with (revert d l ++ NL :: join [NL] (map (revert d) (x :: lines))).
  change (join [NL] (l :: x :: lines)) with (l ++ NL :: join [NL] (x :: lines)). rewrite revert_line, IH by discriminate. reflexivity.
Qed.
