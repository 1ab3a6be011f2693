(** Proofs about the bash rendering. *)
From Coq Require Import String Ascii List ZArith NArith Bool Lia Permutation Sorted.
From Verif Require Import GoStr GoStrFacts ValueModel ValueFacts CollSpec ListModel ListProofs DictModel DictProofs Utf8 Utf8Facts.
From Verif Require Import QuoteModel QuoteSpec QuoteProofs TextModel NumFacts ConvModel ConvSpec ConvProofs VeqFacts BashModel BashSpec.
Import ListNotations.

(** ** Words *)

Ltac all_bytes c := let b0 := fresh in let b1 := fresh in let b2 := fresh in let b3 := fresh in
  let b4 := fresh in let b5 := fresh in let b6 := fresh in let b7 := fresh in
  destruct c as [b0 b1 b2 b3 b4 b5 b6 b7]; destruct b0, b1, b2, b3, b4, b5, b6, b7.

Lemma add_front_app a b r : add_front a (add_front b r) = add_front (a ++ b) r.
Proof. destruct r as [[t u]|]; cbn; [rewrite app_assoc|]; reflexivity. Qed.
Lemma add_front_nil r : add_front [] r = r.
Proof. destruct r as [[t u]|]; reflexivity. Qed.

(** The text with a backslash before every dollar sign. *)
Definition esc (c : ascii) : str := if is_dollar c then [BSL; c] else [c].
Lemma replace_dollar s : replace_all $"$" $"\$" s = concat (map esc s).
Proof.
  induction s as [|c s IH]; [reflexivity|]. cbn [map concat]. rewrite <- IH. unfold esc. destruct (is_dollar c) eqn:D.
  - apply ascii_eqb_eq in D. subst c. change ("$"%char :: s) with ($"$" ++ s). rewrite replace_all_sep by discriminate. reflexivity.
  - rewrite replace_all_cons; [reflexivity|]. change ($"$") with ["$"%char]. rewrite has_prefix_1. unfold is_dollar in D.
    rewrite Ascii.eqb_sym. exact D.
Qed.

(** What an ordinary character is not. *)
Lemma word_ordinary c r : ordinary c = true -> shell_word false (c :: r) = add_front [c] (shell_word false r).
Proof. intro H. all_bytes c; first [discriminate H | reflexivity]. Qed.
Lemma word_escaped q c r : c <> NL -> is_in c [DQ; BSL; BQ; "$"%char] = true -> shell_word q (BSL :: c :: r) = add_front [c] (shell_word q r).
Proof. intros _ H. all_bytes c; first [discriminate H | destruct q; reflexivity]. Qed.
Lemma word_quoted c r : printable c = true -> is_in c [DQ; BSL; "$"%char] = false -> shell_word true (c :: r) = add_front [c] (shell_word true r).
Proof. intros H G. all_bytes c; first [discriminate H | discriminate G | reflexivity]. Qed.

Lemma word_bare s r : Forall (fun c => ordinary c = true \/ is_dollar c = true) s ->
  shell_word false (concat (map esc s) ++ r) = add_front s (shell_word false r).
Proof.
  induction 1 as [|c s H F IH]; [symmetry; apply add_front_nil|]. cbn [map concat]. unfold esc at 1. destruct (is_dollar c) eqn:D.
  - apply ascii_eqb_eq in D. subst c. cbn [app]. rewrite word_escaped by (reflexivity || discriminate). rewrite IH. apply (add_front_app ["$"%char]).
  - destruct H as [H|H]; [|discriminate]. cbn [app]. rewrite word_ordinary by exact H. rewrite IH. apply (add_front_app [c]).
Qed.

Section WithEnv.
Context {E : Env} {P : PrintEnv}.

(** Quoted text of printable characters, with the dollar signs escaped afterwards. *)
Definition in_quotes (c : ascii) : str := if is_in c [DQ; BSL; "$"%char] then [BSL; c] else [c].
Lemma printable_ascii c : printable c = true -> (N_of_ascii c < 128)%N.
Proof.
  unfold printable. rewrite !andb_true_iff. intros [[_ H] _]. apply N.leb_le in H. lia.
Qed.
Lemma chunks_printable s : Forall (fun c => printable c = true) s -> chunks s = map (fun c => (N_of_ascii c, [c])) s.
Proof.
  induction 1 as [|c s H F IH]; [reflexivity|]. rewrite chunks_ascii by (apply printable_ascii; exact H). rewrite IH. reflexivity.
Qed.
Lemma esc_quote s : Forall (fun c => printable c = true) s -> concat (map esc (go_quote s)) = DQ :: concat (map in_quotes s) ++ [DQ].
Proof.
  intro F. unfold go_quote. rewrite chunks_printable by exact F. cbn [map concat]. change (esc DQ) with [DQ]. cbn [app]. f_equal.
  rewrite map_app, concat_app. cbn [map concat]. change (esc DQ) with [DQ]. cbn [app]. f_equal.
  induction F as [|c s H F IH]; [reflexivity|]. cbn [map concat]. rewrite map_app, concat_app, IH. f_equal.
  all_bytes c; first [discriminate H | reflexivity].
Qed.
Lemma word_in_quotes s r : Forall (fun c => printable c = true) s ->
  shell_word true (concat (map in_quotes s) ++ DQ :: r) = add_front s (shell_word false r).
Proof.
  induction 1 as [|c s H F IH]; [cbn [map concat app]; rewrite add_front_nil; reflexivity|]. cbn [map concat]. unfold in_quotes at 1.
  destruct (is_in c [DQ; BSL; "$"%char]) eqn:G.
  - cbn [app]. rewrite word_escaped.
    + rewrite IH. apply (add_front_app [c]).
    + intros ->. discriminate.
    + all_bytes c; first [discriminate G | reflexivity].
  - cbn [app]. rewrite word_quoted by assumption. rewrite IH. apply (add_front_app [c]).
Qed.

Lemma esc_id s : Forall (fun c => is_dollar c = false) s -> concat (map esc s) = s.
Proof. induction 1 as [|c s H F IH]; [reflexivity|]. cbn [map concat]. unfold esc at 1. rewrite H, IH. reflexivity. Qed.

(** The rendering of a text: quoted if it contains one of the characters. *)
Definition rend (triggers s : str) : str := if contains_any s triggers then go_quote s else s.
Definition rendd (triggers : str) (dollar : bool) (s : str) : str :=
  if dollar then replace_all $"$" $"\$" (rend triggers s) else rend triggers s.

Lemma is_in_contains c l : contains_byte c l = is_in c l.
Proof.
  destruct (is_in c l) eqn:G.
  - apply contains_byte_In. apply existsb_exists in G. destruct G as (d & I & G). apply ascii_eqb_eq in G. subst. exact I.
  - destruct (contains_byte c l) eqn:C; [|reflexivity]. apply contains_byte_In in C. exfalso.
    assert (is_in c l = true) by (apply existsb_exists; exists c; split; [exact C|apply ascii_eqb_refl]). congruence.
Qed.
Lemma triggers_eq s t : contains_any s t = existsb (fun c => is_in c t) s.
Proof. unfold contains_any. induction s as [|c s IH]; [reflexivity|]. cbn [existsb]. rewrite is_in_contains, IH. reflexivity. Qed.

Lemma ordinary_dollar c : ordinary c = true -> is_dollar c = false.
Proof. intro H. all_bytes c; first [discriminate H | reflexivity]. Qed.

Lemma quote_no_dollar s : Forall (fun c => printable c = true /\ is_dollar c = false) s -> Forall (fun c => is_dollar c = false) (go_quote s).
Proof.
  intro F. unfold go_quote. rewrite chunks_printable by (eapply Forall_impl; [|exact F]; intros c [H _]; exact H).
  constructor; [reflexivity|]. apply Forall_app. split; [|repeat constructor].
  induction F as [|c s [H D] F IH]; [constructor|]. cbn [map concat]. apply Forall_app. split; [|exact IH].
  all_bytes c; first [discriminate H | discriminate D | repeat constructor].
Qed.

Lemma word_rend t dollar s r : readable t dollar s -> shell_word false (rendd t dollar s ++ r) = add_front s (shell_word false r).
Proof.
  unfold readable. rewrite <- triggers_eq. intro R. unfold rendd, rend. destruct (contains_any s t).
  - assert (F : Forall (fun c => printable c = true) s) by (eapply Forall_impl; [|exact R]; intros c [H _]; exact H).
    assert (Q : concat (map esc (go_quote s)) = if dollar then replace_all $"$" $"\$" (go_quote s) else go_quote s).
    { destruct dollar; [symmetry; apply replace_dollar|]. apply esc_id. apply quote_no_dollar. eapply Forall_impl; [|exact R].
      intros c [H D]. split; [exact H|]. destruct (is_dollar c); [discriminate (D eq_refl)|reflexivity]. }
    destruct dollar; rewrite <- Q, esc_quote by exact F; cbn [app]; rewrite <- app_assoc; cbn [app];
      change (shell_word false (DQ :: concat (map in_quotes s) ++ DQ :: r)) with (shell_word true (concat (map in_quotes s) ++ DQ :: r));
      apply word_in_quotes; exact F.
  - assert (Q : concat (map esc s) = if dollar then replace_all $"$" $"\$" s else s).
    { destruct dollar; [symmetry; apply replace_dollar|]. apply esc_id. eapply Forall_impl; [|exact R].
      intros c [H|[H _]]; [apply ordinary_dollar; exact H|discriminate]. }
    destruct dollar; rewrite <- Q at 1; apply word_bare; (eapply Forall_impl; [|exact R]); intros c [H|[_ H]]; auto.
Qed.

Definition stops (r : str) : Prop := match r with [] => True | c :: _ => In c [SP; TAB; NL; ")"%char] end.
Lemma word_stops r : stops r -> shell_word false r = Some ([], r).
Proof. destruct r as [|c r]; [reflexivity|]. intros [<-|[<-|[<-|[<-|[]]]]]; reflexivity. Qed.
Lemma word_read t dollar s r : readable t dollar s -> stops r -> shell_word false (rendd t dollar s ++ r) = Some (s, r).
Proof. intros R S. rewrite word_rend by exact R. rewrite word_stops by exact S. cbn. rewrite app_nil_r. reflexivity. Qed.

(** The first character of a rendered text. *)
Lemma rend_head t dollar s : s <> [] -> readable t dollar s ->
  exists c x, rendd t dollar s = c :: x /\ (c = DQ \/ c = BSL \/ ordinary c = true).
Proof.
  intros N R. unfold readable in R. rewrite <- triggers_eq in R. unfold rendd, rend. destruct (contains_any s t).
  - destruct dollar; [|unfold go_quote; eexists; eexists; split; [reflexivity|auto]].
    rewrite replace_dollar, esc_quote by (eapply Forall_impl; [|exact R]; intros c [H _]; exact H). eexists; eexists; split; [reflexivity|auto].
  - destruct s as [|c s]; [congruence|]. inversion R as [|? ? H F]; subst. destruct dollar.
    + rewrite replace_dollar. cbn [map concat]. unfold esc at 1. destruct (is_dollar c) eqn:D.
      * eexists; eexists; split; [reflexivity|auto].
      * destruct H as [H|[_ H]]; [|congruence]. eexists; eexists; split; [reflexivity|auto].
    + destruct H as [H|[H _]]; [|discriminate]. eexists; eexists; split; [reflexivity|auto].
Qed.

(** ** Arrays *)
Lemma words_step fuel c x r w : (c = DQ \/ c = BSL \/ ordinary c = true) -> shell_word false (c :: x) = Some (w, r) ->
  shell_words (S fuel) (c :: x) = match shell_words fuel r with Some (ws, r) => Some (w :: ws, r) | None => None end.
Proof.
  intros H W. cbn [shell_words]. rewrite W.
  assert (A : Ascii.eqb c ")" = false) by (destruct H as [->|[->|H]]; try reflexivity; all_bytes c; first [discriminate H|reflexivity]).
  assert (B : is_in c [SP; TAB; NL] = false) by (destruct H as [->|[->|H]]; try reflexivity; all_bytes c; first [discriminate H|reflexivity]).
  rewrite A, B. reflexivity.
Qed.

Lemma words_read t ts : forall fuel r, Forall (fun s => s <> [] /\ readable t false s) ts ->
  List.length (join $" " (map (rendd t false) ts)) < fuel ->
  shell_words fuel (join $" " (map (rendd t false) ts) ++ ")"%char :: r) = Some (ts, r).
Proof.
  induction ts as [|s ts IH]; intros fuel r F L.
  - destruct fuel; [lia|]. reflexivity.
  - inversion F as [|? ? [N R] F']; subst. destruct (rend_head t false s N R) as (c & x & Ex & Hc).
    destruct ts as [|s' ts].
    + cbn [map join] in *. destruct fuel; [lia|]. pose proof (word_read t false s (")"%char :: r) R ltac:(cbn; auto)) as W.
      rewrite Ex in *. cbn [app] in *. rewrite (words_step fuel c _ _ _ Hc W).
      destruct fuel; [cbn [List.length] in L; lia|]. reflexivity.
    + set (l := map (rendd t false) (s' :: ts)) in *.
      change (join $" " (map (rendd t false) (s :: s' :: ts))) with (rendd t false s ++ $" " ++ join $" " l) in *.
      rewrite !app_length in L. rewrite <- !app_assoc. cbn [app] in *.
      pose proof (word_read t false s (SP :: join $" " l ++ ")"%char :: r) R ltac:(cbn; auto)) as W.
      rewrite Ex in *. cbn [app List.length] in *. destruct fuel; [lia|].
      change (c :: x ++ $" " ++ join $" " l ++ ")"%char :: r) with (c :: x ++ SP :: join $" " l ++ ")"%char :: r).
      rewrite (words_step fuel c _ _ _ Hc W). destruct fuel; [lia|].
      change (shell_words (S fuel) (SP :: join $" " l ++ ")"%char :: r)) with (shell_words fuel (join $" " l ++ ")"%char :: r)).
      rewrite IH; [reflexivity|exact F'|]. change (List.length $" ") with 1 in L. lia.
Qed.

(** ** Associative arrays *)
Lemma span_app p a r : Forall (fun c => p c = true) a -> match r with [] => True | c :: _ => p c = false end -> span p (a ++ r) = (a, r).
Proof.
  induction 1 as [|c a H F IH]; intro R; [destruct r as [|c r]; [reflexivity|]; cbn [app span]; rewrite R; reflexivity|].
  cbn [app span]. rewrite H, (IH R). reflexivity.
Qed.
Lemma forallb_Forall {A} (p : A -> bool) l : forallb p l = true -> Forall (fun x => p x = true) l.
Proof. intro H. apply Forall_forall. apply forallb_forall. exact H. Qed.

Definition entry_text (t : str) (kt : str * str) : str := $"[" ++ fst kt ++ $"]=" ++ rendd t true (snd kt).
Definition entry_ok (t : str) (kt : str * str) : Prop := fst kt <> [] /\ forallb ordinary (fst kt) = true /\ readable t true (snd kt).
Lemma entries_step t fuel kt x r : entry_ok t kt -> stops r -> x = entry_text t kt ++ r ->
  shell_entries (S fuel) x = match shell_entries fuel r with Some (es, r) => Some (kt :: es, r) | None => None end.
Proof.
  intros (N & O & R) St ->. destruct kt as [k s]. cbn [fst snd] in *. unfold entry_text. cbn [fst snd]. rewrite <- !app_assoc.
  change ($"[" ++ k ++ $"]=" ++ rendd t true s ++ r) with ("["%char :: k ++ "]"%char :: "="%char :: rendd t true s ++ r).
  cbn [shell_entries]. change (Ascii.eqb "[" ")") with false. change (is_in "[" [SP; TAB; NL]) with false. change (Ascii.eqb "[" "[") with true. cbv iota.
  rewrite span_app; [|apply forallb_Forall; exact O|reflexivity]. cbv iota beta.
  rewrite word_read by assumption. destruct k; [congruence|]. reflexivity.
Qed.
Lemma entry_length t kt : 3 <= List.length (entry_text t kt).
Proof. unfold entry_text. rewrite !app_length. change (List.length $"[") with 1. change (List.length $"]=") with 2. lia. Qed.
Lemma entries_read t es : forall fuel r, Forall (entry_ok t) es ->
  List.length (join $" " (map (entry_text t) es)) < fuel ->
  shell_entries fuel (join $" " (map (entry_text t) es) ++ ")"%char :: r) = Some (es, r).
Proof.
  induction es as [|e es IH]; intros fuel r F L.
  - destruct fuel; [lia|]. reflexivity.
  - inversion F as [|? ? Ok F']; subst. pose proof (entry_length t e) as EL. destruct es as [|e' es].
    + cbn [map join] in *. destruct fuel; [lia|]. rewrite (entries_step t fuel e _ (")"%char :: r) Ok ltac:(cbn; auto) eq_refl).
      destruct fuel; [lia|]. reflexivity.
    + set (l := map (entry_text t) (e' :: es)) in *.
      change (join $" " (map (entry_text t) (e :: e' :: es))) with (entry_text t e ++ $" " ++ join $" " l) in *.
      rewrite !app_length in L. change (List.length $" ") with 1 in L. rewrite <- !app_assoc. destruct fuel; [lia|].
      rewrite (entries_step t fuel e (entry_text t e ++ $" " ++ join $" " l ++ ")"%char :: r) (SP :: join $" " l ++ ")"%char :: r) Ok ltac:(cbn; auto) eq_refl).
      destruct fuel; [lia|]. change (shell_entries (S fuel) (SP :: join $" " l ++ ")"%char :: r)) with (shell_entries fuel (join $" " l ++ ")"%char :: r)).
      rewrite IH; [reflexivity|exact F'|lia].
Qed.

(** ** Scripts *)
Lemma lookup_fresh vars n : ~ In n (map fst vars) -> lookup vars n = None.
Proof.
  induction vars as [|[k b] vars IH]; intro H; [reflexivity|]. cbn [lookup]. cbn [map fst In] in H. destruct (str_eqb_spec k n); [subst; tauto|apply IH; tauto].
Qed.
Lemma store_fresh vars n b : ~ In n (map fst vars) -> store vars n b = vars ++ [(n, b)].
Proof.
  induction vars as [|[k a] vars IH]; intro H; [reflexivity|]. cbn [store app]. cbn [map fst In] in H. destruct (str_eqb_spec k n); [subst; tauto|].
  rewrite IH by tauto. reflexivity.
Qed.
Lemma lookup_last vars n b : ~ In n (map fst vars) -> lookup (vars ++ [(n, b)]) n = Some b.
Proof.
  induction vars as [|[k a] vars IH]; intro H; cbn [lookup app].
  - rewrite str_eqb_refl. reflexivity.
  - cbn [map fst In] in H. destruct (str_eqb_spec k n); [subst; tauto|apply IH; tauto].
Qed.
Lemma store_last vars n a b : ~ In n (map fst vars) -> store (vars ++ [(n, a)]) n b = vars ++ [(n, b)].
Proof.
  induction vars as [|[k c] vars IH]; intro H; cbn [store app].
  - rewrite str_eqb_refl. reflexivity.
  - cbn [map fst In] in H. destruct (str_eqb_spec k n); [subst; tauto|]. rewrite IH by tauto. reflexivity.
Qed.

Lemma name_chars n : is_name n = true -> Forall (fun c => name_char c = true) n.
Proof. destruct n as [|c n]; [discriminate|]. cbn [is_name]. rewrite andb_true_iff. intros [H _]. apply forallb_Forall. exact H. Qed.

(** The text that gives a variable its value. *)
Definition script (n : str) (b : bound) : str :=
  match b with
  | Text s => n ++ $"=" ++ rendd value_triggers false s
  | Array ts => $"declare -a " ++ n ++ [NL] ++ n ++ $"=" ++ $"(" ++ join $" " (map (rendd item_triggers false) ts) ++ $")"
  | Table es => $"declare -A " ++ n ++ [NL] ++ n ++ $"=" ++ $"(" ++ join $" " (map (entry_text value_triggers) es) ++ $")"
  end.
Definition bound_ok (b : bound) : Prop :=
  match b with
  | Text s => readable value_triggers false s
  | Array ts => Forall (fun s => s <> [] /\ readable item_triggers false s) ts
  | Table es => Forall (entry_ok value_triggers) es
  end.

Lemma line_end_stops r : line_end r = true -> stops r.
Proof. destruct r as [|c r]; [exact (fun _ => I)|]. cbn [line_end]. intro H. apply ascii_eqb_eq in H. subst. cbn. auto. Qed.

(** An assignment is no declaration. *)
Lemma not_declaration n x p : is_name n = true -> p = $" -a " \/ p = $" -A " -> has_prefix ($"declare" ++ p) (n ++ "="%char :: x) = false.
Proof.
  intros N Hp. destruct (has_prefix ($"declare" ++ p) (n ++ "="%char :: x)) eqn:H; [|reflexivity]. exfalso.
  apply has_prefix_iff in H. destruct H as [y H].
  pose proof (span_app name_char n ("="%char :: x) (name_chars n N) eq_refl) as A. rewrite H in A. rewrite <- app_assoc in A.
  rewrite span_app in A.
  - inversion A. destruct Hp; subst p; discriminate.
  - repeat (constructor; [reflexivity|]). constructor.
  - destruct Hp; subst p; reflexivity.
Qed.

Lemma assign_head n x fuel vars : is_name n = true ->
  statement fuel vars (n ++ "="%char :: x) = assignment fuel vars (n ++ "="%char :: x).
Proof.
  intro N. unfold statement. change ($"declare -a ") with ($"declare" ++ $" -a "). change ($"declare -A ") with ($"declare" ++ $" -A ").
  rewrite (not_declaration n x $" -a " N (or_introl eq_refl)), (not_declaration n x $" -A " N (or_intror eq_refl)). reflexivity.
Qed.
Lemma name_head n : is_name n = true -> exists c m, n = c :: m /\ Ascii.eqb c NL = false.
Proof.
  destruct n as [|c m]; [discriminate|]. intro H. exists c, m. split; [reflexivity|]. apply name_chars in H. inversion H as [|? ? Hc _]; subst.
  all_bytes c; first [discriminate Hc|reflexivity].
Qed.

Lemma declare_step n p b fuel vars r : is_name n = true -> line_end r = true ->
  p = $"declare -a " /\ b = Array [] \/ p = $"declare -A " /\ b = Table [] ->
  shell_run (S fuel) vars (p ++ n ++ r) = shell_run fuel (store vars n b) r.
Proof.
  intros N L H.
  assert (D : declaration vars (n ++ r) b = Some (store vars n b, r)).
  { unfold declaration. rewrite span_app; [|apply name_chars; exact N|destruct r as [|c r]; [exact I|]; cbn [line_end] in L; apply ascii_eqb_eq in L; subst; reflexivity].
    rewrite N, L. reflexivity. }
  assert (St : statement fuel vars (p ++ n ++ r) = declaration vars (n ++ r) b) by (destruct H as [[-> ->]|[-> ->]]; reflexivity).
  assert (Hd : exists q, p ++ n ++ r = "d"%char :: q) by (destruct H as [[-> _]|[-> _]]; eexists; reflexivity).
  destruct Hd as [q Hq]. rewrite Hq in *. cbn [shell_run]. change (Ascii.eqb "d" NL) with false. cbv iota. rewrite St, D, L. reflexivity.
Qed.

Lemma assign_step n x v fuel vars r : is_name n = true -> line_end r = true ->
  assignment fuel vars (n ++ "="%char :: x) = Some (v, r) ->
  shell_run (S fuel) vars (n ++ "="%char :: x) = shell_run fuel v r.
Proof.
  intros N L A. pose proof (assign_head n x fuel vars N) as H. rewrite A in H.
  destruct (name_head n N) as (c & m & -> & Hc). cbn [app] in *. cbn [shell_run]. rewrite Hc, H, L. reflexivity.
Qed.

Lemma newline_step fuel vars r : shell_run (S fuel) vars (NL :: r) = shell_run fuel vars r.
Proof. reflexivity. Qed.

Lemma script_length n b : is_name n = true -> 2 <= List.length (script n b).
Proof.
  intro N. destruct (name_head n N) as (c & m & -> & _). destruct b; unfold script; repeat rewrite app_length; cbn [List.length];
    [change (List.length $"=") with 1|change (List.length $"declare -a ") with 11|change (List.length $"declare -A ") with 11]; lia.
Qed.

Lemma script_step n b fuel vars r : is_name n = true -> bound_ok b -> ~ In n (map fst vars) -> line_end r = true ->
  List.length (script n b) + List.length r < fuel ->
  exists fuel', List.length r < fuel' /\ shell_run fuel vars (script n b ++ r) = shell_run fuel' (vars ++ [(n, b)]) r.
Proof.
  intros N B Fr L Len. pose proof (line_end_stops r L) as St.
  assert (Sp : forall x, span name_char (n ++ "="%char :: x) = (n, "="%char :: x)) by (intro x; apply span_app; [apply name_chars; exact N|reflexivity]).
  destruct b as [s|ts|es]; cbn [bound_ok] in B; unfold script in *.
  - destruct fuel; [lia|]. exists fuel. repeat rewrite app_length in Len. change (List.length $"=") with 1 in Len. split; [lia|].
    rewrite <- !app_assoc. change ($"=" ++ rendd value_triggers false s ++ r) with ("="%char :: rendd value_triggers false s ++ r).
    rewrite (assign_step n _ (vars ++ [(n, Text s)]) fuel vars r N L); [reflexivity|].
    unfold assignment. rewrite Sp, N. cbn [negb]. pose proof (word_read value_triggers false s r B St) as W.
    assert (H : match rendd value_triggers false s ++ r with "("%char :: _ => False | _ => True end).
    { destruct s as [|c s].
      - cbn [app]. change (rendd value_triggers false [] ++ r) with r. destruct r as [|c r]; [exact I|]. cbn [line_end] in L. apply ascii_eqb_eq in L. subst. exact I.
      - destruct (rend_head value_triggers false (c :: s) ltac:(discriminate) B) as (d & x & -> & Hd). cbn [app].
        destruct Hd as [->|[->|Hd]]; try exact I. all_bytes d; first [discriminate Hd|exact I]. }
    destruct (rendd value_triggers false s ++ r) as [|d x] eqn:Ex.
    + rewrite W, store_fresh by exact Fr. reflexivity.
    + rewrite W, store_fresh by exact Fr. all_bytes d; first [contradiction H|reflexivity].
  - repeat rewrite app_length in Len. change (List.length $"declare -a ") with 11 in Len. change (List.length [NL]) with 1 in Len.
    change (List.length $"=") with 1 in Len. change (List.length $"(") with 1 in Len. change (List.length $")") with 1 in Len.
    destruct fuel as [|[|[|fuel]]]; try lia. exists fuel. split; [lia|]. rewrite <- !app_assoc.
    change ([NL] ++ n ++ $"=" ++ $"(" ++ join $" " (map (rendd item_triggers false) ts) ++ $")" ++ r)
      with (NL :: n ++ "="%char :: "("%char :: join $" " (map (rendd item_triggers false) ts) ++ ")"%char :: r).
    rewrite (declare_step n _ (Array []) _ vars (NL :: _) N eq_refl (or_introl (conj eq_refl eq_refl))).
    rewrite newline_step. rewrite (assign_step n _ (vars ++ [(n, Array ts)]) fuel _ r N L); [reflexivity|].
    unfold assignment. rewrite Sp, N. cbn [negb]. rewrite store_fresh, lookup_last by exact Fr. rewrite words_read by (exact B || lia).
    rewrite store_last by exact Fr. reflexivity.
  - repeat rewrite app_length in Len. change (List.length $"declare -A ") with 11 in Len. change (List.length [NL]) with 1 in Len.
    change (List.length $"=") with 1 in Len. change (List.length $"(") with 1 in Len. change (List.length $")") with 1 in Len.
    destruct fuel as [|[|[|fuel]]]; try lia. exists fuel. split; [lia|]. rewrite <- !app_assoc.
    change ([NL] ++ n ++ $"=" ++ $"(" ++ join $" " (map (entry_text value_triggers) es) ++ $")" ++ r)
      with (NL :: n ++ "="%char :: "("%char :: join $" " (map (entry_text value_triggers) es) ++ ")"%char :: r).
    rewrite (declare_step n _ (Table []) _ vars (NL :: _) N eq_refl (or_intror (conj eq_refl eq_refl))).
    rewrite newline_step. rewrite (assign_step n _ (vars ++ [(n, Table es)]) fuel _ r N L); [reflexivity|].
    unfold assignment. rewrite Sp, N. cbn [negb]. rewrite store_fresh, lookup_last by exact Fr. rewrite entries_read by (exact B || lia).
    rewrite store_last by exact Fr. reflexivity.
Qed.

Lemma script_run bs : forall fuel vars, Forall (fun nb => is_name (fst nb) = true /\ bound_ok (snd nb)) bs -> NoDup (map fst vars ++ map fst bs) ->
  List.length (join [NL] (map (fun nb => script (fst nb) (snd nb)) bs)) < fuel ->
  shell_run fuel vars (join [NL] (map (fun nb => script (fst nb) (snd nb)) bs)) = Some (vars ++ bs).
Proof.
  induction bs as [|[n b] bs IH]; intros fuel vars F N L.
  - cbn [map join]. rewrite app_nil_r. destruct fuel; reflexivity.
  - inversion F as [|? ? [Hn Hb] F']; subst. cbn [fst snd] in *.
    assert (Fr : ~ In n (map fst vars)).
    { cbn [map fst] in N. apply NoDup_remove_2 in N. intro I. apply N. apply in_or_app. left. exact I. }
    assert (N' : NoDup (map fst (vars ++ [(n, b)]) ++ map fst bs)).
    { rewrite map_app, <- app_assoc. exact N. }
    destruct bs as [|nb bs].
    + cbn [map join fst snd] in *. pose proof (script_step n b fuel vars [] Hn Hb Fr eq_refl ltac:(cbn [List.length]; lia)) as (f & Lf & R).
      rewrite app_nil_r in R. rewrite R. destruct f; reflexivity.
    + set (g := fun nb : str * bound => script (fst nb) (snd nb)) in *. set (l := map g (nb :: bs)) in *.
      change (join [NL] (map g ((n, b) :: nb :: bs))) with (script n b ++ NL :: join [NL] l) in *.
      rewrite app_length in L. cbn [List.length] in L.
      destruct (script_step n b fuel vars (NL :: join [NL] l) Hn Hb Fr eq_refl ltac:(cbn [List.length]; lia)) as (f & Lf & R). rewrite R.
      cbn [List.length] in Lf. destruct f; [lia|]. rewrite newline_step, IH; [rewrite <- app_assoc; reflexivity|exact F'|exact N'|lia].
Qed.

(** ** The rendering *)
Lemma itoa_chars z : Forall (fun c => is_digit c = true \/ c = "-"%char) (itoa z).
Proof.
  assert (A : forall z, (0 <= z)%Z -> Forall (fun c => is_digit c = true \/ c = "-"%char) (itoa z)).
  { intros y H. destruct (itoa_nonneg y H) as (_ & _ & F & _). eapply Forall_impl; [|exact F]. auto. }
  destruct z as [|p|p]; try (apply A; lia). rewrite itoa_neg. constructor; [auto|apply A; lia].
Qed.
Lemma plain_rend t s : Forall (fun c => is_in c t = false) s -> rend t s = s.
Proof.
  intro F. unfold rend. rewrite triggers_eq. replace (existsb (fun c => is_in c t) s) with false; [reflexivity|].
  symmetry. induction F as [|c s H F IH]; [reflexivity|]. cbn [existsb]. rewrite H. exact IH.
Qed.
Lemma itoa_rend z : rend value_triggers (itoa z) = itoa z.
Proof.
  apply plain_rend. eapply Forall_impl; [|apply itoa_chars]. intros c [H| ->]; [|reflexivity]. all_bytes c; first [discriminate H|reflexivity].
Qed.

Lemma shown_level v s fuel level : shown v s -> to_bash_go fuel (conv dflt v) level = rend value_triggers s.
Proof.
  destruct 1; cbn [conv]; destruct fuel; cbn [to_bash_go c_try_as_list try_as_list c_try_as_dict try_as_dict sprint sprint_scalar];
    try reflexivity; rewrite itoa_rend; reflexivity.
Qed.
Lemma shown_assign v s k x : shown v s -> bash_assign k x (conv dflt v) = k ++ $"=" ++ x.
Proof. destruct 1; reflexivity. Qed.
Lemma shown_item v s : shown v s -> bash_quote (sprint (conv dflt v)) = rend item_triggers s.
Proof. destruct 1; reflexivity. Qed.

(** Keys in order. *)
Lemma in_order_keys (m es : list (str * value)) (f : value -> value) : NoDup (mkeys m) -> in_order m es ->
  dict_keys_as_string (map (onto f) m) = map fst es.
Proof.
  intros N [Pm So]. unfold dict_keys_as_string. rewrite mkeys_onto. rewrite (sort_strings_unique (mkeys m) (mkeys es)) by (apply Permutation_map; exact Pm).
  apply sort_strings_fixed. clear -So. induction So as [|e es So IH Hd]; [constructor|]. cbn [mkeys map] in *. constructor; [exact IH|].
  destruct Hd; constructor; assumption.
Qed.
Lemma in_order_map {B} (m es : list (str * value)) (g : str -> value -> B) : NoDup (mkeys m) -> in_order m es ->
  map (fun k => g k (mget0 (map (onto (conv dflt)) m) k)) (map fst es) = map (fun e => g (fst e) (conv dflt (snd e))) es.
Proof.
  intros N [Pm _]. rewrite map_map. apply map_ext_in. intros [k v] I. cbn [fst snd]. f_equal. unfold mget0. rewrite mget_onto.
  rewrite (mget_In_NoDup m k v N); [reflexivity|]. eapply Permutation_in; [apply Permutation_sym; exact Pm|exact I].
Qed.

Lemma comma_join ts : join $"," ts = comma ts.
Proof. induction ts as [|t [|u ts] IH]; [reflexivity..|]. cbn [join comma] in *. rewrite IH. reflexivity. Qed.
Lemma plain_triggers s t : plain_text s -> Forall (fun c => In c ([SP; TAB; NL] ++ $",[]()")) t -> rend t s = s.
Proof.
  intros F T. apply plain_rend. eapply Forall_impl; [|exact F]. intros c N. destruct (is_in c t) eqn:I; [|reflexivity]. exfalso. apply N. unfold is_in in I. apply existsb_exists in I.
  destruct I as (d & I & D). apply Ascii.eqb_eq in D. subst d. rewrite Forall_forall in T. apply T. exact I.
Qed.
Lemma item_subset : Forall (fun c => In c ([SP; TAB; NL] ++ $",[]()")) item_triggers.
Proof. repeat constructor; vm_compute; tauto. Qed.
Lemma value_subset : Forall (fun c => In c ([SP; TAB; NL] ++ $",[]()")) value_triggers.
Proof. repeat constructor; vm_compute; tauto. Qed.
Lemma comma_rend ts : Forall (fun t => Forall (fun c => is_in c value_triggers = false) t) ts -> rend value_triggers (comma ts) = comma ts.
Proof.
  intro F. apply plain_rend. induction F as [|t ts T F IH]; [constructor|]. destruct ts as [|u ts]; [exact T|]. change (comma (t :: u :: ts)) with (t ++ ","%char :: comma (u :: ts)). apply Forall_app. split; [exact T|]. constructor; [reflexivity|exact IH].
Qed.
Lemma plain_value s : plain_text s -> Forall (fun c => is_in c value_triggers = false) s.
Proof.
  intro F. eapply Forall_impl; [|exact F]. intros c N. destruct (is_in c value_triggers) eqn:I; [|reflexivity]. exfalso. apply N. unfold is_in in I. apply existsb_exists in I.
  destruct I as (d & I & D). apply Ascii.eqb_eq in D. subst d. pose proof value_subset as T. rewrite Forall_forall in T. apply T. exact I.
Qed.
Lemma inside_level v t f : depth v <= f -> inside v t -> to_bash_go f (conv dflt v) 2 = rend value_triggers t.
Proof.
  intros D I. destruct I as [v t Sh| |l ts F|m es ts N O F].
  - apply shown_level. exact Sh.
  - destruct f; reflexivity.
  - rewrite comma_rend.
    + rewrite conv_native_slice. assert (Q : map bash_quote (list_string_array (map (conv dflt) l)) = ts).
      { unfold list_string_array. rewrite !map_map. clear D. induction F as [|v t l ts (Sh & Pl) F IH]; [reflexivity|]. cbn [map]. rewrite IH. f_equal. etransitivity; [apply shown_item; exact Sh|]. apply plain_triggers; [exact Pl|exact item_subset]. }
      destruct f; cbn [to_bash_go c_try_as_list]; change (Nat.eqb 2 2) with true; cbv iota; rewrite Q; apply comma_join.
    + clear D. induction F as [|v t l ts (_ & Pl) F IH]; constructor; [apply plain_value; exact Pl|exact IH].
  - cbn [depth] in D. destruct f as [|f]; [lia|]. rewrite comma_rend.
    + rewrite conv_native_map. cbn [to_bash_go c_try_as_list try_as_list c_try_as_dict]. rewrite (in_order_keys m es) by assumption. rewrite (in_order_map m es (fun k v => k ++ $"=" ++ bash_quote (to_bash_go f v 3))) by assumption.
      assert (Q : map (fun e => fst e ++ $"=" ++ bash_quote (to_bash_go f (conv dflt (snd e)) 3)) es = ts).
      { clear D O. induction F as [|e t es ts (x & Sh & Pl & Pk & ->) F IH]; [reflexivity|]. cbn [map]. rewrite IH. f_equal. rewrite (shown_level _ x) by exact Sh. rewrite (plain_triggers x value_triggers Pl value_subset).
        change (bash_quote x) with (rend item_triggers x). rewrite (plain_triggers x item_triggers Pl item_subset). reflexivity. }
      etransitivity; [exact (f_equal (join $",") Q)|]. apply comma_join.
    + clear D O. induction F as [|e t es ts (x & _ & Pl & Pk & ->) F IH]; constructor; [|exact IH]. apply Forall_app. split; [apply plain_value; exact Pk|]. constructor; [reflexivity|apply plain_value; exact Pl].
Qed.

Lemma holds_script k v b f : depth v <= S f -> holds v b -> bash_assign k (to_bash_go (S f) (conv dflt v) 1) (conv dflt v) = script k b /\ bound_ok b.
Proof.
  intros D H. destruct H as [v s Sh R| |l ts F|m es ts N O F].
  - rewrite (shown_assign v s) by exact Sh. rewrite (shown_level v s) by exact Sh. split; [reflexivity|exact R].
  - split; [reflexivity|constructor].
  - clear D. rewrite conv_native_slice. cbn [to_bash_go c_try_as_list bash_assign script]. change (Nat.eqb 1 2) with false. cbv iota.
    unfold list_string_array. rewrite !map_map. split.
    + assert (M : map (fun x => bash_quote (sprint (conv dflt x))) l = map (rendd item_triggers false) ts).
      { induction F as [|v s l ts (Sh & _ & _) F IH]; [reflexivity|]. cbn [map]. rewrite IH. f_equal. apply shown_item. exact Sh. }
      rewrite M. reflexivity.
    + cbn [bound_ok]. induction F as [|v s l ts (_ & Nn & R) F IH]; constructor; auto.
  - rewrite conv_native_map. cbn [to_bash_go c_try_as_list try_as_list c_try_as_dict bash_assign script].
    rewrite (in_order_keys m es) by assumption. rewrite (in_order_map m es (fun k v => $"[" ++ k ++ $"]=" ++ replace_all $"$" $"\$" (to_bash_go f v 2))) by assumption.
    split.
    + assert (M : map (fun e : str * value => $"[" ++ fst e ++ $"]=" ++ replace_all $"$" $"\$" (to_bash_go f (conv dflt (snd e)) 2)) es = map (entry_text value_triggers) ts).
      { assert (De : Forall (fun e => depth (snd e) <= f) es).
        { cbn [depth] in D. apply le_S_n in D. apply list_max_le in D. rewrite Forall_map in D. rewrite Forall_forall in *. intros e I. apply D. destruct O as [Pm _]. eapply Permutation_in; [apply Permutation_sym; exact Pm|exact I]. }
        clear O D. induction F as [|e kt es ts (Ek & _ & _ & Sh & _) F IH]; [reflexivity|]. inversion De; subst. cbn [map]. rewrite IH by assumption.
        rewrite (inside_level (snd e) (snd kt)) by assumption. unfold entry_text at 2. destruct e, kt. cbn [fst snd] in *. subst. reflexivity. }
      rewrite M. reflexivity.
    + cbn [bound_ok]. clear O D. induction F as [|e kt es ts (Ek & Nn & Or & _ & R) F IH]; [constructor|]. constructor; [|exact IH]. unfold entry_ok. destruct e, kt. cbn [fst snd] in *. subst. auto.
Qed.

Lemma bash_script v m es bs : native_of v = VMap 0 m -> NoDup (mkeys m) -> in_order m es ->
  Forall2 (fun e nb => fst nb = fst e /\ is_name (fst e) = true /\ holds (snd e) (snd nb)) es bs ->
  shell (to_bash v) = Some bs.
Proof.
  intros V N O F. unfold to_bash. fold (native_of v). rewrite V. set (f := depth (VMap 0 m)).
  assert (Hf : exists f', f = S f' /\ Forall (fun e : str * value => depth (snd e) <= S f') es).
  { unfold f. cbn [depth]. eexists. split; [reflexivity|]. assert (D : list_max (map (fun kv => depth (snd kv)) m) <= list_max (map (fun kv => depth (snd kv)) m)) by apply le_n. apply list_max_le in D.
    rewrite Forall_map in D. rewrite Forall_forall in *. intros e I. apply le_S, D. destruct O as [Pm _]. eapply Permutation_in; [apply Permutation_sym; exact Pm|exact I]. }
  clearbody f. destruct Hf as (f' & -> & Df).
  assert (T : to_bash_go (S (S f')) (VMap 0 m) 0 = join [NL] (map (fun nb => script (fst nb) (snd nb)) bs)).
  { cbn [to_bash_go c_try_as_list try_as_list c_try_as_dict try_as_dict]. rewrite conv_native_map. cbv iota beta.
    rewrite (in_order_keys m es) by assumption.
    pose proof (in_order_map m es (fun k v => bash_assign k (to_bash_go (S f') v 1) v) N O) as M. cbn [to_bash_go] in M. rewrite M.
    f_equal. clear -F E P Df. induction F as [|e nb es bs (Ek & _ & H) F IH]; [reflexivity|]. inversion Df as [|? ? De Df']; subst. cbn [map]. rewrite IH by exact Df'. f_equal.
    pose proof (holds_script (fst e) _ _ f' De H) as [Sc _]. cbn [to_bash_go] in Sc. rewrite Sc, Ek. reflexivity. }
  rewrite T. unfold shell. rewrite script_run; [reflexivity| |cbn [map app]|lia].
  - clear -F E P. induction F as [|e nb es bs (Ek & Nm & H) F IH]; constructor; [|exact IH]. split; [rewrite Ek; exact Nm|].
    apply (holds_script (fst e) _ _ (depth (snd e)) (le_S _ _ (le_n _)) H).
  - assert (Ek : map fst bs = map fst es) by (clear -F; induction F as [|e nb es bs (Ek & _) F IH]; [reflexivity|]; cbn; congruence).
    rewrite Ek. destruct O as [Pm _]. eapply Permutation_NoDup; [apply Permutation_map; exact Pm|exact N].
Qed.

(** ** Iteration orders *)
Lemma conv_bash fuel v level : native v -> to_bash_go (S fuel) v level = to_bash_go (S fuel) (conv dflt v) level.
Proof.
  intro N. destruct N; reflexivity.
Qed.

Definition stable_format : Prop := forall a b, veq a b -> fmtx a = fmtx b.

Lemma veq_bash (St : stable_format) : forall fuel a b level, converted a -> wf a -> veq a b -> to_bash_go fuel a level = to_bash_go fuel b level.
Proof.
  induction fuel as [|fuel IH]; intros a b level C W Q.
  - pose proof (veq_sprint a b St W Q) as Sp. destruct Q; try reflexivity; inversion C; subst.
    + cbn [to_bash_go c_try_as_list]. unfold list_string_array. inversion W as [| | | |? ? Wl| | | ]; subst.
      rewrite (veq_list_sprint l l'); [reflexivity| |exact Wl|assumption]. apply Forall_forall. intros v _ w Wv Qv. apply veq_sprint; assumption.
    + cbn [to_bash_go c_try_as_list try_as_list c_try_as_dict]. exact Sp.
  - destruct Q; try reflexivity; inversion C; subst.
    + cbn [to_bash_go c_try_as_list]. unfold list_string_array. inversion W as [| | | |? ? Wl| | | ]; subst.
      rewrite (veq_list_sprint l l'); [reflexivity| |exact Wl|assumption]. apply Forall_forall. intros v _ w Wv Qv. apply veq_sprint; assumption.
    + cbn [to_bash_go c_try_as_list try_as_list c_try_as_dict].
      inversion W as [| | | | | |? ? Nm Wm|]; subst.
      match goal with H : Permutation m m1, G : Forall2 _ m1 m' |- _ => rename H into Pm; rename G into F end.
      assert (Ks : dict_keys_as_string m' = dict_keys_as_string m).
      { unfold dict_keys_as_string. rewrite <- (Forall2_keys _ _ _ F). apply sort_strings_unique. apply Permutation_map. apply Permutation_sym. exact Pm. }
      rewrite Ks.
      assert (G : forall k, In k (dict_keys_as_string m) -> to_bash_go fuel (mget0 m k) (S level) = to_bash_go fuel (mget0 m' k) (S level)
                            /\ forall x, bash_assign k x (mget0 m k) = bash_assign k x (mget0 m' k)).
      { intros k _. unfold mget0. rewrite (mget_perm m m1 k Nm Pm). pose proof (Forall2_mget veq m1 m' k F) as R.
        destruct (mget m1 k) as [x|] eqn:G1; destruct (mget m' k) as [y|]; try contradiction; [|split; reflexivity].
        assert (In (k, x) m).
        { eapply Permutation_in; [apply Permutation_sym; exact Pm|]. apply mget_In. exact G1. }
        split.
        - apply IH; [|rewrite Forall_forall in Wm; apply (Wm (k, x)); assumption|exact R].
          match goal with H : Forall (fun kv => converted (snd kv)) m |- _ => rewrite Forall_forall in H; apply (H (k, x)); assumption end.
        - intro t. assert (converted x) by (match goal with H : Forall (fun kv => converted (snd kv)) m |- _ => rewrite Forall_forall in H; apply (H (k, x)); assumption end).
          destruct R; try reflexivity; match goal with H : converted _ |- _ => inversion H end. }
      destruct level as [|[|level]].
      * f_equal. apply map_ext_in. intros k Ik. destruct (G k Ik) as [G1 G2]. rewrite G1. apply G2.
      * do 3 f_equal. apply map_ext_in. intros k Ik. destruct (G k Ik) as [G1 G2]. rewrite G1. reflexivity.
      * f_equal. apply map_ext_in. intros k Ik. destruct (G k Ik) as [G1 G2]. rewrite G1. reflexivity.
Qed.

Lemma native_wf_conv i v : native v -> wf (conv i v).
Proof.
  induction v as [|s|t l IH|t m IH|t m IH|j l IH|j m IH|t c n] using value_ind'; intro N; inversion N; subst; try (cbn [conv]; constructor; fail).
  - rewrite conv_native_slice. constructor. apply Forall_map. rewrite Forall_forall in *. auto.
  - rewrite conv_native_map. constructor; [fold (mkeys (map (onto (conv i)) m)); rewrite mkeys_onto; assumption|]. apply Forall_map. rewrite Forall_forall in *. cbn. auto.
Qed.

Lemma to_bash_veq v w : stable_format -> keyed v -> veq v w -> to_bash v = to_bash w.
Proof.
  intros St K Q. unfold to_bash. pose proof (marshal_veq v w K Q) as M. pose proof (marshal_keyed v K) as Nv.
  pose proof (veq_native _ _ Nv M) as Nw. rewrite (depth_veq _ _ M). rewrite conv_bash by exact Nv. rewrite (conv_bash _ (marshal_go w)) by exact Nw.
  apply veq_bash; [exact St|apply conv_converted|apply native_wf_conv; exact Nv|apply conv_veq; assumption].
Qed.

Lemma bash_text s :
  (Forall (fun c => ~ In c value_triggers) s -> to_bash (vstr s) = s) /\
  ((exists c, In c s /\ In c value_triggers) -> read_literal (to_bash (vstr s)) = Some (s, [])).
Proof.
  assert (T : to_bash (vstr s) = rend value_triggers s) by reflexivity. rewrite T.
  assert (I : forall c, is_in c value_triggers = true <-> In c value_triggers).
  { intro c. rewrite <- is_in_contains. apply contains_byte_In. }
  split.
  - intro F. apply plain_rend. eapply Forall_impl; [|exact F]. intros c H. destruct (is_in c value_triggers) eqn:G; [|reflexivity]. apply I in G. contradiction.
  - intros (c & Hs & Ht). unfold rend. rewrite triggers_eq. replace (existsb (fun c => is_in c value_triggers) s) with true.
    + pose proof (read_quote s []) as R. rewrite app_nil_r in R. exact R.
    + symmetry. apply existsb_exists. exists c. split; [exact Hs|apply I; exact Ht].
Qed.

End WithEnv.
