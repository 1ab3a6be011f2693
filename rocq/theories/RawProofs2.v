(** Proofs about raw texts, continued: the two expressions of raw texts, and whole documents. *)
From Coq Require Import String Ascii List ZArith NArith Bool Lia.
From Verif Require Import GoStr GoStrFacts Utf8 Utf8Facts CliModel ReModel ReSyntaxModel RazorWordsModel ReSound RegexSpec RegexProofs RegexProofs5 IgnoreSpec IgnoreProofs RawModel RawSpec RawProofs.
Import ListNotations.
Local Open Scope char_scope.

Definition shut (t : str) : str := closing ++ QUOTE :: t.
Lemma closed_here : forall R w t b g (k : place -> groups -> option R), ~ In QUOTE w ->
  rmatch (bytes_then (RByte (Ascii.eqb QUOTE)) closing) (b, w ++ shut t) g k = match w with [] => k (Some QUOTE, t) g | _ => None end.
Proof.
  intros R w t b g k N. rewrite bytes_then_match. destruct w as [|a0 w]; [reflexivity|]. destruct (begins closing ((a0 :: w) ++ shut t)) eqn:B; [|reflexivity].
  change closing with ["!"; "Q"; "!"] in B. destruct w as [|a1 [|a2 [|a3 w]]]; cbn [app begins shut closing] in B.
  - exfalso. apply andb_true_iff in B. destruct B as (_ & B). discriminate B.
  - reflexivity.
  - reflexivity.
  - cbn [length skipn app rmatch snd closing]. change (length closing) with 3. cbn [skipn app rmatch snd]. destruct (Ascii.eqb_spec QUOTE a3) as [<-|_]; [|reflexivity]. exfalso. apply N. right. right. right. left. reflexivity.
Qed.
Lemma taken_app : forall (x t : str) b b', taken (b, x ++ t) (b', t) = x.
Proof. intros x t b b'. unfold taken. cbn [snd]. rewrite app_length, Nat.add_sub, firstn_app, firstn_all, Nat.sub_diag, firstn_O, app_nil_r. reflexivity. Qed.
Lemma shut_low : forall t, head_low (shut t).
Proof. intros t. reflexivity. Qed.
Lemma not_in_suffix : forall (c : ascii) x v w, x = v ++ w -> ~ In c x -> ~ In c w.
Proof. intros c x v w -> N I. apply N. apply in_or_app. right. exact I. Qed.
Lemma space_white : forall c, low c = true -> in_class not_space (N_of_ascii c) = negb (white_char c).
Proof. intros [[] [] [] [] [] [] [] []] L; try reflexivity; discriminate L. Qed.
Lemma space_high : forall n, (128 <= n)%N -> in_class not_space n = true.
Proof. intros n H. unfold not_space, CNone, c_space, c_char. cbn [in_class]. apply orb_true_iff. right. apply negb_true_iff. lia. Qed.
Lemma char_high : forall n, (128 <= n)%N -> in_class a_char n = true.
Proof. intros n H. unfold a_char, c_char. cbn [in_class]. apply negb_true_iff. lia. Qed.
Lemma char_line : forall c, c <> "010" -> in_class a_char (N_of_ascii c) = true.
Proof. intros c N. unfold a_char, c_char. cbn [in_class]. apply negb_true_iff. destruct (N.leb 10 (N_of_ascii c) && N.leb (N_of_ascii c) 10) eqn:E; [|reflexivity]. exfalso. apply N. apply andb_true_iff in E. destruct E as (A & B). apply N.leb_le in A, B. rewrite <- (ascii_N_embedding c). replace (N_of_ascii c) with 10%N by lia. reflexivity. Qed.
Lemma white_low : forall c, white_char c = true -> low c = true.
Proof. intros [[] [] [] [] [] [] [] []] L; try reflexivity; vm_compute in L; discriminate L. Qed.

Lemma opened : forall a b s, match_at (bytes_then a opening) (b, s) = if begins opening s then rmatch a (Some "!", skipn 4 s) [] (fun q g => Some (q, g)) else None.
Proof. intros a b s. unfold match_at. rewrite bytes_then_match. reflexivity. Qed.
Lemma raw_text : forall x t, piece_text (Raw x) ++ t = opening ++ x ++ shut t.
Proof. intros x t. unfold piece_text, opening, shut, closing. rewrite <- !app_assoc. reflexivity. Qed.

Lemma opened_raw : forall a b x t, match_at (bytes_then a opening) (b, piece_text (Raw x) ++ t) = rmatch a (Some "!", x ++ shut t) [] (fun q g => Some (q, g)).
Proof. intros a b x t. rewrite raw_text, opened. reflexivity. Qed.
Lemma loose_match : forall x t b, ~ In QUOTE x -> ~ In "010" x -> match_at re_loose (b, piece_text (Raw x) ++ t) = Some ((Some QUOTE, t), [(1, x)]).
Proof.
  intros x t b Q N. unfold re_loose. rewrite opened_raw. cbn [rmatch snd].
  apply lazy_take.
  - exact char_high.
  - apply shut_low.
  - apply Forall_forall. intros c I _. apply char_line. intros ->. exact (N I).
  - intros v w b0 E W. refine (eq_trans (closed_here _ w t b0 _ _ (not_in_suffix _ _ _ _ E Q)) _). destruct w; [congruence | reflexivity].
  - cbn [snd]; rewrite app_length; lia.
  - intros b0. refine (eq_trans (closed_here _ [] t b0 _ _ (fun H => H)) _). unfold place, str in *. rewrite taken_app. reflexivity.
Qed.
Lemma tight_match : forall x t b, x <> [] -> ~ In QUOTE x -> existsb white_char x = false -> match_at re_tight (b, piece_text (Raw x) ++ t) = Some ((Some QUOTE, t), [(1, x)]).
Proof.
  intros x t b NE Q N. unfold re_tight. rewrite opened_raw.
  assert (F : Forall (fun c => low c = true -> in_class not_space (N_of_ascii c) = true) x).
  { apply Forall_forall. intros c I L. rewrite (space_white c L). apply negb_true_iff. destruct (white_char c) eqn:W; [|reflexivity]. exfalso. assert (existsb white_char x = true) by (apply existsb_exists; exists c; split; assumption). congruence. }
  destruct x as [|c x]; [congruence|]. destruct (chunk c x (shut t) (shut_low t)) as (v & w & E & VN & FV & SV & D).
  cbn [rmatch snd]. change ((c :: x) ++ shut t) with (c :: x ++ shut t) in *. unfold place, str in *. destruct (decode (c :: x ++ shut t)) as [rn wd]. cbn [fst snd] in *.
  assert (IC : in_class not_space rn = true).
  { destruct D as [(-> & LC & ->)|(_ & G)]; [|apply space_high; exact G]. inversion F; subst. auto. }
  rewrite IC, FV, SV. cbn [snd]. apply lazy_take.
  - exact space_high.
  - apply shut_low.
  - rewrite E in F. apply Forall_app in F. apply F.
  - intros v' w' b0 E' W. refine (eq_trans (closed_here _ w' t b0 _ _ (not_in_suffix _ _ (v ++ v') _ (eq_trans E (eq_trans (f_equal (app v) E') (app_assoc _ _ _))) Q)) _). destruct w'; [congruence | reflexivity].
  - cbn [snd]; rewrite app_length; lia.
  - intros b0. refine (eq_trans (closed_here _ [] t b0 _ _ (fun H => H)) _). change (c :: x ++ shut t) with ((c :: x) ++ shut t). unfold place, str in *. rewrite taken_app. reflexivity.
Qed.
Lemma tight_stuck : forall x t b, ~ In QUOTE x -> existsb white_char x = true -> match_at re_tight (b, piece_text (Raw x) ++ t) = None.
Proof.
  intros x t b Q N. unfold re_tight. rewrite opened_raw.
  apply existsb_exists in N. destruct N as (d & I & W). pose proof (white_low d W) as LD. pose proof (space_white d LD) as SD. rewrite W in SD. cbn [negb] in SD.
  destruct (in_split d x I) as (u & z & ->). rewrite <- app_assoc. cbn [app]. cbn [rmatch snd]. destruct u as [|c u].
  - cbn [app]. rewrite (decode_low d _ LD), SD. reflexivity.
  - destruct (chunk c u (d :: z ++ shut t) LD) as (v & w & E & VN & FV & SV & D). change ((c :: u) ++ d :: z ++ shut t) with (c :: u ++ d :: z ++ shut t). unfold place, str in *. destruct (decode (c :: u ++ d :: z ++ shut t)) as [rn wd]. cbn [fst snd] in *.
    destruct (in_class not_space rn); [|reflexivity]. rewrite FV, SV. cbn [snd]. apply lazy_stuck; [exact LD | exact SD|].
    intros v' w' b0 g0 E'. cbn beta. change (w' ++ d :: z ++ shut t) with (w' ++ (d :: z) ++ shut t). rewrite app_assoc.
    assert (Q' : ~ In QUOTE (w' ++ d :: z)).
    { intros J. apply Q. rewrite E, E', <- !app_assoc. apply in_or_app. right. apply in_or_app. right. exact J. }
    refine (eq_trans (closed_here _ (w' ++ d :: z) t b0 _ _ Q') _). destruct w'; reflexivity.
Qed.
