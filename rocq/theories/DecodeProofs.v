(** Proofs about the choice of a decoder. *)
From Coq Require Import String Ascii List ZArith NArith Bool Lia Permutation Sorted.
From Verif Require Import GoStr GoStrFacts ValueModel ValueFacts CollSpec ListModel DictModel DecodeModel DecodeSpec.
Import ListNotations.

(** ** The simplified text *)
Lemma blank_spec c : is_blank c = true <-> c = SP \/ c = TAB.
Proof. unfold is_blank. rewrite orb_true_iff, !Ascii.eqb_eq. reflexivity. Qed.

Lemma colons_no_equal s : forall b after, ~ In "="%char b -> ~ In "="%char (colons b after s).
Proof.
  induction s as [|c s IH]; intros b after Hb; [exact Hb|]. cbn [colons]. destruct (is_blank c) eqn:B.
  - destruct after; [apply IH; intros []|]. apply IH. rewrite in_app_iff. intros [I|[->|[]]]; [auto|discriminate B].
  - destruct (Ascii.eqb_spec c "="); [intros [I|I]; [discriminate I|revert I; apply IH; intros []]|].
    rewrite in_app_iff. intros [I|[I|I]]; auto. revert I. apply IH. intros [].
Qed.
Lemma lines_no_equal s : forall i, ~ In "="%char s -> ~ In "="%char (break_lines i s).
Proof.
  induction s as [|c s IH]; intros i H; [exact H|]. cbn [break_lines]. assert (H' : ~ In "="%char s) by (intro I; apply H; right; exact I).
  destruct (is_blank c); [destruct i; [apply IH; exact H'|intros [I|I]; [discriminate I|revert I; apply IH; exact H']]|].
  intros [I|I]; [apply H; left; exact I|revert I; apply IH; exact H'].
Qed.
Lemma replace_colon c s : replace_all $":" $": " (c :: s) = (if Ascii.eqb c ":" then $": " else [c]) ++ replace_all $":" $": " s.
Proof.
  destruct (Ascii.eqb_spec c ":") as [->|N].
  - apply (replace_all_sep $":" $": " s). discriminate.
  - apply replace_all_cons. change $":" with [":"%char]. cbn [has_prefix]. destruct (Ascii.eqb_spec ":" c); [congruence|reflexivity].
Qed.
Lemma colon_no_equal s : ~ In "="%char s -> ~ In "="%char (replace_all $":" $": " s).
Proof.
  induction s as [|c s IH]; intro H; [exact H|]. rewrite replace_colon, in_app_iff. intros [I|I].
  - destruct (Ascii.eqb_spec c ":"); [destruct I as [I|[I|[]]]; discriminate I|]. destruct I as [I|[]]. apply H. left. exact I.
  - revert I. apply IH. intro I. apply H. right. exact I.
Qed.
Lemma simplified_no_equal data : contains_byte "=" (simplified data) = false.
Proof.
  apply not_true_iff_false. rewrite contains_byte_In. unfold simplified. rewrite in_app_iff. intros [I|[I|[]]]; [|discriminate I].
  revert I. apply colon_no_equal, lines_no_equal, colons_no_equal. intros [].
Qed.

(** Settings *)
Definition colon_line (kv : str * str) : str := fst kv ++ $":" ++ snd kv.

Lemma word_char_facts c : c <> SP /\ c <> TAB /\ c <> "="%char /\ c <> ":"%char -> is_blank c = false /\ Ascii.eqb c "=" = false /\ Ascii.eqb c ":" = false.
Proof.
  intros (A & B & C & D). split; [apply not_true_iff_false; rewrite blank_spec; tauto|]. split; apply Ascii.eqb_neq; assumption.
Qed.
Lemma colons_word w s b after : word w -> colons b after (w ++ s) = b ++ w ++ colons [] false s.
Proof.
  intros [N F]. destruct w as [|c w]; [contradiction|]. inversion F as [|? ? Fc Fw]; subst. destruct (word_char_facts c Fc) as (A & B & _). cbn [app colons]. rewrite A, B.
  f_equal. f_equal. clear N F Fc A B. induction Fw as [|x w Fx Fw IH]; [reflexivity|]. destruct (word_char_facts x Fx) as (A & B & _). cbn [app colons]. rewrite A, B, IH. reflexivity.
Qed.
Lemma colons_blanks x s : blanks x -> forall b, colons b false (x ++ s) = colons (b ++ x) false s.
Proof.
  induction 1 as [|c x H F IH]; intro b; [rewrite app_nil_r; reflexivity|]. cbn [app colons]. apply blank_spec in H. rewrite H, IH, <- app_assoc. reflexivity.
Qed.
Lemma colons_after x s : blanks x -> colons [] true (x ++ s) = colons [] true s.
Proof. induction 1 as [|c x H F IH]; [reflexivity|]. cbn [app colons]. apply blank_spec in H. rewrite H. exact IH. Qed.
Lemma colons_setting k b1 b2 v s : word k -> blanks b1 -> blanks b2 -> word v ->
  colons [] false (k ++ b1 ++ $"=" ++ b2 ++ v ++ s) = colon_line (k, v) ++ colons [] false s.
Proof.
  intros K B1 B2 V. rewrite colons_word by exact K. cbn [app]. rewrite colons_blanks by exact B1. change ($"=" ++ b2 ++ v ++ s) with ("="%char :: b2 ++ v ++ s).
  cbn [colons]. change (is_blank "=") with false. change (Ascii.eqb "=" "=") with true. cbv iota. rewrite colons_after by exact B2. rewrite colons_word by exact V.
  unfold colon_line. cbn [fst snd app]. rewrite <- app_assoc. reflexivity.
Qed.

Definition spaced (c : ascii) : bool := negb (is_blank c).
Lemma lines_solid w s i : Forall (fun c => is_blank c = false) w -> w <> [] -> break_lines i (w ++ s) = w ++ break_lines false s.
Proof.
  intros F N. destruct w as [|c w]; [contradiction|]. inversion F as [|? ? Fc Fw]; subst. cbn [app break_lines]. rewrite Fc. f_equal. clear -Fw.
  induction Fw as [|x w Fx Fw IH]; [reflexivity|]. cbn [app break_lines]. rewrite Fx, IH. reflexivity.
Qed.
Lemma lines_blanks b s : blanks b -> b <> [] -> break_lines false (b ++ s) = NL :: break_lines true s.
Proof.
  intros F N. destruct b as [|c b]; [contradiction|]. inversion F as [|? ? Fc Fb]; subst. cbn [app break_lines]. apply blank_spec in Fc. rewrite Fc. f_equal. clear -Fb.
  induction Fb as [|x b Fx Fb IH]; [reflexivity|]. cbn [app break_lines]. apply blank_spec in Fx. rewrite Fx. exact IH.
Qed.
Lemma word_solid w : word w -> Forall (fun c => is_blank c = false) w.
Proof. intros [_ F]. eapply Forall_impl; [|exact F]. intros c H. apply (word_char_facts c H). Qed.
Lemma line_solid k v : word k -> word v -> Forall (fun c => is_blank c = false) (colon_line (k, v)) /\ colon_line (k, v) <> [].
Proof.
  intros K V. unfold colon_line. cbn [fst snd]. split; [|destruct K as [N _]; destruct k; [contradiction|discriminate]].
  apply Forall_app. split; [apply word_solid; exact K|]. apply Forall_app. split; [repeat constructor|apply word_solid; exact V].
Qed.
Lemma replace_word w s : word w -> replace_all $":" $": " (w ++ s) = w ++ replace_all $":" $": " s.
Proof.
  intros [_ F]. induction F as [|c w H F IH]; [reflexivity|]. cbn [app]. rewrite replace_colon. destruct (word_char_facts c H) as (_ & _ & ->). cbn [app]. rewrite IH. reflexivity.
Qed.
Lemma replace_line k v s : word k -> word v -> replace_all $":" $": " (colon_line (k, v) ++ s) = k ++ $": " ++ v ++ replace_all $":" $": " s.
Proof.
  intros K V. unfold colon_line. cbn [fst snd]. rewrite <- !app_assoc. rewrite replace_word by exact K. change ($":" ++ v ++ s) with (":"%char :: v ++ s). rewrite replace_colon.
  change (Ascii.eqb ":" ":") with true. cbv iota. rewrite replace_word by exact V. reflexivity.
Qed.

Lemma settings_lines s kvs : settings s kvs -> forall i,
  replace_all $":" $": " (break_lines i (colons [] false s)) ++ [NL] = yaml_lines kvs.
Proof.
  induction 1 as [k b1 b2 v K B1 B2 V|k b1 b2 v b s kvs K B1 B2 V B N H IH]; intro i; unfold yaml_lines; cbn [map concat fst snd].
  - rewrite <- (app_nil_r v) at 1. rewrite colons_setting by assumption. destruct (line_solid k v K V) as [L1 L2].
    cbn [colons]. rewrite lines_solid by assumption. cbn [break_lines]. rewrite replace_line by assumption. rewrite replace_all_nil, !app_nil_r, <- !app_assoc. reflexivity.
  - rewrite colons_setting by assumption. destruct (line_solid k v K V) as [L1 L2]. rewrite lines_solid by assumption.
    rewrite colons_blanks by exact B. cbn [app].
    assert (Hs : exists w r, s = w ++ r /\ word w).
    { inversion H; subst; eexists; eexists; (split; [reflexivity|assumption]). }
    destruct Hs as (w & r & -> & W). pose proof (colons_word w r [] false W) as C0. cbn [app] in C0. rewrite colons_word by exact W. rewrite <- C0.
    rewrite lines_blanks by assumption. rewrite replace_line by assumption. rewrite replace_colon. change (Ascii.eqb NL ":") with false. cbv iota.
    rewrite <- !app_assoc. cbn [app]. rewrite IH. reflexivity.
Qed.
Lemma settings_simplified s kvs : settings s kvs -> simplified s = yaml_lines kvs.
Proof. intro H. apply (settings_lines s kvs H). Qed.

Section WithEnv.
Context {E : Env}.

(** ** The loop *)
Lemma mget_names {A} (m : list (str * A)) n d r : NoDup (map fst (m ++ (n, d) :: r)) -> mget (m ++ (n, d) :: r) n = Some d.
Proof. intro N. apply mget_In_NoDup; [exact N|]. apply in_or_app. right. left. reflexivity. Qed.

Lemma loop_runs ds data todo out errs ok out' : runs data todo out errs ok out' -> forall acc,
  NoDup (map fst ds) -> (forall nd, In nd todo -> In nd ds) ->
  try_decoders ds data (map fst todo) out acc = (acc ++ errs, ok, out').
Proof.
  induction 1 as [out|n d r out out' H|n d r out e out1 errs ok out' H R IH]; intros acc N I.
  - cbn. rewrite app_nil_r. reflexivity.
  - cbn [map fst try_decoders]. rewrite (mget_In_NoDup ds n d) by (auto; apply I; left; reflexivity). rewrite H, app_nil_r. reflexivity.
  - cbn [map fst try_decoders]. rewrite (mget_In_NoDup ds n d) by (auto; apply I; left; reflexivity). rewrite H.
    rewrite IH; [rewrite <- app_assoc; reflexivity|exact N|]. intros nd J. apply I. right. exact J.
Qed.
Lemma decoders_run ds ds' data out errs ok out' : NoDup (map fst ds) -> by_name ds ds' -> runs data ds' out errs ok out' ->
  try_decoders ds data (sort_strings (mkeys ds)) out [] = (errs, ok, out').
Proof.
  intros N [Pm Sd] R. replace (sort_strings (mkeys ds)) with (map fst ds').
  - apply (loop_runs ds data ds' out errs ok out' R []); [exact N|]. intros nd I. eapply Permutation_in; [apply Permutation_sym; exact Pm|exact I].
  - rewrite <- (sort_strings_fixed (map fst ds')) by exact Sd. apply sort_strings_unique. unfold mkeys. apply Permutation_map, Permutation_sym, Pm.
Qed.
Lemma runs_exists data : forall ds out, exists errs ok out', runs data ds out errs ok out'.
Proof.
  induction ds as [|[n d] ds IH]; intro out; [exists [], false, out; constructor|]. destruct (d data out) as [[e|] out1] eqn:D.
  - destruct (IH out1) as (errs & ok & out' & R). exists ((n, e) :: errs), ok, out'. econstructor; eassumption.
  - exists [], true, out1. constructor. exact D.
Qed.
Lemma runs_fail_errs data ds out errs out' : runs data ds out errs false out' -> map fst errs = map fst ds.
Proof.
  intro R. remember false as ok eqn:Eo. revert Eo. induction R; intro Eo; [reflexivity|discriminate|]. cbn [map fst]. rewrite IHR by exact Eo. reflexivity.
Qed.

(** ** One call *)
Lemma special_iff data : existsb special data = true <-> exists c, In c data /\ In c $"=:{}".
Proof. rewrite existsb_exists. unfold special. split; intros (c & A & B); exists c; (split; [exact A|apply contains_byte_In; exact B]). Qed.

Lemma convert_accept fuel itf ds ds' data out errs out' : NoDup (map fst ds) -> by_name ds ds' -> runs data ds' out errs true out' ->
  ~ unchanged itf data out' -> convert_data fuel itf ds data out = (None, out').
Proof.
  intros N O R U. destruct fuel; cbn [convert_data]; rewrite (decoders_run ds ds' data out errs true out') by assumption; cbv iota;
  (destruct itf; [|destruct out'; reflexivity]);
  (destruct out' as [|sc| | | | | |]; try reflexivity; destruct sc as [| | |[|] s]; try reflexivity);
  (destruct (str_eqb_spec data s) as [->|]; [|reflexivity]);
  (destruct (existsb special s) eqn:Sp; [|reflexivity]);
  exfalso; apply U; (split; [reflexivity|split; [reflexivity|apply special_iff; exact Sp]]).
Qed.

Lemma convert_errors fuel itf ds ds' data out errs out' : NoDup (map fst ds) -> by_name ds ds' -> runs data ds' out errs false out' -> ds <> [] ->
  ~ nil_or_list out' \/ ~ In "="%char data -> convert_data fuel itf ds data out = (Some errs, out').
Proof.
  intros N O R Nd H. assert (Er : as_error errs = Some errs).
  { pose proof (runs_fail_errs _ _ _ _ _ R) as M. destruct errs; [|reflexivity]. exfalso. destruct ds' as [|x ds']; [|discriminate M].
    destruct O as [Pm _]. apply Permutation_sym, Permutation_nil in Pm. contradiction. }
  assert (C : nil_or_list out' -> contains_byte "=" data = false).
  { intro L. destruct H as [H|H]; [contradiction|]. apply not_true_iff_false. rewrite contains_byte_In. exact H. }
  destruct fuel; cbn [convert_data]; rewrite (decoders_run ds ds' data out errs false out') by assumption; cbv iota; rewrite Er;
  (destruct (c_try_as_list out') eqn:L; [|reflexivity]);
  (rewrite C; [reflexivity|]);
  (destruct out'; try discriminate L; unfold nil_or_list; eauto).
Qed.

Lemma listed v : nil_or_list v -> exists x, c_try_as_list v = Some x.
Proof.
  intros [->|[(t & l & ->)|(i & l & ->)]]; [eexists; reflexivity| |eexists; reflexivity].
  cbn [c_try_as_list try_as_list]. destruct (conv dflt (VSlice t l)) eqn:C; try (eexists; reflexivity); exfalso; revert C; cbn [conv];
  repeat match goal with |- context [if ?b then _ else _] => destruct b end; discriminate.
Qed.

Lemma convert_fallback fuel itf ds ds' data out errs out1 r : NoDup (map fst ds) -> by_name ds ds' -> runs data ds' out errs false out1 -> ds <> [] ->
  nil_or_list out1 -> In "="%char data -> convert_data fuel itf ds (simplified data) out1 = r ->
  convert_data (S fuel) itf ds data out = (match fst r with None => None | Some _ => Some errs end, snd r).
Proof.
  intros N O R Nd L Eq H. assert (Er : as_error errs = Some errs).
  { pose proof (runs_fail_errs _ _ _ _ _ R) as M. destruct errs; [|reflexivity]. exfalso. destruct ds' as [|x ds']; [|discriminate M].
    destruct O as [Pm _]. apply Permutation_sym, Permutation_nil in Pm. contradiction. }
  cbn [convert_data]. rewrite (decoders_run ds ds' data out errs false out1) by assumption. cbv iota. rewrite Er. destruct (listed out1 L) as [x ->].
  apply contains_byte_In in Eq. rewrite Eq. cbn [negb]. rewrite H. destruct r as [[e|] o]; reflexivity.
Qed.

Lemma convert_plain fuel ds ds' data out errs out' : NoDup (map fst ds) -> by_name ds ds' -> runs data ds' out errs true out' ->
  unchanged true data out' -> ~ In "="%char data -> convert_data fuel true ds data out = (Some errs, VNil).
Proof.
  intros N O R (_ & -> & Sp) Eq. apply special_iff in Sp. assert (C : contains_byte "=" data = false) by (apply not_true_iff_false; rewrite contains_byte_In; exact Eq).
  destruct fuel; cbn [convert_data]; rewrite (decoders_run ds ds' data out errs true (vstr data)) by assumption; cbv iota; unfold vstr; rewrite str_eqb_refl, Sp, C; reflexivity.
Qed.
Lemma convert_plain_fallback fuel ds ds' data out errs out1 r : NoDup (map fst ds) -> by_name ds ds' -> runs data ds' out errs true out1 ->
  unchanged true data out1 -> In "="%char data -> convert_data fuel true ds (simplified data) out1 = r ->
  convert_data (S fuel) true ds data out =
    match fst r with
    | None => if list_eq_dec ascii_dec data (sprint (snd r)) then (Some errs, VNil) else r
    | Some _ => (Some errs, VNil)
    end.
Proof.
  intros N O R (_ & -> & Sp) Eq H. apply special_iff in Sp. apply contains_byte_In in Eq.
  cbn [convert_data]. rewrite (decoders_run ds ds' data out errs true (vstr data)) by assumption. cbv iota. unfold vstr in *. rewrite str_eqb_refl, Sp, Eq. cbn [negb andb]. rewrite H.
  destruct r as [[e|] o]; cbn [fst snd]; [reflexivity|]. destruct (str_eqb_spec data (sprint o)) as [Es|Es]; destruct (list_eq_dec ascii_dec data (sprint o)); first [reflexivity|contradiction].
Qed.

(** At most one level of recursion. *)
Lemma convert_fuel0 fuel itf ds data out : contains_byte "=" data = false -> convert_data fuel itf ds data out = convert_data 0 itf ds data out.
Proof. intro H. destruct fuel; [reflexivity|]. cbn [convert_data]. rewrite H. reflexivity. Qed.
Lemma convert_fuel fuel itf ds data out : convert_data (S fuel) itf ds data out = convert_data 1 itf ds data out.
Proof.
  assert (H : forall o, convert_data fuel itf ds (simplified data) o = convert_data 0 itf ds (simplified data) o) by (intro o; apply convert_fuel0, simplified_no_equal).
  destruct (contains_byte "=" data) eqn:C; [|rewrite (convert_fuel0 (S fuel)), (convert_fuel0 1) by exact C; reflexivity].
  unfold convert_data at 1 2. fold convert_data. rewrite C. cbn [negb]. destruct (try_decoders ds data (sort_strings (mkeys ds)) out []) as [[errs done] o].
  rewrite !H. reflexivity.
Qed.

(** Registration order. *)
Lemma try_perm ds ds' data names : NoDup (map fst ds) -> Permutation ds ds' -> forall out errs, try_decoders ds data names out errs = try_decoders ds' data names out errs.
Proof.
  intros N Pm. induction names as [|n names IH]; intros out errs; [reflexivity|]. cbn [try_decoders]. rewrite (mget_perm ds ds' n N Pm).
  destruct (mget ds' n) as [d|]; [|reflexivity]. destruct (d data out) as [[e|] o]; [apply IH|reflexivity].
Qed.
Lemma convert_order ds ds' : NoDup (map fst ds) -> Permutation ds ds' -> forall fuel itf data out, convert_data fuel itf ds data out = convert_data fuel itf ds' data out.
Proof.
  intros N Pm. assert (K : sort_strings (mkeys ds) = sort_strings (mkeys ds')) by (apply sort_strings_unique; unfold mkeys; apply Permutation_map; exact Pm).
  induction fuel as [|fuel IH]; intros itf data out; unfold convert_data; fold convert_data; rewrite K, (try_perm ds ds' data _ N Pm);
  destruct (try_decoders ds' data (sort_strings (mkeys ds')) out []) as [[errs done] o]; [reflexivity|]. rewrite !IH. reflexivity.
Qed.

Lemma convert_without fuel itf data out : ~ unchanged itf data out -> convert_data fuel itf [] data out = (None, out).
Proof.
  intro U. destruct fuel; cbn [convert_data]; change (sort_strings (mkeys [])) with (@nil str); cbn [try_decoders as_error];
  (destruct itf; [|destruct out; reflexivity]);
  (destruct out as [|sc| | | | | |]; try reflexivity; destruct sc as [| | |[|] s]; try reflexivity);
  (destruct (str_eqb_spec data s) as [->|]; [|reflexivity]);
  (destruct (existsb special s) eqn:Sp; [|reflexivity]);
  exfalso; apply U; (split; [reflexivity|split; [reflexivity|apply special_iff; exact Sp]]).
Qed.
Lemma load_ok fuel itf ds data out : load_data fuel itf ds (Ok data) out = Ok (convert_data fuel itf ds data out).
Proof. reflexivity. Qed.
End WithEnv.
