(** Variables of the command line. *)
From Coq Require Import String Ascii List ZArith NArith Bool Permutation Lia.
From Verif Require Import GoStr GoStrFacts ValueModel ValueFacts DictModel TextModel TextSpec TextProofs PathModel TemplateSpec TemplateProofs ContextModel ContextSpec ConvModel ConvProofs.
Import ListNotations.
Local Notation dict := (list (str * value)).

(** ** Names of files *)
Lemma drop_none r : (forall c r', r = c :: r' -> c <> SLASH) -> drop_slashes r = r.
Proof. destruct r as [|c r]; [reflexivity|]. intro H. cbn [drop_slashes]. destruct (Ascii.eqb_spec c SLASH) as [->|]; [exfalso; exact (H _ _ eq_refl eq_refl)|reflexivity]. Qed.
Lemma until_app a b : ~ In SLASH a -> until_slash (a ++ SLASH :: b) = a.
Proof. induction a as [|c a IH]; intro N; [reflexivity|]. cbn [app until_slash]. destruct (Ascii.eqb_spec c SLASH) as [->|]; [exfalso; apply N; left; reflexivity|]. rewrite IH; [reflexivity|]. intro I. apply N. right. exact I. Qed.
Lemma until_all a : ~ In SLASH a -> until_slash a = a.
Proof. induction a as [|c a IH]; intro N; [reflexivity|]. cbn [until_slash]. destruct (Ascii.eqb_spec c SLASH) as [->|]; [exfalso; apply N; left; reflexivity|]. rewrite IH; [reflexivity|]. intro I. apply N. right. exact I. Qed.
Lemma base_eq dir b : (dir = [] \/ exists d, dir = d ++ [SLASH]) -> ~ In SLASH b -> b <> [] -> path_base (dir ++ b) = b.
Proof.
  intros D N Nn. unfold path_base. destruct (dir ++ b) as [|c0 r0] eqn:Q; [destruct (app_eq_nil _ _ Q); contradiction|]. rewrite <- Q. clear Q.
  assert (R : drop_slashes (rev (dir ++ b)) = rev b ++ rev dir).
  { rewrite rev_app_distr. apply drop_none. intros c r X ->. destruct (rev b) as [|x t] eqn:B; [apply Nn; apply (f_equal (@rev ascii)) in B; rewrite rev_involutive in B; exact B|]. cbn [app] in X. inversion X; subst. apply N. rewrite in_rev, B. left. reflexivity. }
  rewrite R. assert (U : until_slash (rev b ++ rev dir) = rev b).
  { destruct D as [->|(d & ->)]; [cbn [rev]; rewrite app_nil_r; apply until_all; rewrite <- in_rev; exact N|]. rewrite rev_app_distr. cbn [rev app]. apply until_app. rewrite <- in_rev. exact N. }
  rewrite U, rev_involutive. destruct b; [contradiction|reflexivity].
Qed.
Lemma last_part f : exists dir b, f = dir ++ b /\ (dir = [] \/ exists d, dir = d ++ [SLASH]) /\ ~ In SLASH b.
Proof.
  induction f as [|c f (dir & b & -> & D & N)] using rev_ind; [exists [], []; repeat split; auto|]. destruct (ascii_dec c SLASH) as [->|Nc].
  - exists ((dir ++ b) ++ [SLASH]), []. rewrite app_nil_r. repeat split; [right; eexists; reflexivity|intros []].
  - exists dir, (b ++ [c]). rewrite app_assoc. repeat split; [exact D|]. intro I. apply in_app_or in I. destruct I as [I|[I|[]]]; [exact (N I)|congruence].
Qed.
Lemma stem_eq f n : stem f n -> trim_suffix (path_ext f) (path_base f) = n.
Proof.
  intros (dir & ext & -> & D & N & Nn & X). rewrite (base_eq dir (n ++ ext) D N Nn). rewrite (ext_unique (dir ++ n ++ ext) ext); [apply trim_suffix_app|].
  destruct X as [(-> & Nd)|(e & -> & Ne)].
  - right. exists dir, n. rewrite app_nil_r in *. repeat split; auto.
  - left. exists (dir ++ n), e. rewrite <- app_assoc. repeat split; auto. intro I. apply N. apply in_or_app. right. right. exact I.
Qed.
Lemma stem_exists f : f <> [] -> (forall d, f <> d ++ [SLASH]) -> stem f (trim_suffix (path_ext f) (path_base f)).
Proof.
  intros Nf Ns. destruct (last_part f) as (dir & b & -> & D & N). assert (Nb : b <> []).
  { intros ->. rewrite app_nil_r in *. destruct D as [->|(d & ->)]; [apply Nf; reflexivity|exact (Ns d eq_refl)]. }
  assert (Sp : exists n e, b = n ++ e /\ ((e = [] /\ ~ In "."%char n) \/ exists x, e = "."%char :: x /\ ~ In "."%char x)).
  { clear -b. induction b as [|c b (n & e & -> & H)] using rev_ind; [exists [], []; split; [reflexivity|left; split; [reflexivity|intros []]]|]. destruct (ascii_dec c ".") as [->|Nc].
    - exists (n ++ e), ["."%char]. split; [reflexivity|]. right. exists []. split; [reflexivity|intros []].
    - destruct H as [(-> & H)|(x & -> & H)].
      + exists (n ++ [c]), []. rewrite !app_nil_r. split; [reflexivity|]. left. split; [reflexivity|]. intro I. apply in_app_or in I. destruct I as [I|[I|[]]]; [exact (H I)|congruence].
      + exists n, ("."%char :: x ++ [c]). split; [rewrite <- app_assoc; reflexivity|]. right. eexists. split; [reflexivity|]. intro I. apply in_app_or in I. destruct I as [I|[I|[]]]; [exact (H I)|congruence]. }
  destruct Sp as (n & e & -> & X). assert (St : stem (dir ++ n ++ e) n) by (exists dir, e; repeat split; assumption). rewrite (stem_eq _ _ St). exact St.
Qed.

(** ** The last value *)
Lemma last_app k a b : last_value k (a ++ b) = match last_value k b with Some v => Some v | None => last_value k a end.
Proof. induction a as [|(j, v) a IH]; cbn [app last_value]; [destruct (last_value k b); reflexivity|]. rewrite IH. destruct (last_value k b); reflexivity. Qed.
Lemma mget_app (a b : dict) k : mget (a ++ b) k = match mget a k with Some v => Some v | None => mget b k end.
Proof. induction a as [|(j, v) a IH]; [reflexivity|]. cbn [app mget]. destruct (str_eqb k j); [reflexivity|exact IH]. Qed.
Lemma last_rev k l : last_value k l = mget (rev l) k.
Proof.
  induction l as [|(j, v) l IH]; [reflexivity|]. cbn [rev]. rewrite mget_app. cbn [last_value mget]. rewrite IH. destruct (mget (rev l) k); reflexivity.
Qed.
Lemma last_map k (f : value -> value) l : last_value k (map (onto f) l) = option_map f (last_value k l).
Proof. induction l as [|(j, v) l IH]; [reflexivity|]. cbn [map onto fst snd last_value]. rewrite IH. destruct (last_value k l); [reflexivity|]. destruct (str_eqb k j); reflexivity. Qed.
Lemma last_mget k (m : dict) : NoDup (mkeys m) -> last_value k m = mget m k.
Proof.
  intro N. induction m as [|(j, v) m IH]; [reflexivity|]. cbn [mkeys map fst] in N. inversion N as [|? ? Nj Nm]; subst. cbn [last_value mget]. rewrite (IH Nm). destruct (str_eqb_spec k j) as [->|]; [|destruct (mget m k); reflexivity].
  destruct (mget m j) eqn:Q; [|reflexivity]. exfalso. apply Nj. apply mget_In in Q. apply (in_map fst) in Q. exact Q.
Qed.

Section WithEnv.
Context {E : Env} {L : Files}.

(** Dictionaries of entries. *)
Lemma set_fold i content : forall m, fold_left (fun m kv => dict_set i m (vstr (fst kv)) (snd kv)) content m = mset_all (map (onto (conv i)) content) m.
Proof. induction content as [|(k, v) c IH]; intro m; [reflexivity|]. cbn [fold_left map]. rewrite IH. reflexivity. Qed.
Lemma set_get i content m k : mget (fold_left (fun m kv => dict_set i m (vstr (fst kv)) (snd kv)) content m) k =
  match last_value k content with Some v => Some (conv i v) | None => mget m k end.
Proof. rewrite set_fold, mget_mset_all, <- last_rev, last_map. destruct (last_value k content); reflexivity. Qed.

Definition same_values (i : impl) (a b : dict) : Prop := forall k, option_map (conv i) (last_value k a) = option_map (conv i) (last_value k b).
Lemma as_dict_spec d c j m : try_as_dict d c = Some (j, m) -> exists R, entries c = Some R /\ (forall i, i = d \/ i = j -> same_values i m R).
Proof.
  intro H. destruct c as [|s|t l|t mm|t mm|i0 l|i0 mm|t b n]; try discriminate H.
  - inversion H; subst. exists []. split; [reflexivity|]. intros i _ k. reflexivity.
  - exists mm. split; [reflexivity|]. intros i Hi k. cbn [try_as_dict conv] in H. destruct (existsb _ mm); inversion H; subst; [|reflexivity]. assert (i = j) by tauto. subst i.
    change (map (fun kv => (fst kv, conv j (snd kv))) mm) with (map (onto (conv j)) mm). rewrite last_map. destruct (last_value k mm); [|reflexivity]. cbn [option_map]. rewrite conv_idem. reflexivity.
  - eexists. split; [reflexivity|]. intros i Hi k. cbn [try_as_dict conv] in H. inversion H; subst. assert (i = j) by tauto. subst i.
    rewrite last_mget by (apply NoDup_mset_all; constructor). rewrite mget_mset_all, <- last_rev. cbn [mget].
    replace (map (fun kv => (sprint_scalar (fst kv), conv j (snd kv))) mm) with (map (onto (conv j)) (map (fun kv => (sprint_scalar (fst kv), snd kv)) mm)) by (rewrite map_map; reflexivity).
    rewrite last_map. destruct (last_value k _); [|reflexivity]. cbn [option_map]. rewrite conv_idem. reflexivity.
  - exists mm. split; [reflexivity|]. intros i Hi k. cbn [try_as_dict conv] in H. destruct (existsb _ mm); inversion H; subst; [|reflexivity]. assert (i = j) by tauto. subst i.
    change (map (fun kv => (fst kv, conv j (snd kv))) mm) with (map (onto (conv j)) mm). rewrite last_map. destruct (last_value k mm); [|reflexivity]. cbn [option_map]. rewrite conv_idem. reflexivity.
Qed.
Definition type_of (d : impl) (c : value) : impl := match c with VDict j m => if need_conv (VDict j m) then d else j | _ => d end.
Lemma as_dict_type d c j m : try_as_dict d c = Some (j, m) -> j = type_of d c.
Proof.
  intro H. destruct c as [|s|t l|t mm|t mm|i0 l|i0 mm|t b n]; try discriminate H; cbn [try_as_dict conv] in H; cbn [type_of need_conv]; try (inversion H; reflexivity). destruct (existsb _ mm); inversion H; reflexivity.
Qed.
Lemma as_dict_none d c : try_as_dict d c = None -> entries c = None.
Proof. intro H. destruct c as [|s|t l|t mm|t mm|i0 l|i0 mm|t b n]; try reflexivity; try discriminate H; cbn [try_as_dict conv] in H; try discriminate H. destruct (existsb _ mm); discriminate H. Qed.
Lemma single_spec d n c : exists m, single d n c = Dictionary d m /\ forall i, i = d \/ i = d -> same_values i m [(n, c)].
Proof.
  unfold single. destruct (try_as_dict d (VMap 0 [(n, c)])) as [(j, m)|] eqn:T.
  - assert (j = d) by exact (as_dict_type _ _ _ _ T). subst j. exists m. split; [reflexivity|]. destruct (as_dict_spec _ _ _ _ T) as (R & ER & SR). inversion ER; subst. exact SR.
  - apply as_dict_none in T. discriminate T.
Qed.

(** ** One definition *)
Inductive means : source -> filedef -> Prop :=
| means_import r f : means (Import r f) {| fd_name := []; fd_value := vstr f; fd_unnamed := false; fd_required := r |}
| means_named n v : means (Named n v) {| fd_name := n; fd_value := v; fd_unnamed := false; fd_required := false |}
| means_argument s : means (Argument s) {| fd_name := []; fd_value := vstr s; fd_unnamed := true; fd_required := false |}.

Variable folders : forall d c, load (d ++ [SLASH]) <> Content c.
Lemma stem_of f c : f <> [] -> load f = Content c -> stem f (trim_suffix (path_ext f) (path_base f)).
Proof. intros N H. apply stem_exists; [exact N|]. intros d ->. exact (folders d c H). Qed.

(** What a loader gives. *)
Definition outcome_ok (ig : bool) (d : impl) (s : source) (o : outcome) : Prop :=
  match o with
  | Dictionary j m => exists R, gives ig s (Some R) /\ (forall i, i = d \/ i = j -> same_values i m R) /\ (d = dflt -> j = creates s)
  | Nothing => gives ig s None
  | NotFound _ => ig = true -> gives ig s None
  | Failed _ => True
  end.
Lemma single_ok ig d s n c : gives ig s (Some [(n, c)]) -> creates s = dflt -> outcome_ok ig d s (single d n c).
Proof. intros H C. destruct (single_spec d n c) as (m & -> & Sv). exists [(n, c)]. repeat split; [assumption..|congruence]. Qed.
Lemma entries_ok ig d s n c o : gives ig s (Some (named_or_entries n c)) -> creates s = type_of dflt c ->
  o = match try_as_dict d c with Some (j, m) => Dictionary j m | None => single d n c end -> outcome_ok ig d s o.
Proof.
  intros H C ->. unfold named_or_entries in H. destruct (try_as_dict d c) as [(j, m)|] eqn:T.
  - destruct (as_dict_spec _ _ _ _ T) as (R & ER & SR). rewrite ER in H. exists R. repeat split; [assumption..|]. intros ->. rewrite C. exact (as_dict_type _ _ _ _ T).
  - rewrite (as_dict_none _ _ T) in H. apply single_ok; [exact H|]. rewrite C. apply as_dict_none in T. destruct c; try discriminate T; reflexivity.
Qed.
Lemma creates_file f c : f <> [] -> f <> $"-" -> load f = Content c -> forall r, creates (Import r f) = type_of dflt c /\ creates (Named [] (vstr f)) = type_of dflt c.
Proof.
  intros N1 N2 H r. unfold creates, data_of, vstr. destruct f as [|a f]; [contradiction|]. rewrite (proj2 (str_eqb_neq (a :: f) $"-")) by exact N2. rewrite H. destruct c; split; reflexivity.
Qed.
Lemma creates_stdin c : decode stdin_data = Some c -> forall r, creates (Import r $"-") = type_of dflt c /\ creates (Named [] (vstr $"-")) = type_of dflt c /\ creates (Argument $"-") = type_of dflt c.
Proof. intros H r. unfold creates, data_of, vstr. change (str_eqb $"-" $"-") with true. cbv iota. cbn [lit list_ascii_of_string]. rewrite H. destruct c; repeat split; reflexivity. Qed.
Lemma creates_named n v : n <> [] -> creates (Named n v) = dflt.
Proof. intro N. unfold creates, data_of. destruct n; [contradiction|]. destruct v; reflexivity. Qed.
Lemma creates_argument f : f <> $"-" -> creates (Argument f) = dflt.
Proof. intro N. unfold creates, data_of. rewrite (proj2 (str_eqb_neq f $"-")) by exact N. reflexivity. Qed.
Lemma stdin_ok ig d s nv : means s nv -> fd_value nv = vstr $"-" -> outcome_ok ig d s (load_stdin d nv).
Proof.
  intros M V. unfold load_stdin. destruct (decode stdin_data) as [c|] eqn:D; [|exact I]. destruct M as [r f|n v|f]; cbn [fd_name fd_value] in *.
  - inversion V; subst. eapply entries_ok; [apply import_stdin; exact D|exact (proj1 (creates_stdin c D r))|]. destruct (try_as_dict d c) as [(j, m)|]; reflexivity.
  - subst v. destruct n as [|a n].
    + eapply entries_ok; [apply variable_nameless; [discriminate|]; apply import_stdin; exact D|exact (proj1 (proj2 (creates_stdin c D true)))|]. destruct (try_as_dict d c) as [(j, m)|]; reflexivity.
    + apply single_ok; [apply variable_stdin; [discriminate|exact D]|apply creates_named; discriminate].
  - inversion V; subst. eapply entries_ok; [apply argument_stdin; exact D|exact (proj2 (proj2 (creates_stdin c D true)))|]. destruct (try_as_dict d c) as [(j, m)|]; reflexivity.
Qed.
Lemma file_ok ig d s nv f : means s nv -> fd_value nv = vstr f -> f <> [] -> f <> $"-" -> outcome_ok ig d s (load_file d nv f).
Proof.
  intros M V N1 N2. unfold load_file. cbv zeta. destruct (load f) as [c|e|e] eqn:Lf; [| |exact I].
  - pose proof (stem_of f c N1 Lf) as St. destruct M as [r g|n v|g]; cbn [fd_name fd_value fd_unnamed] in *.
    + assert (g = f) by (inversion V; reflexivity). subst g. eapply entries_ok; [eapply import_file; eassumption|exact (proj1 (creates_file f c N1 N2 Lf r))|]. destruct (try_as_dict d c) as [(j, m)|]; reflexivity.
    + subst v. destruct n as [|a n].
      * eapply entries_ok; [apply variable_nameless; [exact N1|]; eapply import_file; eassumption|exact (proj2 (creates_file f c N1 N2 Lf true))|]. destruct (try_as_dict d c) as [(j, m)|]; reflexivity.
      * apply single_ok; [apply variable_file; try assumption; discriminate|apply creates_named; discriminate].
    + assert (g = f) by (inversion V; reflexivity). subst g. apply single_ok; [apply argument_file; assumption|apply creates_argument; exact N2].
  - destruct M as [r g|n v|g]; cbn [fd_name fd_value fd_required] in *.
    + assert (g = f) by (inversion V; reflexivity). subst g. destruct r; [intro Ig|]; eapply import_missing; try eassumption; auto.
    + subst v. destruct n as [|a n].
      * cbn [outcome_ok]. apply variable_nameless; [exact N1|]. eapply import_missing; try eassumption. left. reflexivity.
      * destruct (decode f) as [c|] eqn:D; (apply single_ok; [|apply creates_named; discriminate]); [eapply variable_data|eapply variable_text]; try eassumption; discriminate.
    + assert (g = f) by (inversion V; reflexivity). subst g. cbn [outcome_ok]. eapply argument_missing; eassumption.
Qed.

Definition good (st : variables) : Prop := match v_context st with Some (i, _) => i = v_helper st | None => True end.
Definition entry_of (st : variables) (k : str) : option value := match v_context st with Some (_, m) => mget m k | None => None end.
Definition outcome_of (d : impl) (nv : filedef) (f : str) : outcome := if str_eqb f $"-" then load_stdin d nv else load_file d nv f.
Lemma value_cases v : v = VNil \/ (v <> VNil /\ ~ is_text v) \/ exists f, f <> [] /\ v = vstr f.
Proof.
  destruct v as [|s| | | | | |]; [left; reflexivity| | | | | | |]; try (right; left; split; [discriminate|intros (? & ? & X); discriminate X]).
  destruct s as [| | |b x]; try (right; left; split; [discriminate|intros (? & ? & X); discriminate X]).
  destruct b; [right; left; split; [discriminate|intros (? & ? & X); discriminate X]|]. destruct x as [|c x]; [right; left; split; [discriminate|intros (? & ? & X); discriminate X]|].
  right. right. exists (c :: x). split; [discriminate|reflexivity].
Qed.
Definition set_one (nv : filedef) (st : variables) : variables :=
  let '(i, m) := match v_context st with Some c => c | None => (v_helper st, []) end in
  {| v_context := Some (i, dict_set i m (vstr (fd_name nv)) (fd_value nv)); v_helper := v_helper st |}.
Definition put (j : impl) (content : dict) (st : variables) : variables :=
  let '(i, m, d) := match v_context st with Some (i, m) => (i, m, v_helper st) | None => (j, [], j) end in
  {| v_context := Some (i, fold_left (fun m kv => dict_set i m (vstr (fst kv)) (snd kv)) content m); v_helper := d |}.
Lemma add_value ig nv st : fd_value nv <> VNil -> ~ is_text (fd_value nv) -> add_def ig nv st = Ok (set_one nv st).
Proof.
  intros N T. unfold add_def, set_one. destruct (match v_context st with Some c => c | None => (v_helper st, []) end) as (i, m). cbv zeta.
  destruct (fd_value nv) as [|s| | | | | |]; [contradiction| |reflexivity..]. destruct s as [| | |b x]; try reflexivity. destruct b; [reflexivity|]. destruct x as [|c x]; [reflexivity|]. exfalso. apply T. exists c, x. reflexivity.
Qed.
Lemma add_text ig nv st f : f <> [] -> fd_value nv = vstr f -> add_def ig nv st =
  match outcome_of (v_helper st) nv f with
  | Nothing => Ok st
  | NotFound e => if ig then Ok st else Err ($"error " ++ e ++ $" while loading variable file " ++ f)
  | Failed e => Err ($"error " ++ e ++ $" while loading variable file " ++ f)
  | Dictionary j content => Ok (put j content st)
  end.
Proof.
  intros N V. unfold add_def, outcome_of. rewrite V. destruct f as [|c f]; [contradiction|]. cbv zeta. unfold vstr at 1. destruct (if str_eqb (c :: f) $"-" then _ else _) as [j content| | |]; try reflexivity.
  unfold put. destruct (v_context st) as [(i, m)|]; reflexivity.
Qed.

(** The effect of one definition on a good state. *)
Definition step_ok (s : source) (st st' : variables) (p : option dict) : Prop :=
  good st' /\ (v_context st = None -> v_helper st = dflt -> p <> None -> v_helper st' = creates s) /\ (forall i m, v_context st = Some (i, m) -> v_helper st' = i) /\
  match p with
  | None => st' = st
  | Some R => exists i m, v_context st' = Some (i, m) /\ forall k, mget m k = match last_value k R with Some v => Some (conv i v) | None => entry_of st k end
  end.
Lemma put_ok s st j content R : good st -> (forall i, i = v_helper st \/ i = j -> same_values i content R) -> (v_helper st = dflt -> j = creates s) -> step_ok s st (put j content st) (Some R).
Proof.
  intros Gd Sv Tp. unfold put, step_ok, good, entry_of in *. destruct (v_context st) as [(i, m)|]; cbn [v_context v_helper].
  - split; [exact Gd|]. split; [discriminate|]. split; [intros i' m' X; inversion X; subst; reflexivity|]. eexists i, _. split; [reflexivity|]. intro k. rewrite set_get. specialize (Sv i (or_introl Gd) k). destruct (last_value k content), (last_value k R); cbn [option_map] in Sv; congruence.
  - split; [reflexivity|]. split; [intros _ Q _; exact (Tp Q)|]. split; [discriminate|]. eexists j, _. split; [reflexivity|]. intro k. rewrite set_get. specialize (Sv j (or_intror eq_refl) k). destruct (last_value k content), (last_value k R); cbn [option_map] in Sv; try congruence. reflexivity.
Qed.
Lemma set_one_ok s nv st : good st -> creates s = dflt -> step_ok s st (set_one nv st) (Some [(fd_name nv, fd_value nv)]).
Proof.
  intros Gd Cd. assert (Q : set_one nv st = put (v_helper st) [(fd_name nv, fd_value nv)] st) by (unfold set_one, put; destruct (v_context st) as [(i, m)|]; reflexivity).
  rewrite Q. apply put_ok; [exact Gd|intros i _ k; reflexivity|congruence].
Qed.
Lemma empty_text nv s ig : means s nv -> fd_value nv <> VNil -> ~ is_text (fd_value nv) -> gives ig s (Some [(fd_name nv, fd_value nv)]) /\ creates s = dflt.
Proof.
  intros M N T. destruct M as [r f|n v|f]; cbn [fd_name fd_value] in *.
  - destruct f as [|c f]; [split; [apply import_empty|reflexivity]|exfalso; apply T; exists c, f; reflexivity].
  - split; [apply variable_value; assumption|]. unfold creates, data_of. destruct n as [|a n]; [|destruct v; reflexivity]. destruct v as [|x| | | | | |]; try reflexivity. destruct x as [| | |b x]; try reflexivity. destruct b; [reflexivity|]. destruct x as [|a x]; [reflexivity|]. exfalso. apply T. exists a, x. reflexivity.
  - destruct f as [|c f]; [split; [apply argument_empty|reflexivity]|exfalso; apply T; exists c, f; reflexivity].
Qed.
Lemma step_gives ig s nv st st' : means s nv -> good st -> add_def ig nv st = Ok st' -> exists p, gives ig s p /\ step_ok s st st' p.
Proof.
  intros M Gd A. destruct (value_cases (fd_value nv)) as [V|[(N & T)|(f & Nf & V)]].
  - unfold add_def in A. rewrite V in A. discriminate A.
  - rewrite (add_value ig nv st N T) in A. inversion A; subst. destruct (empty_text nv s ig M N T) as (G1 & C1). eexists. split; [exact G1|apply set_one_ok; assumption].
  - rewrite (add_text ig nv st f Nf V) in A. assert (O : outcome_ok ig (v_helper st) s (outcome_of (v_helper st) nv f)).
    { unfold outcome_of. destruct (str_eqb_spec f $"-") as [->|Nd]; [apply stdin_ok; assumption|apply file_ok; assumption]. }
    destruct (outcome_of (v_helper st) nv f) as [j content| |e|e]; cbn [outcome_ok] in O.
    + inversion A; subst. destruct O as (R & GR & SR & TR). exists (Some R). split; [exact GR|apply put_ok; assumption].
    + inversion A; subst. exists None. split; [exact O|]. split; [exact Gd|]. split; [intros _ _ X; contradiction|]. split; [|reflexivity]. intros i m X. unfold good in Gd. rewrite X in Gd. congruence.
    + destruct ig; [|discriminate A]. inversion A; subst. exists None. split; [exact (O eq_refl)|]. split; [exact Gd|]. split; [intros _ _ X; contradiction|]. split; [|reflexivity]. intros i m X. unfold good in Gd. rewrite X in Gd. congruence.
    + discriminate A.
Qed.

(** A source that gives something is processed. *)
Lemma named_not_failed d n c e : single d n c <> Failed e /\ single d n c <> NotFound e.
Proof. destruct (single_spec d n c) as (m & -> & _). split; discriminate. Qed.
Definition fine (ig : bool) (o : outcome) : Prop := match o with Failed _ => False | NotFound _ => ig = true | _ => True end.
Lemma single_fine ig d n c : fine ig (single d n c).
Proof. destruct (single_spec d n c) as (m & -> & _). exact I. Qed.
Lemma choice_fine ig d n c : fine ig (match try_as_dict d c with Some (j, m) => Dictionary j m | None => single d n c end).
Proof. destruct (try_as_dict d c) as [(j, m)|]; [exact I|apply single_fine]. Qed.
Lemma stdin_fine ig d nv c : decode stdin_data = Some c -> fine ig (load_stdin d nv).
Proof. intro D. unfold load_stdin. rewrite D. destruct (fd_name nv); [|apply single_fine]. apply (choice_fine ig d). Qed.
Lemma load_fine ig d nv f c : load f = Content c -> fine ig (load_file d nv f).
Proof. intro D. unfold load_file. rewrite D. cbv zeta. destruct (fd_name nv); [|apply single_fine]. destruct (fd_unnamed nv); [apply single_fine|apply (choice_fine ig d)]. Qed.
Lemma import_not_empty ig r f p : gives ig (Import r f) p -> f <> [] -> forall d nv, fd_name nv = [] -> fd_required nv = r -> fine ig (outcome_of d nv f).
Proof.
  intros H Nf d nv Hn Hr. unfold outcome_of. inversion H; subst; try contradiction.
  - rewrite (proj2 (str_eqb_neq f $"-")) by assumption. eapply load_fine; eassumption.
  - rewrite (proj2 (str_eqb_neq f $"-")) by assumption. unfold load_file. match goal with X : load f = _ |- _ => rewrite X end. cbv zeta. rewrite Hn. destruct (fd_required nv); [|exact I]. cbn [fine]. match goal with X : _ \/ _ |- _ => destruct X; [discriminate|assumption] end.
  - change (str_eqb $"-" $"-") with true. eapply stdin_fine; eassumption.
Qed.
Lemma gives_step ig s nv st p : means s nv -> gives ig s p -> exists st', add_def ig nv st = Ok st'.
Proof.
  intros M H. assert (F : forall f, f <> [] -> fd_value nv = vstr f -> fine ig (outcome_of (v_helper st) nv f) -> exists st', add_def ig nv st = Ok st').
  { intros f Nf V F. rewrite (add_text ig nv st f Nf V). destruct (outcome_of (v_helper st) nv f); cbn [fine] in F; [eexists; reflexivity|eexists; reflexivity|rewrite F; eexists; reflexivity|contradiction]. }
  assert (F2 : fd_value nv <> VNil -> ~ is_text (fd_value nv) -> exists st', add_def ig nv st = Ok st') by (intros A B; eexists; apply add_value; assumption).
  assert (Ne : ~ is_text (vstr [])) by (intros (? & ? & X); discriminate X).
  destruct M as [r f|n v|f]; cbn [fd_value] in *.
  - destruct f as [|c f]; [apply F2; [discriminate|exact Ne]|]. apply (F (c :: f)); [discriminate|reflexivity|]. eapply import_not_empty; [exact H|discriminate|reflexivity|reflexivity].
  - inversion H; subst; cbn [fd_value] in *; try (eapply F; [|reflexivity|]; try assumption; try discriminate; unfold outcome_of).
    + apply F2; assumption.
    + rewrite (proj2 (str_eqb_neq f $"-")) by assumption. eapply load_fine; eassumption.
    + rewrite (proj2 (str_eqb_neq f $"-")) by assumption. unfold load_file. match goal with X : load f = _ |- _ => rewrite X end. cbn [fd_name]. destruct n; [contradiction|apply single_fine].
    + rewrite (proj2 (str_eqb_neq f $"-")) by assumption. unfold load_file. match goal with X : load f = _ |- _ => rewrite X end. cbn [fd_name]. destruct n; [contradiction|apply single_fine].
    + change (str_eqb $"-" $"-") with true. eapply stdin_fine; eassumption.
    + match goal with X : gives ig (Import _ _) _ |- _ => eapply (import_not_empty _ _ _ _ X) end; [assumption|reflexivity|reflexivity].
  - inversion H; subst; try (apply F2; [discriminate|exact Ne]); (eapply F; [|reflexivity|]; [first [assumption|discriminate]|unfold outcome_of]).
    + rewrite (proj2 (str_eqb_neq f $"-")) by assumption. eapply load_fine; eassumption.
    + rewrite (proj2 (str_eqb_neq f $"-")) by assumption. unfold load_file. match goal with X : load f = _ |- _ => rewrite X end. exact I.
    + change (str_eqb $"-" $"-") with true. eapply stdin_fine; eassumption.
Qed.

(** ** All definitions *)
Lemma steps ig : forall ss nvs st st', Forall2 means ss nvs -> good st -> add_defs ig nvs st = Ok st' ->
  exists ps, Forall2 (gives ig) ss ps /\ good st' /\ (forall i m, v_context st = Some (i, m) -> v_helper st' = i /\ v_context st' <> None) /\
    (v_context st' = None -> Forall (fun p => p = None) ps) /\ (v_context st = None -> v_helper st = dflt -> forall i m, v_context st' = Some (i, m) -> first_type ss ps = Some i) /\
    forall i m, v_context st' = Some (i, m) -> forall k, match last_value k (all_pairs ps) with Some v => mget m k = Some (conv i v) | None => entry_of st k = mget m k end.
Proof.
  induction ss as [|s ss IH]; intros nvs st st' F Gd A; inversion F as [|? nv ? nvs' M F']; subst.
  - cbn [add_defs] in A. inversion A; subst. exists []. split; [constructor|]. split; [exact Gd|]. split; [|split; [constructor|split; [intros X _ i m Y; congruence|]]].
    + intros i m X. unfold good in Gd. rewrite X in *. split; [congruence|discriminate].
    + intros i m X k. cbn. unfold entry_of. rewrite X. reflexivity.
  - cbn [add_defs] in A. destruct (add_def ig nv st) as [st1|e|e] eqn:A1; cbn [bind] in A; try discriminate A.
    destruct (step_gives ig s nv st st1 M Gd A1) as (p & Gp & Gd1 & T1 & H1 & Hp). destruct (IH nvs' st1 st' F' Gd1 A) as (ps & Gs & Gd' & H2 & H3 & T2 & H4).
    exists (p :: ps). split; [constructor; assumption|]. split; [exact Gd'|]. split; [|split; [|split]].
    + intros i m X. destruct p as [R|].
      * destruct Hp as (i1 & m1 & X1 & _). destruct (H2 i1 m1 X1) as (Q & Nn). split; [|exact Nn]. unfold good in Gd1. rewrite X1 in Gd1. rewrite <- (H1 i m X). congruence.
      * subst st1. exact (H2 i m X).
    + intro X. destruct p as [R|]; [destruct Hp as (i1 & m1 & X1 & _); destruct (H2 i1 m1 X1) as (_ & Nn); contradiction|]. constructor; [reflexivity|exact (H3 X)].
    + intros Cn Hd i m X. destruct p as [R|]; cbn [first_type].
      * destruct Hp as (i1 & m1 & X1 & _). destruct (H2 i1 m1 X1) as (Q & _). unfold good in Gd', Gd1. rewrite X in Gd'. rewrite X1 in Gd1. rewrite <- (T1 Cn Hd ltac:(discriminate)). congruence.
      * subst st1. eapply T2; eassumption.
    + intros i m X k. specialize (H4 i m X k). change (all_pairs (p :: ps)) with (match p with Some m => m | None => [] end ++ all_pairs ps). rewrite last_app. destruct (last_value k (all_pairs ps)) as [v|]; [exact H4|].
      destruct p as [R|]; [|subst st1; exact H4]. destruct Hp as (i1 & m1 & X1 & Hk). destruct (H2 i1 m1 X1) as (Q & _). unfold good in Gd'. rewrite X in Gd'. assert (i1 = i) by congruence. subst i1.
      unfold entry_of in H4. rewrite X1 in H4. rewrite <- H4, Hk. destruct (last_value k R); congruence.
Qed.
Lemma steps_total ig : forall ss nvs ps, Forall2 means ss nvs -> Forall2 (gives ig) ss ps -> forall st, exists st', add_defs ig nvs st = Ok st'.
Proof.
  induction ss as [|s ss IH]; intros nvs ps F Gs st; inversion F as [|? nv ? nvs' M F']; subst; [eexists; reflexivity|]. inversion Gs as [|? p ? ps' Gp Gs']; subst.
  destruct (gives_step ig s nv st p M Gp) as (st1 & A1). cbn [add_defs]. rewrite A1. cbn [bind]. exact (IH _ _ F' Gs' st1).
Qed.

(** ** Command lines *)
Variable decode_map : str -> option dict.
Local Notation argument := (argument decode_map).
Local Notation named_defs := (named_defs decode_map).
Local Notation command_line := (command_line decode_map).
Local Notation all_defs := (all_defs decode_map).
Local Notation create_context := (create_context decode_map).
Lemma split2_cases s : (exists n v, s = n ++ "="%char :: v /\ ~ In "="%char n /\ split2 s $"=" = (n, v)) \/ (~ In "="%char s /\ split2 s $"=" = (s, [])).
Proof.
  destruct (split2_spec s $"=" ltac:(discriminate)) as [(n & v & Q & Es & F)|(N & Q)].
  - left. exists n, v. split; [exact Es|]. split; [|exact Q]. intro I. apply in_split in I. destruct I as (a & b & ->). specialize (F (List.length a)).
    assert (O : occurs_at $"=" s (List.length a)) by (exists a, (b ++ $"=" ++ v); split; [rewrite Es, <- app_assoc; reflexivity|reflexivity]). specialize (F O). rewrite app_length in F. cbn [List.length] in F. lia.
  - right. split; [|exact Q]. intro I. apply in_split in I. destruct I as (a & b & ->). apply (N (List.length a)). exists a, b. split; reflexivity.
Qed.
Lemma same_split n v n' v' : n ++ "="%char :: v = n' ++ "="%char :: v' -> ~ In "="%char n -> ~ In "="%char n' -> n = n' /\ v = v'.
Proof.
  revert n'. induction n as [|c n IH]; intros [|c' n'] Q N N'; cbn [app] in Q.
  - inversion Q. auto.
  - inversion Q; subst. exfalso. apply N'. left. reflexivity.
  - inversion Q; subst. exfalso. apply N. left. reflexivity.
  - inversion Q; subst. destruct (IH n' H1) as (-> & ->); [intro I; apply N; right; exact I|intro I; apply N'; right; exact I|]. auto.
Qed.
Lemma contains_eq s : contains $"=" s = true <-> In "="%char s.
Proof. rewrite contains_iff. split; [intros (a & b & ->); apply in_or_app; right; left; reflexivity|]. intro I. apply in_split in I. destruct I as (a & b & ->). exists a, b. reflexivity. Qed.
Lemma argument_exists s : exists ss, argument s ss /\ Forall2 means ss (named_defs s).
Proof.
  unfold named_defs. destruct (decode_map s) as [data|] eqn:D.
  - destruct data as [|kv data].
    + destruct (split2_cases s) as [(n & v & Es & N & Q)|(N & Q)]; rewrite Q.
      * rewrite (proj2 (contains_eq s)) by (rewrite Es; apply in_or_app; right; left; reflexivity). eexists. split; [rewrite Es; apply arg_empty; [rewrite <- Es; exact D|exact N]|]. repeat constructor.
      * destruct (contains $"=" s) eqn:C; [apply contains_eq in C; contradiction|]. exists []. split; [apply arg_nothing; assumption|constructor].
    + eexists. split; [apply arg_data; [exact D|discriminate]|]. clear D. generalize (kv :: data) as l. intro l. induction l as [|(k, v) l IH]; constructor; [constructor|exact IH].
  - destruct (split2_cases s) as [(n & v & Es & N & Q)|(N & Q)]; rewrite Q.
    + destruct v as [|c v].
      * eexists. split; [rewrite Es; apply arg_equal; [rewrite Es in D; exact D|exact N]|]. repeat constructor.
      * eexists. split; [rewrite Es; apply arg_text; [rewrite <- Es; exact D|exact N|discriminate]|]. repeat constructor.
    + eexists. split; [apply arg_file; assumption|]. repeat constructor.
Qed.
Lemma argument_unique s a b : argument s a -> argument s b -> a = b.
Proof.
  intros A B. destruct A; inversion B; subst; try reflexivity; try congruence;
  try (exfalso; match goal with X : ~ In _ (_ ++ _) |- _ => apply X; apply in_or_app; right; left; reflexivity end);
  try (match goal with X : _ ++ _ = _ ++ _ |- _ => apply same_split in X; [destruct X as (? & ?); subst; try reflexivity; try contradiction; congruence|assumption|assumption] end);
  exfalso; change $"=" with ["="%char] in *; congruence.
Qed.
Lemma command_defs files optional named ss : command_line files optional named ss -> Forall2 means ss (all_defs files optional named).
Proof.
  intros [fs os ns args F]. unfold all_defs. apply Forall2_app; [|apply Forall2_app].
  - induction os; constructor; [constructor|assumption].
  - induction fs; constructor; [constructor|assumption].
  - induction F as [|n a ns args A F IH]; [constructor|]. cbn [concat flat_map]. apply Forall2_app; [|exact IH]. destruct (argument_exists n) as (a' & A' & M). rewrite (argument_unique n a a' A A'). exact M.
Qed.
Lemma command_exists files optional named : exists ss, command_line files optional named ss.
Proof.
  assert (F : exists args, Forall2 argument named args).
  { induction named as [|n ns (args & F)]; [exists []; constructor|]. destruct (argument_exists n) as (a & A & _). exists (a :: args). constructor; assumption. }
  destruct F as (args & F). eexists. constructor. exact F.
Qed.

Lemma context_precedence files optional named mode ig r ss : command_line files optional named ss -> create_context files optional named mode ig = Ok r ->
  exists ps, Forall2 (gives ig) ss ps /\
  match r with
  | None => mode = [] /\ Forall (fun p => p = None) ps
  | Some (i, m) => (mode <> [] -> i = dflt) /\ (mode = [] -> first_type ss ps = Some i) /\ forall k, mget m k = option_map (conv i) (last_value k (all_pairs ps))
  end.
Proof.
  intros C A. unfold create_context in A. set (st := {| v_context := _; v_helper := dflt |}) in A. apply command_defs in C.
  assert (Gd : good st) by (unfold good, st; destruct mode; reflexivity). destruct (add_defs ig _ st) as [st'|e|e] eqn:A'; cbn [bind] in A; try discriminate A. inversion A; subst.
  destruct (steps ig ss _ st st' C Gd A') as (ps & Gs & Gd' & H2 & H3 & T2 & H4). exists ps. split; [exact Gs|]. destruct (v_context st') as [(i, m)|] eqn:X.
  - split; [|split].
    + intro Nm. destruct mode as [|c mode]; [contradiction|]. destruct (H2 dflt [] eq_refl) as (Q & _). unfold good in Gd'. rewrite X in Gd'. congruence.
    + intros ->. eapply T2; reflexivity.
    + intro k. specialize (H4 i m eq_refl k). destruct (last_value k (all_pairs ps)); [exact H4|]. cbn [option_map]. rewrite <- H4. unfold entry_of, st. destruct mode; reflexivity.
  - split; [|exact (H3 eq_refl)]. destruct mode as [|c mode]; [reflexivity|]. destruct (H2 dflt [] eq_refl) as (_ & Nn). contradiction.
Qed.
Lemma context_total files optional named mode ig ss ps : command_line files optional named ss -> Forall2 (gives ig) ss ps -> exists r, create_context files optional named mode ig = Ok r.
Proof.
  intros C Gs. unfold create_context. set (st := {| v_context := _; v_helper := dflt |}). apply command_defs in C. destruct (steps_total ig ss _ ps C Gs st) as (st' & ->). eexists. reflexivity.
Qed.

(** Failures. *)
Lemma context_ok_all files optional named mode ig r ss : command_line files optional named ss -> create_context files optional named mode ig = Ok r -> forall s, In s ss -> exists p, gives ig s p.
Proof.
  intros C A s I. destruct (context_precedence _ _ _ _ _ _ _ C A) as (ps & F & _). clear -F I. induction F as [|x p ss ps H F IH]; [destruct I|]. destruct I as [<-|I]; [exists p; exact H|exact (IH I)].
Qed.
Lemma required_missing files optional named mode f e r : In f files -> f <> [] -> f <> $"-" -> load f = Missing e -> create_context files optional named mode false <> Ok r.
Proof.
  intros I N1 N2 H A. destruct (command_exists files optional named) as (ss & C). assert (Is : In (Import true f) ss).
  { destruct C. apply in_or_app. right. apply in_or_app. left. apply in_map. exact I. }
  destruct (context_ok_all _ _ _ _ _ _ _ C A _ Is) as (p & Gp). inversion Gp; subst; try congruence; try contradiction. match goal with X : _ \/ _ |- _ => destruct X; discriminate end.
Qed.
Lemma null_fails files optional named mode ig s n kvs r : In s named -> decode_map s = Some kvs -> In (n, VNil) kvs -> create_context files optional named mode ig <> Ok r.
Proof.
  intros I D In' A. destruct (command_exists files optional named) as (ss & C). assert (Is : In (Named n VNil) ss).
  { destruct C as [fs os ns args F]. apply in_or_app. right. apply in_or_app. right. clear A. induction F as [|x a ns args Ax F IH]; [destruct I|]. cbn [concat]. apply in_or_app. destruct I as [<-|I]; [left|right; exact (IH I)].
    rewrite (argument_unique x a _ Ax (arg_data _ x kvs D ltac:(intros ->; destruct In'))). apply in_map_iff. exists (n, VNil). split; [reflexivity|exact In']. }
  destruct (context_ok_all _ _ _ _ _ _ _ C A _ Is) as (p & Gp). inversion Gp; subst. contradiction.
Qed.
Lemma null_panics ig st n : add_def ig {| fd_name := n; fd_value := VNil; fd_unnamed := false; fd_required := false |} st = Panic nil_panic.
Proof. reflexivity. Qed.

(** Skipped sources. *)
Lemma add_app ig a b : forall st, add_defs ig (a ++ b) st = (do st <- add_defs ig a st; add_defs ig b st).
Proof. induction a as [|x a IH]; intro st; [reflexivity|]. cbn [app add_defs]. destruct (add_def ig x st); cbn [bind]; [apply IH|reflexivity|reflexivity]. Qed.
Lemma skipped ig s nv : means s nv -> gives ig s None -> forall st, add_def ig nv st = Ok st.
Proof.
  intros M H st. assert (K : forall f e n u r, f <> [] -> f <> $"-" -> load f = Missing e -> r = false \/ ig = true -> n = [] -> add_def ig {| fd_name := n; fd_value := vstr f; fd_unnamed := u; fd_required := r |} st = Ok st).
  { intros f e n u r N1 N2 Lf Hr ->. rewrite (add_text ig {| fd_name := []; fd_value := vstr f; fd_unnamed := u; fd_required := r |} st f N1 eq_refl). unfold outcome_of. rewrite (proj2 (str_eqb_neq f $"-")) by exact N2. unfold load_file. rewrite Lf. cbv zeta. cbn [fd_name fd_required]. destruct r; [|reflexivity]. destruct Hr as [Hr| ->]; [discriminate|reflexivity]. }
  inversion H; subst; inversion M; subst.
  - eapply K; eauto.
  - match goal with X : gives ig (Import _ _) None |- _ => inversion X; subst end. eapply K; eauto.
  - eapply K; eauto.
Qed.
Lemma skip_optional files optional1 f optional2 named mode ig e : f <> [] -> f <> $"-" -> load f = Missing e ->
  create_context files (optional1 ++ f :: optional2) named mode ig = create_context files (optional1 ++ optional2) named mode ig.
Proof.
  intros N1 N2 H. unfold create_context, all_defs. rewrite !map_app. cbn [map]. rewrite <- !app_assoc. rewrite add_app, (add_app ig (map _ optional1)). f_equal. destruct (add_defs ig (map _ optional1) _); try reflexivity. cbn [bind app add_defs].
  rewrite (skipped ig (Import false f)); [reflexivity|constructor|]. eapply import_missing; eauto.
Qed.
Lemma skip_argument files optional named1 s named2 mode ig e : s <> [] -> s <> $"-" -> decode_map s = None -> ~ In "="%char s -> load s = Missing e ->
  create_context files optional (named1 ++ s :: named2) mode ig = create_context files optional (named1 ++ named2) mode ig.
Proof.
  intros N1 N2 D Ne H. unfold create_context, all_defs. rewrite !flat_map_app. cbn [flat_map]. rewrite !app_assoc. rewrite <- (app_assoc _ (named_defs s)). rewrite <- !app_assoc. rewrite !(app_assoc (map _ files)), !(app_assoc (map _ optional)). rewrite add_app, (add_app ig _ (flat_map named_defs named2)). f_equal.
  destruct (add_defs ig _ _); try reflexivity. cbn [bind]. unfold named_defs at 1. rewrite D. destruct (split2_cases s) as [(n & v & Es & _)|(_ & Q)]; [exfalso; apply Ne; rewrite Es; apply in_or_app; right; left; reflexivity|]. rewrite Q. cbn [app add_defs].
  rewrite (skipped ig (Argument s)); [reflexivity|constructor|]. eapply argument_missing; eauto.
Qed.
End WithEnv.

(** ** Iteration orders *)
Section Order.
Context {E : Env} {L : Files}.
Variable folders : forall d c, load (d ++ [SLASH]) <> Content c.

Lemma stem_unique f a b : stem f a -> stem f b -> a = b.
Proof. intros A B. rewrite <- (stem_eq _ _ A). apply stem_eq. exact B. Qed.
Lemma import_unique ig r f p q : gives ig (Import r f) p -> gives ig (Import r f) q -> p = q.
Proof.
  intros A B. inversion A; subst; inversion B; subst; try reflexivity; try contradiction; try congruence.
  match goal with X : stem f ?a, Y : stem f ?b |- _ => rewrite (stem_unique f a b X Y) end. congruence.
Qed.
Lemma gives_unique ig s p q : gives ig s p -> gives ig s q -> p = q.
Proof.
  intros A B. destruct s as [r f|n v|f].
  - exact (import_unique ig r f p q A B).
  - assert (T : forall f, f <> [] -> is_text (vstr f)) by (intros [|c f] X; [contradiction|exists c, f; reflexivity]).
    inversion A; subst; inversion B; subst; try reflexivity; try contradiction; try congruence;
    try (exfalso; match goal with X : ~ is_text (vstr ?g) |- _ => apply X, T; first [assumption|discriminate] end).
    match goal with X : gives ig (Import false f) p, Y : gives ig (Import false f) q |- _ => exact (import_unique _ _ _ _ _ X Y) end.
  - inversion A; subst; inversion B; subst; try reflexivity; try contradiction; try congruence.
    match goal with X : stem f ?a, Y : stem f ?b |- _ => rewrite (stem_unique f a b X Y) end. congruence.
Qed.
Lemma all_unique ig ss ps qs : Forall2 (gives ig) ss ps -> Forall2 (gives ig) ss qs -> ps = qs.
Proof. intro F. revert qs. induction F as [|s p ss ps H F IH]; intros qs Q; inversion Q; subst; [reflexivity|]. f_equal; [eapply gives_unique; eassumption|apply IH; assumption]. Qed.

Definition like (ig : bool) (a a' : list source) : Prop := forall pa, Forall2 (gives ig) a pa -> exists pa', Forall2 (gives ig) a' pa' /\
  (forall k, last_value k (all_pairs pa) = last_value k (all_pairs pa')) /\ first_type a pa = first_type a' pa' /\ (Forall (fun p => p = None) pa -> Forall (fun p => p = None) pa').
Lemma like_refl ig a : like ig a a.
Proof. intros pa F. exists pa. repeat split; auto. Qed.
Lemma first_app a b pa pb : List.length a = List.length pa -> first_type (a ++ b) (pa ++ pb) = match first_type a pa with Some i => Some i | None => first_type b pb end.
Proof. revert pa. induction a as [|s a IH]; intros [|p pa] Le; try discriminate Le; [reflexivity|]. cbn [app first_type]. destruct p; [reflexivity|]. apply IH. cbn in Le. congruence. Qed.
Lemma Forall2_len {A B} (R : A -> B -> Prop) a b : Forall2 R a b -> List.length a = List.length b.
Proof. induction 1; cbn; congruence. Qed.
Lemma pairs_app a b : all_pairs (a ++ b) = all_pairs a ++ all_pairs b.
Proof. apply flat_map_app. Qed.
Lemma like_app ig a a' b b' : like ig a a' -> like ig b b' -> like ig (a ++ b) (a' ++ b').
Proof.
  intros A B pab F. apply Forall2_app_inv_l in F. destruct F as (pa & pb & Fa & Fb & ->). destruct (A pa Fa) as (pa' & Fa' & La & Ta & Na). destruct (B pb Fb) as (pb' & Fb' & Lb & Tb & Nb).
  exists (pa' ++ pb'). split; [apply Forall2_app; assumption|]. split; [|split].
  - intro k. rewrite !pairs_app, !last_app, La, Lb. reflexivity.
  - rewrite !first_app by (eapply Forall2_len; eassumption). rewrite Ta, Tb. reflexivity.
  - intro N. apply Forall_app in N. apply Forall_app. tauto.
Qed.
Definition source_name (s : source) : str := match s with Named n _ => n | _ => [] end.
Definition is_named (s : source) : Prop := exists n v, s = Named n v /\ n <> [].
Lemma named_part ig s p : is_named s -> gives ig s p -> exists w, p = Some [(source_name s, w)].
Proof. intros (n & v & -> & N) H. inversion H; subst; try contradiction; eexists; reflexivity. Qed.
Lemma named_pairs ig a pa : Forall is_named a -> Forall2 (gives ig) a pa -> mkeys (all_pairs pa) = map source_name a /\ (a = [] \/ first_type a pa = Some dflt) /\ (a <> [] -> ~ Forall (fun p => p = None) pa).
Proof.
  intros N F. induction F as [|s p a pa H F IH]; [split; [reflexivity|split; [left; reflexivity|intros X; contradiction]]|]. inversion N as [|? ? Ns Na]; subst. destruct (named_part ig s p Ns H) as (w & ->). split; [|split].
  - change (all_pairs (Some [(source_name s, w)] :: pa)) with ((source_name s, w) :: all_pairs pa). cbn [mkeys map fst]. f_equal. exact (proj1 (IH Na)).
  - right. cbn [first_type]. destruct Ns as (n & v & -> & Nn). f_equal. apply creates_named. exact Nn.
  - intros _ X. inversion X. discriminate.
Qed.
Lemma like_perm ig a a' : Permutation a a' -> Forall is_named a -> NoDup (map source_name a) -> like ig a a'.
Proof.
  intros Pm N ND pa F. destruct (Permutation_Forall2 Pm F) as (pa' & Pp & F'). exists pa'. split; [exact F'|].
  assert (N' : Forall is_named a') by (eapply Permutation_Forall; eassumption). destruct (named_pairs ig a pa N F) as (K & T & Nn). destruct (named_pairs ig a' pa' N' F') as (K' & T' & Nn'). split; [|split].
  - intro k. assert (Pq : Permutation (all_pairs pa) (all_pairs pa')) by (unfold all_pairs; apply Permutation_flat_map; exact Pp). rewrite !last_mget.
    + apply mget_perm; [rewrite K; exact ND|exact Pq].
    + rewrite K'. eapply Permutation_NoDup; [apply Permutation_map; exact Pm|exact ND].
    + rewrite K. exact ND.
  - destruct T as [->|T].
    + apply Permutation_nil in Pm. subst a'. inversion F; subst. inversion F'; subst. reflexivity.
    + destruct T' as [->|T']; [apply Permutation_sym, Permutation_nil in Pm; subst a; inversion F; subst; discriminate T|]. congruence.
  - intro X. eapply Permutation_Forall; eassumption.
Qed.

Variables dm dm' : str -> option dict.
Variable same : forall s, match dm s, dm' s with
  | Some a, Some b => Permutation a b /\ NoDup (map fst a) /\ ~ In [] (map fst a)
  | None, None => True
  | _, _ => False
  end.
Lemma argument_like ig s a : argument dm s a -> exists a', argument dm' s a' /\ like ig a a'.
Proof.
  intro A. assert (Sm := same). destruct A as [s kvs D N|s D N|n v D N|n v D N Nv|s D N|n D N]; match goal with X : dm ?t = _ |- _ => specialize (Sm t); rewrite X in Sm; destruct (dm' t) as [b|] eqn:D'; try contradiction end.
  - destruct Sm as (Pm & ND & NE). eexists. split; [apply arg_data; [exact D'|]|].
    + intros ->. apply Permutation_sym, Permutation_nil in Pm. contradiction.
    + apply like_perm; [apply Permutation_map; exact Pm| |].
      * apply Forall_forall. intros x I. apply in_map_iff in I. destruct I as ((k, v) & <- & I). exists k, v. split; [reflexivity|]. intros ->. apply NE. apply (in_map fst) in I. exact I.
      * rewrite map_map. exact ND.
  - destruct Sm as (Pm & _). apply Permutation_nil in Pm. subst b. exists []. split; [apply arg_nothing; assumption|apply like_refl].
  - destruct Sm as (Pm & _). apply Permutation_nil in Pm. subst b. eexists. split; [apply arg_empty; assumption|apply like_refl].
  - eexists. split; [apply arg_text; assumption|apply like_refl].
  - eexists. split; [apply arg_file; assumption|apply like_refl].
  - eexists. split; [apply arg_equal; assumption|apply like_refl].
Qed.
Lemma context_order files optional named mode ig r : create_context dm files optional named mode ig = Ok r ->
  exists r', create_context dm' files optional named mode ig = Ok r' /\
  match r, r' with
  | Some (i, m), Some (i', m') => i = i' /\ forall k, mget m k = mget m' k
  | None, None => True
  | _, _ => False
  end.
Proof.
  intro A. destruct (command_exists dm files optional named) as (ss & C). destruct (context_precedence folders dm _ _ _ _ _ _ _ C A) as (ps & F & R).
  destruct C as [fs os ns args Fa]. assert (Ex : exists args', Forall2 (argument dm') ns args' /\ like ig (concat args) (concat args')).
  { clear A F R. induction Fa as [|n a ns args Ha Fa (args' & F' & Lk)]; [exists []; split; [constructor|apply like_refl]|]. destruct (argument_like ig n a Ha) as (a' & Ha' & La). exists (a' :: args'). split; [constructor; assumption|]. cbn [concat]. apply like_app; assumption. }
  destruct Ex as (args' & Fa' & Lk). assert (Lk' := like_app ig _ _ _ _ (like_refl ig (map (Import false) os)) (like_app ig _ _ _ _ (like_refl ig (map (Import true) fs)) Lk)).
  destruct (Lk' ps F) as (ps' & F' & Lv & Ft & Fn). pose proof (command dm' fs os ns args' Fa') as C'. destruct (context_total dm' fs os ns mode ig _ ps' C' F') as (r' & A'). exists r'. split; [exact A'|].
  destruct (context_precedence folders dm' _ _ _ _ _ _ _ C' A') as (qs & Fq & R'). rewrite <- (all_unique _ _ _ _ F' Fq) in R'. destruct r as [(i, m)|], r' as [(i', m')|]; [| | |exact I].
  - destruct R as (R1 & R2 & R3), R' as (R1' & R2' & R3'). assert (i = i') by (destruct mode as [|c mode]; [specialize (R2 eq_refl); specialize (R2' eq_refl); congruence|rewrite R1, R1' by discriminate; reflexivity]). subst i'. split; [reflexivity|]. intro k. rewrite R3, R3', Lv. reflexivity.
  - destruct R' as (-> & N). destruct R as (_ & R2 & _). specialize (R2 eq_refl). rewrite Ft in R2. clear -R2 N. exfalso. revert R2. generalize (map (Import false) os ++ map (Import true) fs ++ concat args') as l. induction N as [|p ps Hp N IH]; intros l X; destruct l; try discriminate X. subst p. exact (IH l X).
  - destruct R as (-> & N). apply Fn in N. destruct R' as (_ & R2 & _). specialize (R2 eq_refl). clear -R2 N. exfalso. revert R2. generalize (map (Import false) os ++ map (Import true) fs ++ concat args') as l. induction N as [|p ps Hp N IH]; intros l X; destruct l; try discriminate X. subst p. exact (IH l X).
Qed.
End Order.
