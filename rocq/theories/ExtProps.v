(** C97, C98: templates defined in extension files and in the files being processed. *)
From Coq Require Import String Ascii List ZArith NArith Bool Permutation.
From Verif Require Import GoStr GoStrFacts ValueModel SearchModel CliModel CliSpec CliProofs ExtModel ExtSpec ExtProofs.
Import ListNotations.

(** ** C97: extensions *)
(** What is loaded was chosen in one of the folders, and nothing is lost. *)
Theorem C97_loaded : forall {T} (empty : T -> bool) nothing files visits x t, (forall f, In f files -> f_path f <> x) -> x <> $"Main" -> orders (process_files empty [] files) visits ->
  mget (load_extensions empty nothing visits) x = Some t -> exists d, chosen empty (defs_in d x files) (t_body t).
Proof. exact @loaded_some. Qed.
Print Assumptions C97_loaded.
Theorem C97_complete : forall {T} (empty : T -> bool) nothing files visits x, (forall f, In f files -> f_path f <> x) -> x <> $"Main" -> orders (process_files empty [] files) visits ->
  mget (load_extensions empty nothing visits) x = None <-> forall d, defs_in d x files = [].
Proof. exact @loaded_none. Qed.
Print Assumptions C97_complete.
(** A template defined in one folder only: the last definition that is not empty. *)
Theorem C97_one_folder : forall {T} (empty : T -> bool) nothing files visits x d b, (forall f, In f files -> f_path f <> x) -> x <> $"Main" -> orders (process_files empty [] files) visits ->
  chosen empty (defs_in d x files) b -> (forall d', d' <> d -> defs_in d' x files = []) -> exists t, mget (load_extensions empty nothing visits) x = Some t /\ t_body t = b.
Proof.
  intros T empty nothing files visits x d b NP NX O C ON. destruct (mget (load_extensions empty nothing visits) x) as [t|] eqn:G.
  - exists t. split; [reflexivity|]. destruct (loaded_some empty nothing files visits x t NP NX O G) as (d' & C'). destruct (eq_str d' d) as [->|N]; [exact (chosen_fun empty _ _ _ C' C)|]. rewrite (ON d' N) in C'. apply chosen_in in C'. destruct C'.
  - pose proof (proj1 (loaded_none empty nothing files visits x NP NX O) G d) as Z. rewrite Z in C. apply chosen_in in C. destruct C.
Qed.
Print Assumptions C97_one_folder.
(** A template defined in several folders: every folder may win, whatever the order of the files is. *)
Theorem C97_any_folder : forall {T} (empty : T -> bool) nothing files x d b, (forall f, In f files -> f_path f <> x) -> x <> $"Main" -> chosen empty (defs_in d x files) b -> empty b = false ->
  exists visits t, orders (process_files empty [] files) visits /\ mget (load_extensions empty nothing visits) x = Some t /\ t_body t = b.
Proof. exact @loaded_any. Qed.
Print Assumptions C97_any_folder.
(** The folders of GOTEMPLATE_PATH in order, those that cannot be searched left out, then the folder of the template. *)
Theorem C97_files : forall search path dirs folder files, trimmed path (join $":" dirs) -> dirs <> [] -> Forall (fun d => d <> [] /\ ~ In ":"%char d) dirs -> search folder = Some files ->
  extension_files search path folder = Some (concat (map (fun d => match search d with Some l => l | None => [] end) dirs) ++ files).
Proof.
  intros search path dirs folder files TR ND F SF. unfold extension_files. rewrite SF. rewrite (trim_unique _ _ TR). f_equal. f_equal.
  assert (SP : split [":"%char] (join [":"%char] dirs) = dirs). { apply split1_join; [exact ND|]. eapply Forall_impl; [|exact F]. intros d (_ & H). exact H. }
  destruct (join $":" dirs) as [|c p] eqn:J.
  - exfalso. destruct dirs as [|d dirs]; [congruence|]. inversion F as [|? ? (NE & _) _]; subst. destruct d as [|c d]; [congruence|]. destruct dirs; discriminate J.
  - rewrite <- J. change $":" with [":"%char]. rewrite SP. rewrite flat_map_concat_map. f_equal. apply map_ext_in. intros d I. destruct (proj1 (Forall_forall _ _) F d I) as (NE & _). destruct d; [congruence|]. destruct (search _); reflexivity.
Qed.
Print Assumptions C97_files.

Definition is_nil (s : str) : bool := str_eqb s [].
Definition files0 : list processed :=
  [Processed $"/lib/a.gte" [($"x", $"one"); ($"/lib/a.gte", [])]; Processed $"/lib/b.gte" [($"/lib/b.gte", $"text"); ($"x", []); ($"y", $"two")];
   Processed $"/work/a.gte" [($"x", $"mine"); ($"/work/a.gte", [])]].
Definition visit0 : list (@table str) := map snd (process_files is_nil [] files0).
Definition get0 (visits : list (@table str)) (x : str) : option str := option_map t_body (mget (load_extensions is_nil [] visits) x).
(** The extensions of the folder of the template come last, and do not override those of GOTEMPLATE_PATH. *)
Theorem C97_override_refuted : exists (T : Type) (empty : T -> bool) nothing files visits x t,
  orders (process_files empty [] files) visits /\ mget (load_extensions empty nothing visits) x = Some t /\ t_parse t = $"/lib/a.gte" /\
  exists f, files = firstn 2 files ++ [f] /\ f_path f = $"/work/a.gte" /\ In x (map fst (f_trees f)).
Proof.
  exists str, is_nil, [], files0, (rev visit0), $"x", (Tree $"/lib/a.gte" $"one"). split; [|split; [vm_compute; reflexivity|]; split; [reflexivity|]].
  - exists (rev visit0). split; [apply Permutation_rev|]. generalize (rev visit0). induction l; constructor; [apply Permutation_refl|assumption].
  - eexists. split; [reflexivity|]. split; [reflexivity|]. left. reflexivity.
Qed.
Print Assumptions C97_override_refuted.
Example C97_example :
  map (get0 visit0) [$"x"; $"y"; $"z"; $"/lib/b.gte"] = [Some $"mine"; Some $"two"; None; None] /\ get0 (rev visit0) $"x" = Some $"one" /\
  extension_files (fun d => if str_eqb d $"/no" then None else Some [d ++ $"/a.gte"]) $" /lib::/no:/b " $"/work" = Some [$"/lib/a.gte"; $"/b/a.gte"; $"/work/a.gte"].
Proof. vm_compute. repeat split. Qed.

(** ** C98: the files being processed *)
(** A template in the files of folder d: the templates of the main template, then the definitions in the files of this
    folder, in order; the files of the other folders do not matter. *)
Theorem C98_context : forall {T} (empty : T -> bool) main files d x, NoDup (map fst main) ->
  match mget (get_context empty main d (process_files empty main files)) x with
  | Some t => chosen empty (brings main x ++ defs_in d x files) (t_body t)
  | None => brings main x ++ defs_in d x files = []
  end.
Proof.
  intros T empty main files d x N. pose proof (context_body empty main files d x N) as B. unfold body in B. destruct (mget (get_context empty main d (process_files empty main files)) x) as [t|]; symmetry in B; [apply picks_chosen, B | apply (picks_none empty), B].
Qed.
Print Assumptions C98_context.
Theorem C98_folders : forall {T} (empty : T -> bool) main files files' d, NoDup (map fst main) -> (forall x, defs_in d x files = defs_in d x files') ->
  forall x, option_map t_body (mget (get_context empty main d (process_files empty main files)) x) = option_map t_body (mget (get_context empty main d (process_files empty main files')) x).
Proof.
  intros T empty main files files' d N E x. pose proof (C98_context empty main files d x N) as A. pose proof (C98_context empty main files' d x N) as B. rewrite <- E in B.
  destruct (mget (get_context empty main d (process_files empty main files)) x) as [t|], (mget (get_context empty main d (process_files empty main files')) x) as [t'|]; cbn [option_map]; [f_equal; exact (chosen_fun empty _ _ _ A B) | rewrite B in A; apply chosen_in in A; destruct A | rewrite A in B; apply chosen_in in B; destruct B | reflexivity].
Qed.
Print Assumptions C98_folders.
(** The same file by a relative and by an absolute name has two contexts. *)
Theorem C98_names_refuted : exists (T : Type) (empty : T -> bool) (main : table) cwd (f g : @processed T) x b,
  path_abs cwd (f_path f) = path_abs cwd (f_path g) /\ f_trees f = [(x, b)] /\
  mget (get_context empty main (path_dir (f_path g)) (process_files empty main [f])) x = None.
Proof. exists str, is_nil, [], $"/work", (Processed $"a/x.gt" [($"t", $"text")]), (Processed $"/work/a/x.gt" []), $"t", $"text". repeat split. Qed.
Print Assumptions C98_names_refuted.
Definition main0 : @table str := [($"Main", Tree $"Main" []); ($"x", Tree $"/work/a.gte" $"ext"); ($"z", Tree $"/work/a.gte" $"zz")].
Example C98_example :
  let c := process_files is_nil main0 [Processed $"p/1.gt" [($"p/1.gt", $"text"); ($"x", $"p")]; Processed $"q/2.gt" [($"q/2.gt", $"text"); ($"y", $"q")]] in
  map (fun d => map (fun x => option_map t_body (mget (get_context is_nil main0 d c) x)) [$"x"; $"y"; $"z"; $"Main"]) [$"p"; $"q"; $"r"] =
  [[Some $"p"; None; Some $"zz"; None]; [Some $"ext"; Some $"q"; Some $"zz"; None]; [Some $"ext"; None; Some $"zz"; None]].
Proof. vm_compute. reflexivity. Qed.
