(** C42: file effects of one template.  C43: backups of repeated runs.  C45: batches.  C67: terraform files on the standard output. *)
From Coq Require Import String Ascii List ZArith NArith Bool Arith.
From Verif Require Import GoStr PathModel PathSpec TemplateModel TemplateSpec ProcessModel ProcessProps FilesModel FilesSpec FilesProofs.
Import ListNotations.

(** ** C42 *)

(** An unchanged file processed in place is left alone. *)
Theorem C42_untouched : forall {G : Engine} cwd is_script h stack o d st s f src t o' st' result, absolute cwd -> file_at cwd s f (Some t) ->
  process_with h stack o d st f (f_text t) = (o', st', Ok (result, false, None)) -> d_events (process_template cwd is_script h stack o d st s f src src) = [].
Proof. intros G cwd is_script h stack o d st s f src t o' st' result A. exact (process_untouched cwd is_script A h stack o d st s f src t o' st' result). Qed.
Print Assumptions C42_untouched.
(** Nothing is written when the processing fails. *)
Theorem C42_failed : forall {G : Engine} cwd is_script h stack o d st s f src tgt e, absolute cwd ->
  d_result (process_template cwd is_script h stack o d st s f src tgt) = Err e -> d_events (process_template cwd is_script h stack o d st s f src tgt) = [].
Proof. intros G cwd is_script h stack o d st s f src tgt e A. exact (process_error cwd is_script A h stack o d st s f src tgt e). Qed.
Print Assumptions C42_failed.
(** At every instant, only the template, its .original and the result file differ. *)
Theorem C42_frame : forall {G : Engine} cwd is_script h stack o d st s f src tgt s', absolute cwd ->
  let r := process_template cwd is_script h stack o d st s f src tgt in instant s (d_events r) s' ->
  forall q, ~ same_place cwd q f -> ~ same_place cwd q (f ++ $".original") -> (forall name, d_result r = Ok name -> ~ same_place cwd q name) ->
  forall t, file_at cwd s' q t <-> file_at cwd s q t.
Proof. intros G cwd is_script h stack o d st s f src tgt s' A. exact (process_frame cwd is_script A h stack o d st s f src tgt s'). Qed.
Print Assumptions C42_frame.
(** Without overwrite, the file processed can be read at every instant, under its own name or as .original. *)
Theorem C42_readable : forall {G : Engine} cwd is_script h stack o d st s f src tgt t s', usual cwd src tgt f -> file_at cwd s f (Some t) ->
  instant s (d_events (process_template cwd is_script h stack o d st s f src tgt)) s' -> oget o o_overwrite = false ->
  file_at cwd s' f (Some t) \/ (~ template_name f /\ src = tgt /\ file_at cwd s' (f ++ $".original") (Some t)).
Proof. exact @files_readable. Qed.
Print Assumptions C42_readable.
(** With another target folder, it is never touched. *)
Theorem C42_elsewhere : forall {G : Engine} cwd is_script h stack o d st s f src tgt t s', usual cwd src tgt f -> file_at cwd s f (Some t) -> src <> tgt ->
  instant s (d_events (process_template cwd is_script h stack o d st s f src tgt)) s' -> file_at cwd s' f (Some t).
Proof. exact @files_elsewhere. Qed.
Print Assumptions C42_elsewhere.
(** A template is removed when its result is complete. *)
Theorem C42_template : forall {G : Engine} cwd is_script h stack o d st s f src t s', usual cwd src src f -> file_at cwd s f (Some t) -> template_name f ->
  instant s (d_events (process_template cwd is_script h stack o d st s f src src)) s' -> file_at cwd s' f (Some t) \/
     exists name g o' st' changed, d_result (process_template cwd is_script h stack o d st s f src src) = Ok name /\ file_at cwd s' name (Some g) /\ process_with h stack o d st f (f_text t) = (o', st', Ok (f_text g, changed, None)).
Proof. exact @files_template. Qed.
Print Assumptions C42_template.
(** At the end. *)
Theorem C42_final : forall {G : Engine} cwd is_script h stack o d st s f src tgt, usual cwd src tgt f -> d_events (process_template cwd is_script h stack o d st s f src tgt) <> [] ->
  let s' := effects s (d_events (process_template cwd is_script h stack o d st s f src tgt)) in
  exists t result changed name o' st' mode, file_at cwd s f (Some t) /\ process_with h stack o d st f (f_text t) = (o', st', Ok (result, changed, None)) /\
    d_result (process_template cwd is_script h stack o d st s f src tgt) = Ok name /\ file_at cwd s' name (Some {| f_text := result; f_mode := mode |}) /\
    (file_at cwd s name None \/ (src = tgt /\ ~ template_name f /\ oget o o_overwrite = false) -> mode = if is_script result then 493%N else f_mode t) /\
    (src <> tgt -> file_at cwd s' f (Some t)) /\
    (src = tgt -> template_name f -> file_at cwd s' f (if oget o o_overwrite then None else Some t)) /\
    (src = tgt -> ~ template_name f -> same_place cwd name f /\ (oget o o_overwrite = false -> file_at cwd s' (f ++ $".original") (Some t))).
Proof. exact @files_final. Qed.
Print Assumptions C42_final.

Definition no_script (s : str) : bool := false.
Definition silent : optset := oset (oset default_options o_output_stdout false) o_overwrite false.
(** With overwrite, a crash while the result is written loses the file. *)
Theorem C42_overwrite_refuted : exists (G : Engine) o st (s : fs) f s', oget o o_overwrite = true /\ reads $"/w" s f $"a {{x}}" /\
  instant s (d_events (process_template $"/w" no_script None 5 o default_delims st s f $"/w" $"/w")) s' /\ forall p x, fget s' p = Some x -> f_text x = $"a".
Proof.
  exists engine0, (oset silent o_overwrite true), 0, [([$"w"; $"f"], {| f_text := $"a {{x}}"; f_mode := 420 |})], $"f", (write [([$"w"; $"f"], {| f_text := $"a {{x}}"; f_mode := 420 |})] [$"w"; $"f"] $"a" 420).
  split; [reflexivity|]. split; [|split].
  - exists {| f_text := $"a {{x}}"; f_mode := 420 |}. split; [|reflexivity]. apply file_at_iff; [exists $"w"; reflexivity|reflexivity].
  - match goal with |- instant _ ?es _ => replace es with [Write [$"w"; $"f"] ($"a" ++ $" 1") 420] by (vm_compute; reflexivity) end. apply instant_during.
  - intros p x. rewrite fget_write. destruct (place_eqb p [$"w"; $"f"]) eqn:E; [intro H; inversion H; reflexivity|]. cbn [fget]. rewrite E. discriminate.
Qed.
Print Assumptions C42_overwrite_refuted.
(** A file outside of the source folder is replaced without a backup, as is one in a folder with two names. *)
Theorem C42_outside_refuted : exists (G : Engine) o st (s : fs) f src tgt, oget o o_overwrite = false /\ src <> tgt /\ file_at $"/a" s f (Some {| f_text := $"a {{x}}"; f_mode := 420 |}) /\
  effects s (d_events (process_template $"/a" no_script None 5 o default_delims st s f src tgt)) = [([$"a"; $"f"], {| f_text := $"a 1"; f_mode := 420 |})].
Proof.
  exists engine0, silent, 0, [([$"a"; $"f"], {| f_text := $"a {{x}}"; f_mode := 420 |})], $"/a/f", $"/a/b", $"/a/c". split; [reflexivity|]. split; [discriminate|]. split; [|vm_compute; reflexivity].
  apply file_at_iff; [exists $"a"; reflexivity|reflexivity].
Qed.
Print Assumptions C42_outside_refuted.
Theorem C42_names_refuted : exists (G : Engine) o st (s : fs) f src tgt, oget o o_overwrite = false /\ same_place $"/a" src tgt /\ file_at $"/a" s f (Some {| f_text := $"a {{x}}"; f_mode := 420 |}) /\
  effects s (d_events (process_template $"/a" no_script None 5 o default_delims st s f src tgt)) = [([$"a"; $"f"], {| f_text := $"a 1"; f_mode := 420 |})].
Proof.
  exists engine0, silent, 0, [([$"a"; $"f"], {| f_text := $"a {{x}}"; f_mode := 420 |})], $"f", $"/a", $"/a/". split; [reflexivity|]. split; [apply same_iff; [exists $"a"; reflexivity|reflexivity]|]. split; [|vm_compute; reflexivity].
  apply file_at_iff; [exists $"a"; reflexivity|reflexivity].
Qed.
Print Assumptions C42_names_refuted.

Example C42_example :
  let G := engine0 in let s := [([$"w"; $"f"], {| f_text := $"a {{x}}"; f_mode := 420 |}); ([$"w"; $"t.txt.gt"], {| f_text := $"b {{x}}"; f_mode := 384 |}); ([$"w"; $"p"], {| f_text := $"plain"; f_mode := 420 |})]%N in
  let run o f src tgt := let r := process_template $"/w" (has_prefix $"#!") None 5 o default_delims 0 s f src tgt in (d_result r, d_events r) in
  run silent $"f" $"/w" $"/w" = (Ok $"/w/f", [Rename [$"w"; $"f"] [$"w"; $"f.original"]; Write [$"w"; $"f"] $"a 1" 420]) /\
  run silent $"t.txt.gt" $"/w" $"/w" = (Ok $"/w/t.generated.txt", [Write [$"w"; $"t.generated.txt"] $"b 1" 384]) /\
  run (oset silent o_overwrite true) $"t.txt.gt" $"/w" $"/w" = (Ok $"/w/t.txt", [Write [$"w"; $"t.txt"] $"b 1" 384; Remove [$"w"; $"t.txt.gt"]]) /\
  run silent $"p" $"/w" $"/w" = (Ok [], []) /\
  run silent $"f" $"/w" $"/x/y" = (Ok $"/x/y/f", [Mkdir [$"x"; $"y"]; Write [$"x"; $"y"; $"f"] $"a 1" 420]) /\
  run silent $"none" $"/w" $"/w" = (Err $"open none: no such file or directory", []).
Proof. vm_compute. repeat split. Qed.

(** ** C43 *)

(** After two runs that change the file, its first text is in neither place. *)
Theorem C43_twice : forall {G : Engine} cwd is_script h stack o d st h2 stack2 o2 d2 st2 s f src t, usual cwd src src f -> ~ template_name f ->
  oget o o_overwrite = false -> oget o2 o_overwrite = false -> file_at cwd s f (Some t) ->
  let r1 := process_template cwd is_script h stack o d st s f src src in let s1 := effects s (d_events r1) in
  let r2 := process_template cwd is_script h2 stack2 o2 d2 st2 s1 f src src in let s2 := effects s1 (d_events r2) in
  d_events r1 <> [] -> d_events r2 <> [] ->
  exists t1 t2, (exists o' st' c, process_with h stack o d st f (f_text t) = (o', st', Ok (f_text t1, c, None))) /\
    (exists o' st' c, process_with h2 stack2 o2 d2 st2 f (f_text t1) = (o', st', Ok (f_text t2, c, None))) /\
    file_at cwd s2 f (Some t2) /\ file_at cwd s2 (f ++ $".original") (Some t1) /\
    forall q x, ~ same_place cwd q f -> ~ same_place cwd q (f ++ $".original") -> file_at cwd s2 q x <-> file_at cwd s q x.
Proof. exact @files_twice. Qed.
Print Assumptions C43_twice.

Example C43_example :
  let G := engine0 in let s := [([$"w"; $"f"], {| f_text := $"{{bad}}{{x}}@{{x}}"; f_mode := 420 |})]%N in
  let h : option custom_handler := Some (fun st _ source r => (st, (source ++ $"!", true, None))) in
  let s1 := effects s (d_events (process_template $"/w" no_script h 5 silent default_delims 0 s $"f" $"/w" $"/w")) in
  let s2 := effects s1 (d_events (process_template $"/w" no_script h 5 silent default_delims 0 s1 $"f" $"/w" $"/w")) in
  map (fun x => (fst x, f_text (snd x))) s1 = [([$"w"; $"f"], $"{{bad}}{{x}}@{{x}}!"); ([$"w"; $"f.original"], $"{{bad}}{{x}}@{{x}}")] /\
  map (fun x => (fst x, f_text (snd x))) s2 = [([$"w"; $"f"], $"{{bad}}{{x}}@{{x}}!!"); ([$"w"; $"f.original"], $"{{bad}}{{x}}@{{x}}!")].
Proof. vm_compute. split; reflexivity. Qed.

(** ** C45 *)

(** All templates are processed in order whatever fails, each with the option of the caller. *)
Theorem C45_batch : forall {G : Engine} cwd is_script h stack o d st s folder src tgt l, src <> [] -> tgt <> [] -> let b := process_templates cwd is_script h stack o d st s folder src tgt l in
  exists rs, chain cwd is_script h stack (oget o o_output_stdout) d src tgt o st s l rs /\
    b_files b = files_of rs /\ b_errors b = errors_of rs /\ b_printed b = flat_map d_printed rs /\
    b_fs b = effects s (flat_map d_events rs) /\ (b_panic b = None <-> List.length rs = List.length l /\ forall r m, In r rs -> d_result r <> Panic m).
Proof. exact @process_templates_chain. Qed.
Print Assumptions C45_batch.
(** A file without result name (an empty result, see C46) is not reported and nothing is done. *)
Theorem C45_nothing : forall {G : Engine} cwd is_script h stack o d st s f src tgt t o' st' result changed, absolute cwd -> file_at cwd s f (Some t) ->
  process_with h stack o d st f (f_text t) = (o', st', Ok (result, changed, None)) -> result_name (oget o' o_overwrite) src tgt f result = Ok None ->
  let r := process_template cwd is_script h stack o d st s f src tgt in d_result r = Ok [] /\ d_events r = [] /\ d_printed r = [] /\ files_of [r] = [] /\ errors_of [r] = [].
Proof.
  intros G cwd is_script h stack o d st s f src tgt t o' st' result changed A F P N. apply (file_at_iff cwd s _ _ A) in F.
  unfold process_template. rewrite F, P, N. repeat split.
Qed.
Print Assumptions C45_nothing.
Theorem C45_folder : forall {G : Engine} cwd is_script h stack o d st s folder src tgt l,
  process_templates cwd is_script h stack o d st s folder [] tgt l = process_templates cwd is_script h stack o d st s folder folder tgt l /\
  process_templates cwd is_script h stack o d st s folder src [] l = process_templates cwd is_script h stack o d st s folder src folder l.
Proof. intros. unfold process_templates. split; destruct folder; reflexivity. Qed.
Print Assumptions C45_folder.
(** The option may have changed after the last one. *)
Theorem C45_option_refuted : exists (G : Engine) o st s l, oget o o_output_stdout = false /\ oget (b_options (process_templates $"/w" no_script None 5 o default_delims st s $"/w" $"/w" $"/w" l)) o_output_stdout = true.
Proof.
  exists engine0, silent, 0, [([$"w"; $"f"], {| f_text := $"#! gotemplate" ++ NL :: $"{{x}}"; f_mode := 420 |})], [$"f"]. split; vm_compute; reflexivity.
Qed.
Print Assumptions C45_option_refuted.

Example C45_example :
  let G := engine0 in let s := [([$"w"; $"f"], {| f_text := $"a {{x}}"; f_mode := 420 |}); ([$"w"; $"s"], {| f_text := $"#! gotemplate" ++ NL :: $"s {{x}}"; f_mode := 384 |}); ([$"w"; $"e.gt"], {| f_text := $"{{worse}}"; f_mode := 384 |}); ([$"w"; $"p"], {| f_text := $"p {{x}}"; f_mode := 420 |})]%N in
  let b := process_templates $"/w" no_script None 5 silent default_delims 0 s $"/w" [] [] [$"s"; $"f"; $"e.gt"; $"none"; $"p"] in
  b_files b = [$"/w/f"; $"/w/p"] /\ b_errors b = [$"worse is worse"; $"open none: no such file or directory"] /\ b_printed b = [$"s 1"] /\ b_panic b = None /\
  map fst (b_fs b) = [[$"w"; $"p"]; [$"w"; $"p.original"]; [$"w"; $"f"]; [$"w"; $"f.original"]; [$"w"; $"s"]; [$"w"; $"e.gt"]].
Proof. vm_compute. repeat split. Qed.

(** ** C67 *)

(** A result on the standard output is printed as it is and no file is touched, but results named as terraform files panic. *)
Theorem C67_printed : forall {G : Engine} cwd is_script h stack o d st s f src tgt t o' st' result changed name, absolute cwd -> file_at cwd s f (Some t) ->
  process_with h stack o d st f (f_text t) = (o', st', Ok (result, changed, None)) -> result_name (oget o o_overwrite) src tgt f result = Ok (Some name) -> oget o' o_output_stdout = true ->
  let r := process_template cwd is_script h stack o d st s f src tgt in d_events r = [] /\
  if existsb (fun e => has_suffix e name) [$".tf"; $".tf.json"; $".tfvars"] then (exists m, d_result r = Panic m) /\ d_printed r = [] else d_result r = Ok [] /\ d_printed r = [result].
Proof. intros G cwd is_script h stack o d st s f src tgt t o' st' result changed name A. exact (printed cwd is_script A h stack o d st s f src tgt t o' st' result changed name). Qed.
Print Assumptions C67_printed.
(** A template given as code: nothing but blanks prints nothing, otherwise the result is printed with a newline at its end. *)
Theorem C67_code : forall {G : Engine} cwd is_script h stack o d st s template src tgt o' st' result changed, absolute cwd -> file_at cwd s template None -> is_code d template = true ->
  process_with h stack o d st $"." template = (o', st', Ok (result, changed, None)) ->
  let r := process_template cwd is_script h stack o d st s template src tgt in
  d_events r = [] /\ d_result r = Ok [] /\
  (Forall (fun c => c = " "%char \/ c = TAB) result -> d_printed r = []) /\
  (~ Forall (fun c => c = " "%char \/ c = TAB) result -> exists text, d_printed r = [text ++ [NL]] /\
    (result = text ++ [NL] \/ (result = text /\ forall t, result <> t ++ [NL]))).
Proof.
  intros G cwd is_script h stack o d st s template src tgt o' st' result changed A F C P.
  apply (file_at_iff cwd s _ _ A) in F. unfold process_template. rewrite F, C, P. cbn [d_events d_result d_printed]. split; [reflexivity|]. split; [reflexivity|].
  assert (B : blank_right result = true <-> Forall (fun c => c = " "%char \/ c = TAB) result).
  { unfold blank_right. rewrite forallb_forall, Forall_forall. split; intros H c I; specialize (H c I).
    - apply orb_true_iff in H. rewrite !Ascii.eqb_eq in H. exact H.
    - apply orb_true_iff. rewrite !Ascii.eqb_eq. exact H. }
  split; intros H.
  - apply B in H. rewrite H. reflexivity.
  - destruct (blank_right result) eqn:Q; [exfalso; apply H; apply B; reflexivity|].
    destruct (has_suffix [NL] result) eqn:SF.
    + apply GoStrFacts.has_suffix_iff in SF. destruct SF as [t E]. exists t. rewrite E. split; [reflexivity | left; reflexivity].
    + exists result. split; [reflexivity|]. right. split; [reflexivity|]. intros t E.
      assert (T : has_suffix [NL] result = true) by (apply GoStrFacts.has_suffix_iff; exists t; exact E). congruence.
Qed.
Print Assumptions C67_code.

Example C67_example :
  let G := engine0 in let s := [([$"w"; $"f.tf"], {| f_text := $"a {{x}}"; f_mode := 420 |}); ([$"w"; $"f"], {| f_text := $"b {{x}}"; f_mode := 420 |})]%N in
  let run f := let r := process_template $"/w" no_script None 5 (oset silent o_output_stdout true) default_delims 0 s f $"/w" $"/w" in (d_result r, d_printed r) in
  fst (run $"f.tf") = Panic $"interface conversion: interface {} is *os.File, not string" /\ run $"f" = (Ok [], [$"b 1"]).
Proof. vm_compute. split; reflexivity. Qed.
