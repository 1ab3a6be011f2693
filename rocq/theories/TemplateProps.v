(** C44: names of result files.  C46: detection of code.  C56: options.  C58: constants.  C65: Merge.  C66: delimiters. *)
From Coq Require Import String Ascii List ZArith NArith Bool Arith.
From Verif Require Import GoStr ValueModel DictModel CliModel PathModel TemplateModel TemplateSpec TemplateProofs ExampleEnv.
Import ListNotations.

(** ** C44 *)

(** The extension is the one from the last dot of the last element. *)
Theorem C44_extension : forall p e, extension p e <-> path_ext p = e.
Proof. intros p e. split; [apply ext_unique|intros <-; apply ext_exists]. Qed.
Print Assumptions C44_extension.

(** The template suffixes are removed, .gt then .template. *)
Theorem C44_suffixes : forall x,
  strip_ext (x ++ $".template.gt") = x /\
  (~ ends x $".template" -> strip_ext (x ++ $".gt") = x) /\
  strip_ext (x ++ $".template") = x /\
  (~ ends x $".gt" -> ~ ends x $".template" -> strip_ext x = x).
Proof. exact strip_cases. Qed.
Print Assumptions C44_suffixes.

(** Other files keep their name. *)
Theorem C44_plain : forall ov src tgt f result n, ~ ends f $".gt" -> ~ ends f $".template" -> get_target_file f src tgt = Ok n ->
  result_name ov src tgt f result = Ok (Some n).
Proof. exact name_plain. Qed.
Print Assumptions C44_plain.

(** Without overwrite, .generated is added before the extension; nothing is saved for a blank result without extension. *)
Theorem C44_template : forall ov src tgt f result a e,
  ends f $".gt" \/ ends f $".template" -> get_target_file (strip_ext f) src tgt = Ok (a ++ e) -> extension (a ++ e) e ->
  result_name ov src tgt f result =
  Ok (if list_eq_dec ascii_dec (trim_space result) [] then
        match e with [] => None | _ => Some (if ov then a ++ e else a ++ $".generated" ++ e) end
      else Some (if ov then a ++ e else a ++ $".generated" ++ e)).
Proof. exact name_template. Qed.
Print Assumptions C44_template.

(** Different names have different generated names. *)
Theorem C44_injective : forall x y, generated x = generated y -> x = y.
Proof. exact generated_inj. Qed.
Print Assumptions C44_injective.

(** Two kinds of templates may have the same result. *)
Theorem C44_collision_refuted : exists f g, f <> g /\ is_template f = true /\ is_template g = true /\
  result_name false $"/s" $"/s" f $"text" = Ok (Some $"/s/x.generated.tf") /\ result_name false $"/s" $"/s" g $"text" = Ok (Some $"/s/x.generated.tf").
Proof. exists $"x.tf.gt", $"x.tf.template". split; [discriminate|]. vm_compute. repeat split. Qed.
Print Assumptions C44_collision_refuted.

Example C44_example :
  result_name false $"/s" $"/s" $"d.e/x.gt" $"text" = Ok (Some $"/s/d.e/x.generated") /\
  result_name true $"/s" $"/t" $"/s/x.tf.template" $"text" = Ok (Some $"/t/x.tf") /\
  result_name false $"/s" $"/s" $"x.gt.template" $"text" = Ok (Some $"/s/x.generated.gt") /\
  result_name true $"/s" $"/s" $"x.template.gt" $" " = Ok None /\
  result_name true $"/s" $"/s" $"x.tf.gt" $" " = Ok (Some $"/s/x.tf") /\
  result_name false $"/s" $"/s" $"x.tf" $"" = Ok (Some $"/s/x.tf").
Proof. vm_compute. repeat split. Qed.

(** ** C46 *)

Theorem C46_razor : forall d t, is_razor d t = true <-> holds t (razor_delim d) /\ ~ holds t $"no-gotemplate!" /\ ~ holds t $"no-razor!".
Proof. exact razor_iff. Qed.
Print Assumptions C46_razor.
Theorem C46_code : forall d t, is_code d t = true <->
  ~ holds t $"no-gotemplate!" /\ (holds t (left_delim d) \/ holds t (right_delim d) \/ holds t (razor_delim d) /\ ~ holds t $"no-razor!").
Proof. exact code_iff. Qed.
Print Assumptions C46_code.
Theorem C46_razor_code : forall d t, is_razor d t = true -> is_code d t = true.
Proof. intros d t H. apply C46_code. apply C46_razor in H. tauto. Qed.
Print Assumptions C46_razor_code.

Example C46_example :
  is_code default_delims $"Hello {{ .x }}" = true /\ is_razor default_delims $"Hello {{ .x }}" = false /\
  is_razor default_delims $"a@b.c" = true /\ is_code default_delims $"a@b.c no-razor!" = false /\
  is_code default_delims $"a@b.c {{ no-razor!" = true /\ is_code default_delims $"{{ @x no-gotemplate!" = false /\ is_code default_delims $"plain { } text" = false.
Proof. vm_compute. repeat split. Qed.

(** ** C56 *)

Theorem C56_set : forall ks o v k, oget (opt_set o v ks) k = if in_dec Nat.eq_dec k ks then v else oget o k.
Proof. exact opt_set_get. Qed.
Print Assumptions C56_set.
Theorem C56_last_wins : forall o v w ks js k, In k js -> oget (opt_set (opt_set o v ks) w js) k = w.
Proof. intros o v w ks js k H. rewrite C56_set. destruct (in_dec Nat.eq_dec k js); [reflexivity|contradiction]. Qed.
Print Assumptions C56_last_wins.
Theorem C56_default : forall k, oget default_options k = true <-> k < 11.
Proof. intro k. rewrite default_get. apply Nat.ltb_lt. Qed.
Print Assumptions C56_default.

(** Whatever contexts were created and options changed before, changing an option of one template changes no other. *)
Theorem C56_isolated : forall abs o folder ops t k v u k', NoDup (map fst o) -> ops_ok abs (start o folder) ops ->
  let h := run_ops abs (start o folder) ops in exists_in h t -> exists_in h u ->
  option_of (set_option h t k v) u k' = if Nat.eqb u t && Nat.eqb k' k then v else option_of h u k'.
Proof. exact options_isolated. Qed.
Print Assumptions C56_isolated.
(** A new context starts with the options of its parent. *)
Theorem C56_child : forall abs o folder ops t fd c h' n, NoDup (map fst o) -> ops_ok abs (start o folder) ops ->
  let h := run_ops abs (start o folder) ops in exists_in h t -> get_new_context abs h t fd c = (h', n) -> ~ exists_in h n ->
  forall k, option_of h' n k = option_of h t k /\ forall u, exists_in h u -> option_of h' u k = option_of h u k.
Proof. exact options_child. Qed.
Print Assumptions C56_child.
(** It is new unless the cache is used, and then asking again gives the same one, with its own options. *)
Theorem C56_fresh : forall abs h t fd h' n, get_new_context abs h t fd false = (h', n) -> ~ exists_in h n.
Proof. exact options_fresh. Qed.
Print Assumptions C56_fresh.
Theorem C56_cached : forall abs h t fd h' n, fd <> [] -> exists_in h t -> get_new_context abs h t fd true = (h', n) -> get_new_context abs h' t fd true = (h', n).
Proof. exact options_twice. Qed.
Print Assumptions C56_cached.

(** A new child works in the folder asked for, made absolute, or else in the one of its parent. *)
Theorem C56_folder : forall abs h t fd c h' n, exists_in h t -> get_new_context abs h t fd c = (h', n) ->
  (c = true -> mget (t_children (tpl_at h t)) (or_default fd (t_folder (tpl_at h t))) = None) ->
  t_folder (tpl_at h' n) = match or_default fd (t_folder (tpl_at h t)) with [] => [] | f => abs f end /\ t_children (tpl_at h' n) = [].
Proof. exact child_folder. Qed.
Print Assumptions C56_folder.

Example C56_example :
  let ops := [NewContext 0 $"/a" true; SetOption 1 o_overwrite true; SetOption 0 o_math false; NewContext 0 $"/a" true; NewContext 0 $"" false; NewContext 1 $"b" true] in
  let h := run_ops (fun s => s) (start default_options $"/w") ops in
  List.length (h_tpls h) = 4 /\ map (fun t => option_of h t o_overwrite) [0; 1; 2; 3] = [false; true; false; true] /\
  map (fun t => option_of h t o_math) [0; 1; 2; 3] = [false; true; false; true] /\
  oget (opt_set (opt_set default_options false [o_razor; o_git]) true [o_git; o_overwrite]) o_git = true.
Proof. vm_compute. repeat split. Qed.

(** ** C58 *)

(** User entries are kept, and only the missing constants are added. *)
Theorem C58_kept : forall m keys k x, mget m k = Some x -> mget (fst (init_constants (m, keys))) k = Some x.
Proof. intros m keys. exact (proj1 (init_grows (m, keys))). Qed.
Print Assumptions C58_kept.
Theorem C58_added : forall m keys k x, mget (fst (init_constants (m, keys))) k = Some x -> mget m k = Some x \/ (mget m k = None /\ constant k x).
Proof. intros m keys. exact (proj2 (init_grows (m, keys))). Qed.
Print Assumptions C58_added.
Theorem C58_twice : forall st, init_constants (init_constants st) = init_constants st.
Proof. exact init_twice. Qed.
Print Assumptions C58_twice.
(** The recorded keys are those of the constants that were added, in the order of the list. *)
Theorem C58_keys : forall m keys, let st := init_constants (m, keys) in
  snd st = keys ++ filter (fun k => match mget m k, mget (fst st) k with None, Some _ => true | _, _ => false end)
                     [$"NL"; $"CR"; $"NEWLINE"; $"true"; $"false"; $"null"].
Proof. exact init_keys. Qed.
Print Assumptions C58_keys.
(** All of them are there when the user gave none the value of the constant. *)
Theorem C58_all : forall m keys, (forall k v, mget m k = Some v -> ~ constant k v) ->
  forall k v, constant k v -> mget (fst (init_constants (m, keys))) k = match mget m k with Some x => Some x | None => Some v end.
Proof. intros m keys. exact (init_all (m, keys)). Qed.
Print Assumptions C58_all.
(** Otherwise some may be missing. *)
Theorem C58_all_refuted : exists m k v, constant k v /\ mget m k = None /\ mget (fst (init_constants (m, []))) k = None.
Proof. exists [($"NL", vstr [NL])], $"CR", (vstr [NL]). split; [left; split; [reflexivity|right; left; reflexivity]|]. vm_compute. split; reflexivity. Qed.
Print Assumptions C58_all_refuted.
(** In a native map with native content they are lost. *)
Theorem C58_native_refuted : exists m, context_constants (VMap 0 m) = VMap 0 m /\ mget m $"NL" = None.
Proof. exists [($"a", VSlice 0 [])]. vm_compute. split; reflexivity. Qed.
Print Assumptions C58_native_refuted.

Example C58_example :
  init_constants ([($"true", vstr $"yes"); ($"a", vint 1); ($"CR", vint 2)], []) =
  ([($"true", vstr $"yes"); ($"a", vint 1); ($"CR", vint 2); ($"NL", vstr [NL]); ($"NEWLINE", vstr [NL]); ($"false", vbool false); ($"null", VNil)],
   [$"NL"; $"NEWLINE"; $"false"; $"null"]) /\
  context_constants (VMap 0 [($"a", vint 1)]) = VMap 0 [($"a", vint 1); ($"NL", vstr [NL]); ($"CR", vstr [NL]); ($"NEWLINE", vstr [NL]); ($"true", vbool true); ($"false", vbool false); ($"null", VNil)].
Proof. vm_compute. repeat split. Qed.

(** ** C65 *)

(** Merge changes only the entry named by the text of a function: no value is merged. *)
Theorem C65_only : forall {E : Env} i ctx values m k, template_merge i ctx values = Ok m -> k <> sprint key_function -> mget m k = mget ctx k.
Proof. exact @merge_only. Qed.
Print Assumptions C65_only.
(** Values that are no dictionary stop the program. *)
Theorem C65_other : forall {E : Env} i ctx values, values <> VNil -> (forall j m, values <> VDict j m) -> (forall j m, values <> VMap j m) -> (forall j m, values <> VMapK j m) ->
  exists m, template_merge i ctx values = Panic m.
Proof. intros E i ctx [] A B C D; try (eexists; reflexivity); exfalso; first [apply A; reflexivity | eapply B; reflexivity | eapply C; reflexivity | eapply D; reflexivity]. Qed.
Print Assumptions C65_other.
Example C65_list : let E := env0 in template_merge Base [($"a", vint 1)] (VList Base [vint 1]) = Panic $"object cannot be converted to dictionary".
Proof. reflexivity. Qed.
Theorem C65_merge_refuted : exists (E : Env) ctx values k v m,
  mget values k = Some v /\ mget ctx k = None /\ template_merge Base ctx (VDict Base values) = Ok m /\ mget m k = None.
Proof.
  exists env0, [], [($"a", vint 1)], $"a", (vint 1). eexists. split; [reflexivity|]. split; [reflexivity|]. split; [reflexivity|]. vm_compute. reflexivity.
Qed.
Print Assumptions C65_merge_refuted.

Example C65_example : let E := env0 in
  let r := template_merge Base [($"a", vint 1)] (VDict Base [($"a", vint 2); ($"b", vint 3)]) in
  match r with Ok m => mget m $"a" = Some (vint 1) /\ mget m $"b" = None /\ List.length m = 2 /\ mget m (sprint key_function) = Some (VDict Base [($"a", vint 2); ($"b", vint 3)]) | _ => False end.
Proof. vm_compute. repeat split. Qed.

(** ** C66 *)

(** Up to three delimiters, empty ones keep the default, more are refused. *)
Theorem C66_one : forall l, ~ In ","%char l -> new_delims l = Some {| left_delim := or_default l $"{{"; right_delim := $"}}"; razor_delim := $"@" |}.
Proof. exact new_delims_one. Qed.
Print Assumptions C66_one.
Theorem C66_two : forall l r, ~ In ","%char l -> ~ In ","%char r ->
  new_delims (l ++ $"," ++ r) = Some {| left_delim := or_default l $"{{"; right_delim := or_default r $"}}"; razor_delim := $"@" |}.
Proof. exact new_delims_two. Qed.
Print Assumptions C66_two.
Theorem C66_three : forall l r z, ~ In ","%char l -> ~ In ","%char r -> ~ In ","%char z ->
  new_delims (l ++ $"," ++ r ++ $"," ++ z) = Some {| left_delim := or_default l $"{{"; right_delim := or_default r $"}}"; razor_delim := or_default z $"@" |}.
Proof. exact new_delims_three. Qed.
Print Assumptions C66_three.
Theorem C66_more : forall t, (count_occ ascii_dec t ","%char > 2)%nat -> new_delims t = None.
Proof. exact new_delims_more. Qed.
Print Assumptions C66_more.
Theorem C66_nonempty : forall t d, new_delims t = Some d -> left_delim d <> [] /\ right_delim d <> [] /\ razor_delim d <> [].
Proof. exact new_delims_nonempty. Qed.
Print Assumptions C66_nonempty.

Example C66_example :
  new_delims $"<<,>>" = Some {| left_delim := $"<<"; right_delim := $">>"; razor_delim := $"@" |} /\
  new_delims $",,#" = Some {| left_delim := $"{{"; right_delim := $"}}"; razor_delim := $"#" |} /\ new_delims $"a,b,c,d" = None.
Proof. vm_compute. repeat split. Qed.
