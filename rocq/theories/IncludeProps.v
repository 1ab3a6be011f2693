(** C48: running a template from a template restores the context of the caller. *)
From Coq Require Import String Ascii List ZArith NArith Bool.
From Verif Require Import GoStr ValueModel ListModel DictModel HeapModel HeapSpec PathModel IncludeModel IncludeSpec IncludeProofs.
Import ListNotations.

(** Whatever the templates do, on success, failure, panic and after the second attempt. *)
Theorem C48_restored : forall {G : Engine} grow d constants folder accept fuel clone source args st st' o,
  run grow d constants folder accept fuel clone source args st = Some (st', o) -> s_context st' = s_context st.
Proof. exact @run_restores. Qed.
Print Assumptions C48_restored.

(** The option missingkey is the previous one or the default. *)
Theorem C48_option : forall {G : Engine} grow d constants folder accept fuel clone source args st st' o,
  run grow d constants folder accept fuel clone source args st = Some (st', o) -> s_error st' = s_error st \/ s_error st' = false.
Proof. exact @run_option. Qed.
Print Assumptions C48_option.

(** What the template gets when it is run with one dictionary: that very dictionary, completed with the
    constants and the context of the caller under the name _.  Its own entries come first.  Nothing else
    is written.  During the run the context of the template is a new dictionary with only the constants
    and _ .  (If a dictionary of the argument has the name of another one, the two are merged, see
    C48_grows for that case.) *)
Theorem C48_argument : forall {G : Engine} grow d constants f i a st st' data m,
  hget (s_heap st) a = Some (OMap m) -> (forall j p, s_context st = HDict j p -> p < List.length (s_heap st)) ->
  (forall k v w, mget m k = Some v -> given constants (s_heap st) (s_context st) k (Some w) -> is_dict v = true -> is_dict w = true -> False) ->
  setup grow d constants f false [HDict i a] st = Some (st', data) ->
  data = HDict i a /\ s_error st' = s_error st /\ s_templates st' = s_templates st /\ only a (s_heap st) (s_heap st') /\
  exists n, s_context st' = HDict d n /\ List.length (s_heap st) <= n /\
    (forall k, given constants (s_heap st) (s_context st) k (mget (map_at (s_heap st') n) k)) /\
    (forall k v, mget m k = Some v -> mget (map_at (s_heap st') a) k = Some v) /\
    (forall k, mget m k = None -> given constants (s_heap st) (s_context st) k (mget (map_at (s_heap st') a) k)).
Proof. exact @setup_argument. Qed.
Print Assumptions C48_argument.
(** With any other arguments (nil excepted) it gets the new dictionary with ARGS; nothing old is written. *)
Theorem C48_args : forall {G : Engine} grow d constants f args st st' data,
  (forall j p, s_context st = HDict j p -> p < List.length (s_heap st)) -> (forall i a, args <> [HDict i a]) -> args <> [HNil] ->
  setup grow d constants f false args st = Some (st', data) ->
  keeps (s_heap st) (s_heap st') /\ s_error st' = s_error st /\ s_templates st' = s_templates st /\
  exists n s, data = HDict d n /\ s_context st' = HDict d n /\ List.length (s_heap st) <= n /\ mget (map_at (s_heap st') n) $"ARGS" = Some (HList d s) /\ contents (s_heap st') s = args /\
    (forall k, k <> $"ARGS" -> given constants (s_heap st) (s_context st) k (mget (map_at (s_heap st') n) k)).
Proof. exact @setup_other. Qed.
Print Assumptions C48_args.
(** In all cases entries are only added to the existing dictionaries. *)
Theorem C48_grows : forall {G : Engine} grow d constants f args st st' data,
  (forall j p, s_context st = HDict j p -> p < List.length (s_heap st)) ->
  setup grow d constants f false args st = Some (st', data) -> grows (s_heap st) (s_heap st').
Proof. exact @setup_grows. Qed.
Print Assumptions C48_grows.
(** For the second attempt the context is cloned, and the argument gets an entry for each of its names. *)
Theorem C48_retry : forall {G : Engine} {V : Env} grow d constants f i a st st' data j p w L,
  s_context st = HDict j p -> reads (s_heap st) (HDict j p) (VDict j w) L -> ddepth (VDict j w) <= f -> a < List.length (s_heap st) ->
  setup grow d constants f true [HDict i a] st = Some (st', data) ->
  data = HDict i a /\ grows (s_heap st) (s_heap st') /\
  (forall k, k = $"_" \/ In k (mkeys (map_at (s_heap st) p)) -> mget (map_at (s_heap st') a) k <> None) /\
  exists n, s_context st' = HDict j n /\ List.length (s_heap st) <= n /\ mget (map_at (s_heap st') n) $"_" = Some (HDict j p) /\
    forall k, In k (mkeys (map_at (s_heap st) p)) -> mget (map_at (s_heap st') n) k <> None.
Proof. intros G V grow d constants f i a st st' data j p w L. exact (setup_retry grow d constants f i a st st' data j p w L). Qed.
Print Assumptions C48_retry.

(** *** An engine for the examples: the text of a template is its name. *)
Definition text_of (v : option hval) : option str := match v with Some (HScal (SStr _ s)) => Some s | _ => None end.
(** {{ .key }} *)
Definition field (data : hval) (key : str) (k : str -> prog) : prog :=
  Look (fun h _ err => match data with
                       | HDict _ p => match text_of (mget (map_at h p) key) with
                                      | Some s => k s
                                      | None => if err then Done [] (Some $"map has no entry") else k $"<no value>"
                                      end
                       | _ => Crash
                       end).
Definition next (o : outcome) (k : str -> prog) : prog := match o with Ret r _ None => k r | Ret _ _ (Some e) => Done [] (Some e) | Panics => Done [] (Some $"panic") end.
Definition bump (p : loc) : prog -> prog := Act (fun h => h_dict_set h p $"n" (HScal (SInt KInt (match mget (map_at h p) $"n" with Some (HScal (SInt _ z)) => z + 1 | _ => 1 end)))).
Definition exec0 (t : str) (data : hval) : prog :=
  if str_eqb t $"value" then field data $"x" (fun s => Done s None)
  else if str_eqb t $"include, value" then Call $"plain" [] (fun o => next o (fun r => field data $"x" (fun s => Done (r ++ $" " ++ s) None)))
  else if str_eqb t $"value, include" then field data $"x" (fun s => Call $"plain" [] (fun o => next o (fun r => Done (s ++ $" " ++ r) None)))
  else if str_eqb t $"include . twice" then Call $"plain" [data] (fun o => next o (fun r => Call $"plain" [data] (fun o => next o (fun r' => Done (r ++ r') None))))
  else if str_eqb t $"count, value" then bump 0 (field data $"x" (fun s => Done s None))
  else if str_eqb t $"fail" then Done $"abc" (Some $"failed")
  else if str_eqb t $"crash" then Crash
  else if str_eqb t $"a@@b" || str_eqb t $"a@b" then field data $"x" (fun s => Done t None)
  else Done t None.
Definition engine0 : Engine := {| tmpl := str; is_empty := fun t => str_eqb t []; parse := fun s => Some (s, []); execute := exec0; read_file := fun _ => Missing; razor := fun s => replace_all $"@@" $"@" s |}.
Definition txt (s : str) : hval := HScal (SStr false s).
Definition run0 (source : str) (args : list hval) (st : @state engine0) := @run engine0 (fun _ n => n) Json [$"NL"] $"/" false 20 false source args st.
(** The context of the caller is the dictionary 0, the dictionary 1 is used as the argument. *)
Definition st0 : @state engine0 := @State engine0 [OMap [($"NL", txt $"!"); ($"x", txt $"hello")]; OMap [($"y", txt $"mine")]] (HDict Json 0) false [].
Definition summary (r : option (@state engine0 * outcome)) : option (outcome * list (list str)) :=
  match r with Some (st, o) => Some (o, map (fun p => mkeys (map_at (s_heap st) p)) [0; 1]) | None => None end.
(** x is not in the argument: the second attempt finds it in the clone of the context, and the argument keeps
    what it was given. *)
Example C48_ex :
  summary (run0 $"value" [HDict Json 1] st0) = Some (Ret $"hello" [] None, [[$"NL"; $"x"]; [$"y"; $"NL"; $"_"; $"x"]]) /\
  summary (run0 $"plain" [HDict Json 1] st0) = Some (Ret $"plain" [] None, [[$"NL"; $"x"]; [$"y"; $"NL"; $"_"]]) /\
  summary (run0 $"plain" [HNil] st0) = Some (Ret $"plain" [] None, [[$"NL"; $"x"]; [$"y"]]) /\
  summary (run0 $"fail" [HDict Json 1] st0) = Some (Ret $"abc" [] (Some $"failed"), [[$"NL"; $"x"]; [$"y"; $"NL"; $"_"; $"x"]]) /\
  summary (run0 $"crash" [] st0) = Some (Panics, [[$"NL"; $"x"]; [$"y"]]) /\
  match run0 $"crash" [] st0 with Some (st, _) => s_context st = HDict Json 0 | None => False end /\
  summary (run0 $"value, include" [] st0) = Some (Ret $"hello plain" [] None, [[$"NL"; $"x"]; [$"y"]]).
Proof. vm_compute. repeat split. Qed.

(** The option is not restored: a template that includes another one goes on with the default, *)
Theorem C48_option_refuted : exists (G : Engine) grow d constants folder accept fuel source args st st' o,
  run grow d constants folder accept fuel false source args st = Some (st', o) /\ s_error st = true /\ s_error st' = false.
Proof. exists engine0, (fun _ n => n), Json, [$"NL"], $"/", false, 20, $"plain", [], (with_error true st0). do 2 eexists. split; [vm_compute; reflexivity|]. vm_compute. auto. Qed.
Print Assumptions C48_option_refuted.
(** so that a name of the context is found before an inner include, but not after it. *)
Theorem C48_after_include_refuted : exists (G : Engine) grow d constants folder accept fuel before_it after_it args st st1 st2,
  run grow d constants folder accept fuel false before_it args st = Some (st1, Ret $"hello plain" [] None) /\
  run grow d constants folder accept fuel false after_it args st = Some (st2, Ret $"plain <no value>" [] (Some $"contains undefined value(s) in plain <no value>")).
Proof. exists engine0, (fun _ n => n), Json, [$"NL"], $"/", false, 20, $"value, include", $"include, value", [], st0. do 2 eexists. split; vm_compute; reflexivity. Qed.
Print Assumptions C48_after_include_refuted.

(** The first attempt may have had effects; they are there twice. *)
Theorem C48_effects_refuted : exists (G : Engine) grow d constants folder accept fuel source args st st' o,
  run grow d constants folder accept fuel false source args st = Some (st', o) /\ o = Ret $"hello" [] None /\ mget (map_at (s_heap st') 0) $"n" = Some (HScal (SInt KInt 2)).
Proof. exists engine0, (fun _ n => n), Json, [$"NL"], $"/", false, 20, $"count, value", [], st0. do 2 eexists. split; [vm_compute; reflexivity|]. vm_compute. auto. Qed.
Print Assumptions C48_effects_refuted.
(** Razor is applied to its own result by the second attempt. *)
Theorem C48_razor_refuted : exists (G : Engine) grow d constants folder accept fuel source args st st' o,
  run grow d constants folder accept fuel false source args st = Some (st', Ret o [] None) /\ razor source = $"a@@b" /\ o = $"a@b".
Proof. exists engine0, (fun _ n => n), Json, [$"NL"], $"/", false, 20, $"a@@@@b", [], st0. do 2 eexists. split; [vm_compute; reflexivity|]. vm_compute. auto. Qed.
Print Assumptions C48_razor_refuted.
(** Running the text "inline" runs the last text that was run. *)
Theorem C48_inline_refuted : exists (G : Engine) grow d constants folder accept fuel st st1 st2 o,
  run grow d constants folder accept fuel false $"inline" [] st = Some (st1, Ret $"inline" [] None) /\
  run grow d constants folder accept fuel false $"hello" [] st = Some (st2, o) /\
  exists st3, run grow d constants folder accept fuel false $"inline" [] st2 = Some (st3, Ret $"hello" [] None).
Proof. exists engine0, (fun _ n => n), Json, [$"NL"], $"/", false, 20, st0. do 3 eexists. split; [vm_compute; reflexivity|]. split; [vm_compute; reflexivity|]. eexists. vm_compute. reflexivity. Qed.
Print Assumptions C48_inline_refuted.

(** *** Cycles *)
(** If the context contains itself, nothing can be run: the recursion has no end. *)
Theorem C48_cyclic : forall {G : Engine} grow d constants folder accept fuel clone source args st,
  source <> [] -> cyclic (s_heap st) (s_context st) -> run grow d constants folder accept fuel clone source args st = None.
Proof. exact @run_cyclic. Qed.
Print Assumptions C48_cyclic.
(** This happens: {{include "a" .}}, where a is {{include "b" .}}{{include "b" .}} and b is plain text.  The
    first include of b merges the context of a in the argument, which has the outer context under the
    name _ already, so that the outer context now contains itself. *)
Definition run1 fuel source st := @run engine0 (fun _ n => n) Json [$"NL"] $"/" false fuel false source [HDict Json 1] st.
(** The state in a, and after the first include of b. *)
Definition st_a : @state engine0 :=
  @State engine0 [OMap [($"NL", txt $"!"); ($"x", txt $"hello")]; OMap [($"y", txt $"mine"); ($"NL", txt $"!"); ($"_", HDict Json 0)]; OMap [($"NL", txt $"!"); ($"_", HDict Json 0)]]
    (HDict Json 2) true [($"inline", $"include . twice")].
Definition st_b : @state engine0 :=
  @State engine0 [OMap [($"NL", txt $"!"); ($"x", txt $"hello"); ($"_", HDict Json 0)]; OMap [($"y", txt $"mine"); ($"NL", txt $"!"); ($"_", HDict Json 0)]; OMap [($"NL", txt $"!"); ($"_", HDict Json 0)];
                  OMap [($"NL", txt $"!"); ($"_", HDict Json 2)]]
    (HDict Json 2) false [($"inline", $"plain")].
Lemma first_b : forall n, run1 (10 + n) $"plain" st_a = Some (st_b, Ret $"plain" [] None).
Proof. intro n. vm_compute. reflexivity. Qed.
Lemma second_b : forall fuel, run1 fuel $"plain" st_b = None.
Proof.
  intro fuel. apply run_cyclic; [discriminate|].
  exists 0, $"_", (HDict Json 0). split; [|split].
  - eapply lt_dict; [right; left; reflexivity|]. constructor.
  - right; right; left. reflexivity.
  - constructor.
Qed.
Theorem C48_twice_refuted : exists (G : Engine) grow d constants folder accept source args st,
  (exists fuel, run grow d constants folder accept fuel false $"plain" args st <> None) /\
  forall fuel, run grow d constants folder accept fuel false source args st = None.
Proof.
  exists engine0, (fun _ n => n), Json, [$"NL"], $"/", false, $"include . twice", [HDict Json 1], st0. split; [exists 20; vm_compute; discriminate|].
  intro fuel. do 11 (destruct fuel as [|fuel]; [vm_compute; reflexivity|]).
  change (S (S (S (S (S (S (S (S (S (S (S fuel))))))))))) with (S (10 + fuel)).
  pose proof (first_b fuel) as A. pose proof (second_b (10 + fuel)) as B. unfold run1 in A, B.
  assert (SETUP : @setup engine0 (fun _ n => n) Json [$"NL"] (10 + fuel) false [HDict Json 1] st0 = Some (with_templates [] (with_error false st_a), HDict Json 1)) by (vm_compute; reflexivity).
  remember (10 + fuel) as f eqn:F. clear F. cbn [run].
  change (match @setup engine0 (fun _ n => n) Json [$"NL"] f false [HDict Json 1] st0 with
          | None => None
          | Some (st1, data) => match find_template $"/" st1 $"include . twice" with
              | (st2, NoTemplate filename e) => Some (with_context (s_context st0) st2, Ret [] filename (Some e))
              | (st2, Template t source filename) =>
                  match interpret (run (fun _ n => n) Json [$"NL"] $"/" false f false) (@execute engine0 t data) (with_error true st2) with
                  | None => None
                  | Some (st3, o) =>
                      let leave st := with_context (s_context st0) (with_error false st) in
                      match o with
                      | None => Some (leave st3, Panics)
                      | Some (_, Some _) =>
                          match run (fun _ n => n) Json [$"NL"] $"/" false f true source [HDict Json 1] (with_context (s_context st0) st3) with
                          | None => None
                          | Some (st4, o) => Some (leave st4, o)
                          end
                      | Some (out, err) => Some (leave st3, finish false source filename out err)
                      end
                  end
              end
          end = None).
  rewrite SETUP.
  assert (FIND : @find_template engine0 $"/" (with_templates [] (with_error false st_a)) $"include . twice" = (with_error false st_a, @Template engine0 ($"include . twice" : @tmpl engine0) $"include . twice" [])) by (vm_compute; reflexivity).
  rewrite FIND.
  change (@execute engine0 ($"include . twice" : @tmpl engine0) (HDict Json 1)) with
    (Call $"plain" [HDict Json 1] (fun o => next o (fun r => Call $"plain" [HDict Json 1] (fun o => next o (fun r' => Done (r ++ r') None))))).
  change (with_error true (with_error false st_a)) with st_a. cbn [interpret]. rewrite A. cbn [interpret next]. rewrite B. reflexivity.
Qed.
Print Assumptions C48_twice_refuted.
