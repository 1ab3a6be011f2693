(** C49: functions defined in a template see their arguments, the defaults and the context. *)
From Coq Require Import String Ascii List ZArith NArith Bool.
From Verif Require Import GoStr Utf8 ValueModel ListModel DictModel DataModel HeapModel HeapSpec PathModel IncludeModel IncludeSpec IncludeProofs IncludeProps AliasModel AliasSpec AliasProofs.
Import ListNotations.

(** *** The configuration of a function *)
(** In whatever order the map is visited, each setting has the value given under any of its names. *)
Theorem C49_settings : forall cfg sched, sound cfg -> visits cfg sched ->
  exists cfg', configure sched cfg = Ok cfg' /\ (forall k v, In (k, v) cfg -> mget cfg' k = Some v) /\ forall name v, words name <> [] -> mget cfg' name = Some v <-> says cfg name v.
Proof. exact configure_settings. Qed.
Print Assumptions C49_settings.
Theorem C49_unknown : forall cfg sched key v, visits cfg sched -> NoDup (map fst cfg) -> In (key, v) cfg -> (forall name, ~ means key name) -> exists e, configure sched cfg = Err e.
Proof. exact configure_wrong. Qed.
Print Assumptions C49_unknown.
(** The function that results; the name of an argument is its first word. *)
Theorem C49_definition : forall {V : Env} cfg sched, sound cfg -> visits cfg sched -> forall fi, define sched cfg = Ok fi ->
  (forall s, says cfg $"group" (vstr s) -> s <> [] -> f_group fi = s) /\ ((forall v, says cfg $"group" v -> v = vstr []) -> f_group fi = $"User defined functions") /\
  (forall s, says cfg $"description" (vstr s) -> f_description fi = s) /\ ((forall v, ~ says cfg $"description" v) -> f_description fi = []) /\
  (forall i l, says cfg $"args" (VList i l) -> f_in fi = join $", " (map sprint l) /\ Forall2 (fun v w => exists r, fields (sprint v) = w :: r) l (f_arguments fi)) /\
  ((forall v, ~ says cfg $"args" v) -> f_arguments fi = []) /\
  (forall i l, says cfg $"aliases" (VList i l) -> f_aliases fi = map sprint l) /\ ((forall v, ~ says cfg $"aliases" v) -> f_aliases fi = []) /\
  (forall i m, says cfg $"def" (VDict i m) -> m <> [] -> f_defaults fi = VDict i m) /\ ((forall v, ~ says cfg $"def" v) -> f_defaults fi = VDict dflt []).
Proof. exact @define_info. Qed.
Print Assumptions C49_definition.
Theorem C49_defined : forall {V : Env} cfg sched, sound cfg -> visits cfg sched ->
  (forall v, says cfg $"group" v \/ says cfg $"description" v -> exists s, v = vstr s) -> (forall i l v, says cfg $"args" (VList i l) -> In v l -> fields (sprint v) <> []) ->
  exists fi, define sched cfg = Ok fi.
Proof. exact @define_ok. Qed.
Print Assumptions C49_defined.
Definition env1 : Env := {| fmtx := fun _ => []; dflt := Json |}.
Example C49_definition_ex : let V := env1 in
  let cfg := [($"D", vstr $"text"); ($"Args", VList Json [vstr $"a int"; vstr $" b"]); ($"DEFAULTS", VDict Json [($"b", vint 1)])] in
  define [$"D"; $"DEFAULTS"; $"def"; $"Args"] cfg = Ok (FInfo $"User defined functions" $"text" [$"a"; $"b"] $"a int,  b" [] (VDict Json [($"b", vint 1)])) /\
  define [$"D"] [($"D", vint 1)] = Panic $"interface conversion" /\
  define [$"x"] [($"x", vint 1)] = Err $"unknown configuration x" /\ define [$"a"] [($"a", vint 1)] = Err $"a must be a list or a dictionary".
Proof. vm_compute. repeat split. Qed.
(** A setting given under two names has one or the other value, depending on the order of the visits. *)
Theorem C49_settings_refuted : exists cfg sched sched' c c', visits cfg sched /\ visits cfg sched' /\ NoDup sched /\ NoDup sched' /\
  configure sched cfg = Ok c /\ configure sched' cfg = Ok c' /\ mget c $"group" = Some (vstr $"one") /\ mget c' $"group" = Some (vstr $"two").
Proof.
  exists [($"g", vstr $"one"); ($"Group", vstr $"two")], [$"Group"; $"g"], [$"g"; $"Group"]. do 2 eexists.
  split; [intros x [<-|[<-|[]]]; [right; left; reflexivity|left; reflexivity]|]. split; [intros x [<-|[<-|[]]]; [left; reflexivity|right; left; reflexivity]|].
  split; [repeat constructor; [intros [X|[]]; discriminate|intros []]|]. split; [repeat constructor; [intros [X|[]]; discriminate|intros []]|]. split; [vm_compute; reflexivity|]. split; [vm_compute; reflexivity|]. split; reflexivity.
Qed.
Print Assumptions C49_settings_refuted.
(** A blank argument name is a panic, not an error. *)
Theorem C49_blank_refuted : exists (V : Env) cfg sched, sound cfg /\ visits cfg sched /\ define sched cfg = Panic $"index out of range".
Proof.
  exists env1, [($"args", VList Json [vstr $" "])], [$"args"]. split; [|split; [intros x I; exact I|vm_compute; reflexivity]].
  split; [repeat constructor; intros []|]. split.
  - intros key v [E|[]]. inversion E; subst. exists $"args". split; [apply mem_words; vm_compute; reflexivity|apply suits_kind; reflexivity].
  - intros key key' name [<-|[]] [<-|[]] _ _. reflexivity.
Qed.
Print Assumptions C49_blank_refuted.

(** *** Calls *)
(** One dictionary: for each name the argument comes first, then the default, then the context.  The
    dictionaries only get entries; if none has a dictionary under the same name as another, nothing is
    written and the function sees nothing else. *)
Theorem C49_dictionary : forall d convert names defaults fuel i a h j p h' r, wellformed h -> p < List.length h -> a < List.length h -> defaults < List.length h -> List.length names <> 1 ->
  call_context d convert names defaults fuel [HDict i a] h (HDict j p) = Some (h', r) ->
  r = Some (List.length h) /\ grows h h' /\ (map_at h p = [] -> mget (map_at h' (List.length h)) $"DEFAULT" = Some (HDict j p)) /\
  (forall k v, map_at h p <> [] \/ k <> $"DEFAULT" -> first_of [mget (map_at h a) k; mget (map_at h defaults) k; mget (map_at h p) k] = Some v -> mget (map_at h' (List.length h)) k = Some v) /\
  (map_at h p <> [] -> disjoint h a defaults -> disjoint h a p -> disjoint h defaults p ->
     keeps h h' /\ forall k, mget (map_at h' (List.length h)) k = first_of [mget (map_at h a) k; mget (map_at h defaults) k; mget (map_at h p) k]).
Proof. exact call_dictionary. Qed.
Print Assumptions C49_dictionary.
(** A text that can be read as a dictionary is one. *)
Theorem C49_text : forall d convert names defaults fuel i a s h j p hc h' r, wellformed h -> p < List.length h -> map_at h p <> [] -> defaults < List.length h -> List.length names <> 1 ->
  convert (h ++ [OMap []]) s = Some (hc, HDict i a) -> fresh_data (h ++ [OMap []]) hc -> List.length h < a ->
  call_context d convert names defaults fuel [HScal (SStr false s)] h (HDict j p) = Some (h', r) ->
  r = Some (List.length h) /\ grows h h' /\
  (forall k v, first_of [mget (map_at hc a) k; mget (map_at h defaults) k; mget (map_at h p) k] = Some v -> mget (map_at h' (List.length h)) k = Some v).
Proof. exact call_text. Qed.
Print Assumptions C49_text.
(** Other arguments: the declared names in order, the rest under ARGS, then the defaults and the context. *)
Theorem C49_positional : forall d convert names defaults fuel args h j p h' r, wellformed h -> p < List.length h -> defaults < List.length h -> positional convert names args ->
  call_context d convert names defaults fuel args h (HDict j p) = Some (h', r) ->
  r = Some (List.length h) /\ grows h h' /\
  (List.length names < List.length args -> exists s, mget (map_at h' (List.length h)) $"ARGS" = Some (HList d s) /\ contents h' s = skipn (List.length names) args) /\
  (forall k v, List.length args <= List.length names \/ k <> $"ARGS" -> bound names args k v -> mget (map_at h' (List.length h)) k = Some v) /\
  (forall k v, List.length args <= List.length names \/ k <> $"ARGS" -> (forall w, ~ bound names args k w) -> map_at h p <> [] \/ k <> $"DEFAULT" -> first_of [mget (map_at h defaults) k; mget (map_at h p) k] = Some v -> mget (map_at h' (List.length h)) k = Some v) /\
  (map_at h p <> [] -> disjoint h defaults p -> keeps h h' /\ forall k, List.length args <= List.length names \/ k <> $"ARGS" -> (forall w, ~ bound names args k w) -> mget (map_at h' (List.length h)) k = first_of [mget (map_at h defaults) k; mget (map_at h p) k]).
Proof. exact call_positional. Qed.
Print Assumptions C49_positional.
(** After the call the context is the one of the caller. *)
Theorem C49_restored : forall {G : Engine} grow d constants folder accept convert names defaults source fuel args st st' o,
  call grow d constants folder accept convert names defaults source fuel args st = Some (st', o) -> s_context st' = s_context st.
Proof. exact @call_restores. Qed.
Print Assumptions C49_restored.

(** The context is the dictionary 0, the defaults are the dictionary 1, the argument is the dictionary 2. *)
Definition h0 : heap := [OMap [($"x", txt $"cx"); ($"y", txt $"cy"); ($"z", txt $"cz")]; OMap [($"y", txt $"dy"); ($"x", txt $"dx")]; OMap [($"x", txt $"ax")]].
Definition no_data (h : heap) (s : str) : option (heap * hval) := None.
(** 7 is a number, - an empty list. *)
Definition some_data (h : heap) (s : str) : option (heap * hval) :=
  if str_eqb s $"007" then Some (h, HScal (SInt KInt 7)) else if str_eqb s $"x: t" then Some (h ++ [OMap [($"x", txt $"t")]], HDict Json (List.length h)) else None.
Definition seen (r : option (heap * option loc)) (ks : list str) : option (list (option hval)) :=
  match r with Some (h, Some n) => Some (map (mget (map_at h n)) ks) | _ => None end.
Example C49_calls_ex :
  let names := [$"p"; $"y"] in let call args := call_context Json some_data names 1 9 args h0 (HDict Json 0) in let ks := [$"p"; $"x"; $"y"; $"z"] in
  seen (call [HDict Json 2]) ks = Some [None; Some (txt $"ax"); Some (txt $"dy"); Some (txt $"cz")] /\
  seen (call [txt $"x: t"]) ks = Some [None; Some (txt $"t"); Some (txt $"dy"); Some (txt $"cz")] /\
  seen (call [txt $"1"]) ks = Some [Some (txt $"1"); Some (txt $"dx"); Some (txt $"dy"); Some (txt $"cz")] /\
  seen (call [txt $"1"; txt $"2"]) ks = Some [Some (txt $"1"); Some (txt $"dx"); Some (txt $"2"); Some (txt $"cz")] /\
  match call [txt $"1"; txt $"2"; txt $"3"; txt $"4"] with
  | Some (h, Some n) => match mget (map_at h n) $"ARGS" with Some (HList _ s) => contents h s = [txt $"3"; txt $"4"] | _ => False end
  | _ => False
  end /\
  seen (call []) ks = Some [None; Some (txt $"dx"); Some (txt $"dy"); Some (txt $"cz")] /\
  seen (call_context Json some_data [$"x"] 1 9 [HDict Json 2] h0 (HDict Json 0)) ks = Some [None; Some (HDict Json 2); Some (txt $"dy"); Some (txt $"cz")] /\
  seen (call_context Json some_data names 1 9 [HNil] h0 HNil) ($"DEFAULT" :: ks) = Some [Some HNil; None; Some (txt $"dx"); Some (txt $"dy"); None].
Proof. vm_compute. repeat split. Qed.

(** A text given alone is replaced by the data it can be read as, but not when one argument is declared. *)
Theorem C49_number_refuted : exists convert h c s, forall k1 k2, k1 <> k2 ->
  seen (call_context Json convert [k1] 1 9 [txt s] h c) [k1] = Some [Some (txt s)] /\ seen (call_context Json convert [k1; k2] 1 9 [txt s] h c) [k1] = Some [Some (HScal (SInt KInt 7))].
Proof.
  exists some_data, [OMap []; OMap []], (HDict Json 0), $"007". intros k1 k2 NE. split.
  - assert (X : bind_arguments Json 9 (h_dict_set ([OMap []; OMap []; OMap []]) 2 $"DEFAULT" (HDict Json 0)) 2 [k1] [txt $"007"] = Some (h_dict_set (h_dict_set ([OMap []; OMap []; OMap []]) 2 $"DEFAULT" (HDict Json 0)) 2 k1 (txt $"007"))) by (vm_compute; reflexivity).
    change (call_context Json some_data [k1] 1 9 [txt $"007"] [OMap []; OMap []] (HDict Json 0)) with (match bind_arguments Json 9 (h_dict_set ([OMap []; OMap []; OMap []]) 2 $"DEFAULT" (HDict Json 0)) 2 [k1] [txt $"007"] with Some h' => Some (h', Some 2) | None => None end).
    rewrite X. cbn [seen map]. rewrite map_set_eq by (vm_compute; repeat constructor). rewrite ValueFacts.mget_mset_eq. reflexivity.
  - assert (X : bind_arguments Json 9 (h_dict_set ([OMap []; OMap []; OMap []]) 2 $"DEFAULT" (HDict Json 0)) 2 [k1; k2] [HScal (SInt KInt 7)] = Some (h_dict_set (h_dict_set ([OMap []; OMap []; OMap []]) 2 $"DEFAULT" (HDict Json 0)) 2 k1 (HScal (SInt KInt 7)))) by (vm_compute; reflexivity).
    change (call_context Json some_data [k1; k2] 1 9 [txt $"007"] [OMap []; OMap []] (HDict Json 0)) with (match bind_arguments Json 9 (h_dict_set ([OMap []; OMap []; OMap []]) 2 $"DEFAULT" (HDict Json 0)) 2 [k1; k2] [HScal (SInt KInt 7)] with Some h' => Some (h', Some 2) | None => None end).
    rewrite X. cbn [seen map]. rewrite map_set_eq by (vm_compute; repeat constructor). rewrite ValueFacts.mget_mset_eq. reflexivity.
Qed.
Print Assumptions C49_number_refuted.
(** Nested defaults are filled in from the context of the first call, and the next calls see that instead
    of their own context. *)
Definition inside (r : option (heap * option loc)) (k k' : str) : option hval :=
  match r with Some (h, Some n) => match mget (map_at h n) k with Some (HDict _ q) => mget (map_at h q) k' | _ => None end | _ => None end.
Theorem C49_leak_refuted : exists d convert names defaults fuel h c c' h1 r, wellformed h /\
  call_context d convert names defaults fuel [] h c = Some (h1, r) /\
  inside (call_context d convert names defaults fuel [] h c') $"opt" $"a" = Some (txt $"second") /\
  inside (call_context d convert names defaults fuel [] h1 c') $"opt" $"a" = Some (txt $"first").
Proof.
  exists Json, no_data, [], 0, 9, [OMap [($"opt", HDict Json 1)]; OMap []; OMap [($"opt", HDict Json 3)]; OMap [($"a", txt $"first")]; OMap [($"opt", HDict Json 5)]; OMap [($"a", txt $"second")]], (HDict Json 2), (HDict Json 4). do 2 eexists.
  split; [|split; [vm_compute; reflexivity|split; vm_compute; reflexivity]]. split.
  - intros p k i q. do 6 (destruct p as [|p]; [cbn; repeat (match goal with |- context [if ?b then _ else _] => destruct b end); intro X; inversion X; subst; repeat constructor|]). destruct p; discriminate.
  - intro p. do 6 (destruct p as [|p]; [cbn; repeat constructor; intros []|]). destruct p; constructor.
Qed.
Print Assumptions C49_leak_refuted.
(** A dictionary inside the argument is filled in too. *)
Theorem C49_argument_leak_refuted : exists d convert names defaults fuel h i a c h' r q,
  call_context d convert names defaults fuel [HDict i a] h c = Some (h', r) /\ mget (map_at h a) $"opt" = Some (HDict i q) /\ map_at h q = [] /\ mget (map_at h' q) $"secret" = Some (txt $"s").
Proof.
  exists Json, no_data, [], 0, 9, [OMap []; OMap [($"opt", HDict Json 2)]; OMap []; OMap [($"opt", HDict Json 4)]; OMap [($"secret", txt $"s")]], Json, 1, (HDict Json 3). do 2 eexists. exists 2. repeat split.
Qed.
Print Assumptions C49_argument_leak_refuted.
(** Called from an included template, the function writes the context of that template in the outer
    context, which afterwards contains itself: nothing more can be included or called (C48_cyclic). *)
Definition outer_st : @state engine0 := @State engine0 [OMap [($"v", txt $"outer")]; OMap []; OMap [($"_", HDict Json 0); ($"w", txt $"inner")]] (HDict Json 2) false [].
Theorem C49_outer_refuted : exists (G : Engine) grow d constants folder accept convert names defaults source fuel st st' o,
  call grow d constants folder accept convert names defaults source fuel [] st = Some (st', o) /\ o = Ret $"plain" [] None /\
  mget (map_at (s_heap st) 0) $"w" = None /\ mget (map_at (s_heap st') 0) $"w" = Some (txt $"inner") /\ cyclic (s_heap st') (s_context st') /\
  forall fuel clone source args, source <> [] -> run grow d constants folder accept fuel clone source args st' = None.
Proof.
  exists engine0, (fun _ n => n), Json, [], $"/", false, no_data, [], 1, $"plain", 9, outer_st. do 2 eexists. split; [vm_compute; reflexivity|]. split; [reflexivity|]. split; [reflexivity|]. split; [reflexivity|].
  match goal with |- ?C /\ _ => assert (CY : C) end.
  { exists 0, $"_", (HDict Json 0). split; [|split].
    - eapply lt_dict; [left; reflexivity|]. apply lt_here.
    - vm_compute. tauto.
    - apply lt_here. }
  split; [exact CY|]. intros fuel clone source args NS. apply run_cyclic; [exact NS|exact CY].
Qed.
Print Assumptions C49_outer_refuted.
