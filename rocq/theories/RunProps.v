(** C93, C94: commands run and files included from a template. *)
From Coq Require Import String Ascii List ZArith NArith Bool Lia.
From Verif Require Import GoStr ValueModel ListModel DictModel HeapModel PathModel CliModel ReModel ScriptModel IncludeModel IncludeProps RunModel RunSpec RunProofs.
Import ListNotations.

(** ** C93: the command is what the template gives; a file without templating is run itself *)
Theorem C93_command : forall {G : Engine} grow d constants folder accept look glob shell temp show process fuel command args args' st st' text filename err,
  for_command args args' -> run grow d constants folder accept fuel false command args st = Some (st', Ret text filename err) ->
  exists e, run_command grow d constants folder accept look glob shell temp show process fuel command args st = Some (st', Some e) /\
  match err with
  | Some m => e = Ending None None RNone (Some m)
  | None =>
      (filename = [] -> performed process folder (command_from_string look glob shell temp text (map show args')) e) /\
      (filename <> [] -> exists content, read_file filename = Content content /\ text = razor content /\ performed process folder (command_from_file look glob filename content (map show args')) e)
  end.
Proof.
  intros G grow d constants folder accept look glob shell temp show process fuel command args args' st st' text filename err FC R. unfold run_command. rewrite R, (args_for args args' FC). destruct err as [m|]; [eexists; split; reflexivity|].
  assert (P : forall l, performed process folder l (match l_command l with
      | None => Ending (Some l) None RNone (if l_error l then Some no_command else None)
      | Some argv => match process argv folder with inl out => Ending (Some l) (Some (argv, folder)) (RText out) None | inr e => Ending (Some l) (Some (argv, folder)) RNone (Some ($"error " ++ e)) end end)).
  { intros l. destruct (l_command l) as [argv|] eqn:C; [|destruct (l_error l) eqn:Z; constructor; assumption]. destruct (process argv folder) as [out|e] eqn:PR; [apply p_success; assumption | apply (p_failure _ _ _ argv e); [exact C | exact PR | eexists; reflexivity]]. }
  assert (Q : forall l, match l_command l with
      | None => Some (st', Some (Ending (Some l) None RNone (if l_error l then Some no_command else None)))
      | Some argv => match process argv folder with inl out => Some (st', Some (Ending (Some l) (Some (argv, folder)) (RText out) None)) | inr e => Some (st', Some (Ending (Some l) (Some (argv, folder)) RNone (Some ($"error " ++ e)))) end end =
      Some (st', Some (match l_command l with
      | None => Ending (Some l) None RNone (if l_error l then Some no_command else None)
      | Some argv => match process argv folder with inl out => Ending (Some l) (Some (argv, folder)) (RText out) None | inr e => Ending (Some l) (Some (argv, folder)) RNone (Some ($"error " ++ e)) end end))).
  { intros l. destruct (l_command l) as [argv|]; [destruct (process argv folder)|]; reflexivity. }
  cbv zeta. destruct filename as [|c filename].
  - eexists. split; [apply Q|]. split; [intros _; apply P | congruence].
  - destruct (run_file grow d constants folder accept _ _ _ _ _ _ _ _ R ltac:(discriminate)) as (content & RF & TX). rewrite RF. eexists. split; [apply Q|]. split; [discriminate|]. intros _. exists content. split; [reflexivity|]. split; [exact TX | apply P].
Qed.
Print Assumptions C93_command.
(** exec does the same; what the command prints is returned as data when it is some. *)
Theorem C93_exec : forall {G : Engine} grow d constants folder accept look glob shell temp show process as_data fuel command args st st' e,
  run_command grow d constants folder accept look glob shell temp show process fuel command args st = Some (st', Some e) ->
  exists e', exec_command grow d constants folder accept look glob shell temp show process as_data fuel command args st = Some (st', Some e') /\
  e_launch e' = e_launch e /\ e_process e' = e_process e /\ e_error e' = e_error e /\
  match e_value e, e_error e with
  | RText t, None => (forall v, as_data t = Some v -> e_value e' = RData v) /\ (as_data t = None -> e_value e' = RText t)
  | v, _ => e_value e' = v
  end.
Proof.
  intros G grow d constants folder accept look glob shell temp show process as_data fuel command args st st' [l p v err] R. unfold exec_command. rewrite R. destruct v as [|t|v]; destruct err as [m|]; try (eexists; split; [reflexivity|]; repeat split; fail).
  eexists. split; [reflexivity|]. cbn [e_launch e_process e_error e_value]. split; [reflexivity|]. split; [reflexivity|]. split; [reflexivity|]. split; [intros v -> | intros ->]; reflexivity.
Qed.
Print Assumptions C93_exec.

(** An engine with files; [[x]] stands for a template that prints x, without the brackets. *)
Definition script : str := $"#!/bin/sh" ++ NL :: $"echo $1".
Definition exec1 (t : str) (data : hval) : prog :=
  if str_eqb t $"value" then field data $"x" (fun s => Done s None)
  else Done (replace_all $"]]" [] (replace_all $"[[" [] t)) None.
Definition files1 (f : str) : reading :=
  if str_eqb f $"/s.sh" then Content script
  else if str_eqb f $"/t.sh" then Content ($"[[" ++ script ++ $"]]")
  else if str_eqb f $"/m.sh" then Content ($"#!/bin/sh" ++ NL :: $"echo a@@b")
  else if str_eqb f $"/hello" then Content $"hello"
  else if str_eqb f $"/v" then Content $"value"
  else if str_eqb f $"/value" then Content $"secret"
  else Missing.
Definition engine1 : Engine := {| tmpl := str; is_empty := fun t => str_eqb t []; parse := fun s => Some (s, []); execute := exec1; read_file := files1; razor := fun s => replace_all $"@@" $"@" s |}.
Definition st1 : @state engine1 := @State engine1 [OMap [($"NL", txt $"!"); ($"x", txt $"hello")]; OMap []] (HDict Json 0) false [].
Definition show1 (v : hval) : str := match v with HScal (SStr _ s) => s | _ => $"?" end.
Definition process1 (argv : list str) (dir : str) : str + str := match argv with p :: _ => if str_eqb p $"false" then inr $"1" else inl $"[1]" | [] => inr [] end.
Definition look1 (s : str) : bool := mem_str s [$"ls"; $"false"].
Definition run1 (source : str) (args : list hval) := @run engine1 (fun _ n => n) Json [$"NL"] $"/" false 20 false source args st1.
Definition cmd1 (source : str) (args : list hval) : option ending :=
  match @run_command engine1 (fun _ n => n) Json [$"NL"] $"/" false look1 (fun _ => None) $"/bin/bash" $"/tmp/e" show1 process1 20 source args st1 with Some (_, e) => e | None => None end.
Definition exec_1 (source : str) (args : list hval) : option returned :=
  match @exec_command engine1 (fun _ n => n) Json [$"NL"] $"/" false look1 (fun _ => None) $"/bin/bash" $"/tmp/e" show1 process1 (fun s => if str_eqb s $"[1]" then Some (HScal (SInt KInt 1)) else None) 20 source args st1 with Some (_, Some e) => Some (e_value e) | _ => None end.
Definition incl1 (source : str) (args : list hval) : option (str * option str) :=
  match @include engine1 (fun _ n => n) Json [$"NL"] $"/" false 20 source args st1 with Some (_, e) => e | None => None end.
Definition outcome1 (source : str) (args : list hval) : option outcome := option_map snd (run1 source args).

Example C93_example :
  option_map e_process (cmd1 $"ls" [txt $"-l"; txt $"a"]) = Some (Some ([$"ls"; $"-l"; $"a"], $"/")) /\
  option_map e_process (cmd1 $"ls" [HDict Json 1]) = Some (Some ([$"ls"], $"/")) /\
  option_map e_process (cmd1 $"s.sh" [txt $"x"]) = Some (Some ([$"/bin/sh"; $"/s.sh"; $"x"], $"/")) /\
  cmd1 $"[[lss]]" [] = Some (Ending (Some {| l_command := None; l_temp := None; l_error := true |}) None RNone (Some no_command)) /\
  option_map e_error (cmd1 $"false" []) = Some (Some $"error 1") /\
  exec_1 $"ls" [] = Some (RData (HScal (SInt KInt 1))).
Proof. vm_compute. repeat split. Qed.

(** ** C94: files *)
(** "If the content is different from the source, that is because the source contains templating" (extra_runtime.go:529):
    a script that only uses razor is run as it was before razor. *)
Theorem C94_razor_refuted : exists (G : Engine) grow d constants folder accept look glob shell temp show process fuel command st content text,
  read_file (join2 folder command) = Content content /\ razor content = text /\ text <> content /\
  (exists st', run grow d constants folder accept fuel false command [] st = Some (st', Ret text (join2 folder command) None)) /\
  exists st' l v, run_command grow d constants folder accept look glob shell temp show process fuel command [] st = Some (st', Some (Ending (Some l) (Some ([$"/bin/sh"; join2 folder command], folder)) v None)) /\ l_temp l = None.
Proof.
  exists engine1, (fun _ n => n), Json, [$"NL"], $"/", false, look1, (fun _ => None), $"/bin/bash", $"/tmp/e", show1, process1, 20, $"m.sh", st1. do 2 eexists. split; [vm_compute; reflexivity|]. split; [vm_compute; reflexivity|]. split; [discriminate|].
  split; [eexists; vm_compute; reflexivity|]. do 3 eexists. split; vm_compute; reflexivity.
Qed.
Print Assumptions C94_razor_refuted.
(** Two script files that give the same text, one of them by templating: the arguments are given to the first one, and
    are written at the end of the last line of the other. *)
Theorem C94_arguments_refuted : exists (G : Engine) grow d constants folder accept look glob shell temp show process fuel a b x st text,
  (exists st' f, run grow d constants folder accept fuel false a [x] st = Some (st', Ret text f None)) /\
  (exists st' f, run grow d constants folder accept fuel false b [x] st = Some (st', Ret text f None)) /\
  (exists st' l v, run_command grow d constants folder accept look glob shell temp show process fuel a [x] st = Some (st', Some (Ending (Some l) (Some ([$"/bin/sh"; join2 folder a; show x], folder)) v None))) /\
  (exists st' l v c, run_command grow d constants folder accept look glob shell temp show process fuel b [x] st = Some (st', Some (Ending (Some l) (Some ([$"/bin/sh"; temp], folder)) v None)) /\
    l_temp l = Some (c ++ $"echo $1 " ++ show x ++ [NL])).
Proof.
  exists engine1, (fun _ n => n), Json, [$"NL"], $"/", false, look1, (fun _ => None), $"/bin/bash", $"/tmp/e", show1, process1, 20, $"s.sh", $"t.sh", (txt $"x"), st1, script.
  split; [do 2 eexists; vm_compute; reflexivity|]. split; [do 2 eexists; vm_compute; reflexivity|]. split; [do 3 eexists; vm_compute; reflexivity|].
  do 3 eexists. exists ($"#! /bin/sh " ++ [NL]). split; vm_compute; reflexivity.
Qed.
Print Assumptions C94_arguments_refuted.
(** The second attempt takes the text of the file for the name of another file. *)
Theorem C94_retry_refuted : exists (G : Engine) grow d constants folder accept fuel a b st text t,
  read_file (join2 folder a) = Content b /\ parse (razor b) = Some (t, []) /\ (forall data, includes_nothing (execute t data)) /\ read_file (join2 folder b) = Content text /\
  exists st', run grow d constants folder accept fuel false a [] st = Some (st', Ret text (join2 folder b) None).
Proof.
  exists engine1, (fun _ n => n), Json, [$"NL"], $"/", false, 20, $"v", $"value", st1, $"secret", $"value". split; [reflexivity|]. split; [reflexivity|]. split.
  - intros data. change (@execute engine1 $"value" data) with (field data $"x" (fun s => Done s None)). unfold field. constructor. intros h v b. destruct data; try constructor. destruct (text_of _); [constructor | destruct b; constructor].
  - split; [reflexivity|]. eexists. vm_compute. reflexivity.
Qed.
Print Assumptions C94_retry_refuted.
(** include refuses a text that is not the name of a template nor of a file, and that has no templating. *)
Theorem C94_include : forall {G : Engine} grow d constants folder accept fuel source args st st' r, plain_text folder source st ->
  accept = true \/ contains $"<nil>" source = false /\ contains no_value source = false ->
  include grow d constants folder accept fuel source args st = Some (st', r) ->
  r = Some ([], Some ($"unable to find a template or a file named " ++ source)).
Proof.
  intros G grow d constants folder accept [|f] source args st st' r PT NV I; [discriminate I|]. destruct (setup grow d constants f false args st) as [[st1 data]|] eqn:SE.
  - assert (TE : s_templates st1 = s_templates st). { pose proof SE as X. unfold setup in X. destruct (new_context _ _ _ _ _ _ _) as [[[h i] n]|]; [|discriminate X]. destruct (with_arguments _ _ _ _ _ _) as [[h' d']|]; [|discriminate X]. injection X as <- _. reflexivity. }
    destruct (run_plain grow d constants folder accept f source args st st1 data PT NV SE TE) as (st2 & R). unfold include in I. rewrite R in I. rewrite (proj2 (GoStrFacts.str_eqb_eq source source) eq_refl) in I. injection I as _ <-. reflexivity.
  - unfold include in I. cbn [IncludeModel.run] in I. destruct source; [destruct PT as (PT & _); congruence|]. rewrite SE in I. discriminate I.
Qed.
Print Assumptions C94_include.
(** Otherwise it gives what the template gives. *)
Theorem C94_included : forall {G : Engine} grow d constants folder accept fuel source args st st' text filename err,
  run grow d constants folder accept fuel false source args st = Some (st', Ret text filename err) -> text <> source ->
  include grow d constants folder accept fuel source args st = Some (st', Some (text, err)).
Proof.
  intros G grow d constants folder accept fuel source args st st' text filename err R N. unfold include. rewrite R. destruct (str_eqb source text) eqn:X; [|reflexivity]. apply GoStrFacts.str_eqb_eq in X. congruence.
Qed.
Print Assumptions C94_included.
(** A file is "not found" when its text is its name. *)
Theorem C94_include_refuted : exists (G : Engine) grow d constants folder accept fuel source st,
  read_file (join2 folder source) = Content source /\
  exists st', include grow d constants folder accept fuel source [] st = Some (st', Some ([], Some ($"unable to find a template or a file named " ++ source))).
Proof. exists engine1, (fun _ n => n), Json, [$"NL"], $"/", false, 20, $"hello", st1. split; [reflexivity|]. eexists. vm_compute. reflexivity. Qed.
Print Assumptions C94_include_refuted.
Example C94_example :
  incl1 $"hullo" [] = Some ([], Some $"unable to find a template or a file named hullo") /\ incl1 $"v" [] = Some ($"secret", None) /\
  incl1 $"s.sh" [] = Some (script, None) /\ incl1 $"[[a]]" [] = Some ($"a", None).
Proof. vm_compute. repeat split. Qed.
