(** Vocabulary for the processing of files: C42, C43, C45. *)
From Coq Require Import String Ascii List ZArith NArith Bool Arith.
From Verif Require Import GoStr PathSpec TemplateModel TemplateSpec ProcessModel FilesModel.
Import ListNotations.

(** The file at a path, for a process in folder cwd. *)
Definition file_at (cwd : str) (s : fs) (p : str) (f : option file) : Prop := exists w, leads (walk [] cwd) p w /\ fget s (rev w) = f.
(** The text t can be read at path p. *)
Definition reads (cwd : str) (s : fs) (p t : str) : Prop := exists f, file_at cwd s p (Some f) /\ f_text f = t.
(** Two paths lead to the same place. *)
Definition same_place (cwd p q : str) : Prop := exists w, leads (walk [] cwd) p w /\ leads (walk [] cwd) q w.

(** States met while system calls are executed: between them, or with a part of a text written. *)
Inductive instant : fs -> list event -> fs -> Prop :=
| instant_now : forall s es, instant s es s
| instant_later : forall s e es s', instant (effect s e) es s' -> instant s (e :: es) s'
| instant_during : forall s p t u mode es, instant s (Write p (t ++ u) mode :: es) (write s p t mode).

(** The path ends with a name. *)
Definition named (p : str) : Prop := exists a e, p = a ++ e /\ (a = [] \/ exists a', a = a' ++ $"/") /\ ~ In "/"%char e /\ e <> [] /\ e <> $"." /\ e <> $"..".

(** The path is below the source folder: absolute, or relative to the current folder which is the source folder. *)
Definition inside (cwd src p : str) : Prop :=
  (absolute p /\ exists d, d <> [] /\ walk [] p = d ++ walk [] src) \/
  (~ absolute p /\ cwd = src /\ ~ In $".." (split $"/" p) /\ walk [] p <> []).

(** The templates are processed one after the other, each with the option of the caller, until one panics. *)
Inductive chain {G : Engine} (cwd : str) (is_script : str -> bool) (h : option ProcessModel.custom_handler) (stack : nat) (print : bool) (d : delims) (src tgt : str) :
  optset -> ProcessModel.state -> fs -> list str -> list done -> Prop :=
| chain_end : forall o st s, chain cwd is_script h stack print d src tgt o st s [] []
| chain_next : forall o o1 st s f fs r rs,
    (forall k, oget o1 k = if Nat.eqb k o_output_stdout then print else oget o k) ->
    r = process_template cwd is_script h stack o1 d st s f src tgt -> (forall m, d_result r <> Panic m) ->
    chain cwd is_script h stack print d src tgt (d_options r) (d_state r) (effects s (d_events r)) fs rs ->
    chain cwd is_script h stack print d src tgt o st s (f :: fs) (r :: rs)
| chain_panic : forall o o1 st s f fs r m,
    (forall k, oget o1 k = if Nat.eqb k o_output_stdout then print else oget o k) ->
    r = process_template cwd is_script h stack o1 d st s f src tgt -> d_result r = Panic m ->
    chain cwd is_script h stack print d src tgt o st s (f :: fs) [r].
(** The result files and the errors of some results. *)
Definition files_of {G : Engine} (rs : list done) : list str := flat_map (fun r => match d_result r with Ok [] => [] | Ok f => [f] | _ => [] end) rs.
Definition errors_of {G : Engine} (rs : list done) : list str := flat_map (fun r => match d_result r with Err e => [e] | _ => [] end) rs.

(** g is the name f without the suffixes of templates. *)
Definition bare (f g : str) : Prop :=
  f = g ++ $".template.gt" \/ (f = g ++ $".gt" /\ ~ ends g $".template") \/ f = g ++ $".template" \/ (f = g /\ ~ ends f $".gt" /\ ~ ends f $".template").
Definition template_name (f : str) : Prop := ends f $".gt" \/ ends f $".template".
(** A file below the source folder that can be processed, and folders that are the same or do not denote the same place. *)
Definition usual (cwd src tgt f : str) : Prop :=
  absolute cwd /\ absolute src /\ absolute tgt /\ inside cwd src f /\ named f /\ (forall g, bare f g -> named g) /\ (src = tgt \/ walk [] src <> walk [] tgt).
