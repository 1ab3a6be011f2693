(** C53: the variables given on the command line. *)
From Coq Require Import String Ascii List ZArith NArith Bool Permutation.
From Verif Require Import GoStr ValueModel PathModel ContextModel ContextSpec ContextProofs ExampleEnv.
Import ListNotations.
Local Notation dict := (list (str * value)).

(** The value of a variable is the last one given by the sources of the command line, optional imports
    first, then imports, then named variables; a nil context only comes from nothing. *)
Theorem C53_precedence : forall {E : Env} {L : Files}, (forall d c, load (d ++ [SLASH]) <> Content c) ->
  forall decode_map files optional named mode ignore r ss, command_line decode_map files optional named ss ->
  create_context decode_map files optional named mode ignore = Ok r ->
  exists ps, Forall2 (gives ignore) ss ps /\
  match r with
  | None => mode = [] /\ Forall (fun p => p = None) ps
  | Some (i, m) => (mode <> [] -> i = dflt) /\ (mode = [] -> first_type ss ps = Some i) /\ forall k, mget m k = option_map (conv i) (last_value k (all_pairs ps))
  end.
Proof. exact @context_precedence. Qed.
Print Assumptions C53_precedence.

(** Each command line has sources, and there is a context if each of them gives something or is skipped. *)
Theorem C53_total : forall {E : Env} {L : Files} decode_map files optional named mode ignore,
  (exists ss, command_line decode_map files optional named ss) /\
  forall ss ps, command_line decode_map files optional named ss -> Forall2 (gives ignore) ss ps -> exists r, create_context decode_map files optional named mode ignore = Ok r.
Proof. intros E L dm files optional named mode ignore. split; [exact (command_exists dm files optional named)|intros ss ps; exact (context_total dm files optional named mode ignore ss ps)]. Qed.
Print Assumptions C53_total.

Definition files0 : Files := {|
  load := fun f => if str_eqb f $"d/a.json" then Content (VDict Json [($"x", vint 1); ($"y", vint 2)])
                   else if str_eqb f $"b.yml" then Content (VDict Yaml [($"y", vint 3); ($"z", nm_ [("k"%string, vint 4)])])
                   else if str_eqb f $"l.txt" then Content (nl_ [vint 5]) else Missing $"no such file";
  decode := fun s => if str_eqb s $"12" then Some (vint 12) else None;
  stdin_data := [] |}.
Definition data0 (s : str) : option dict :=
  if str_eqb s $"v=12" then Some [($"v", vstr $"12")] else if str_eqb s $"{n: l.txt, x: true}" then Some [($"n", vstr $"l.txt"); ($"x", vbool true)] else None.
Example C53_ex : let E := env0 in let L := files0 in
  create_context data0 [$"d/a.json"; $"l.txt"] [$"b.yml"; $"none.yml"] [$"v=12"; $"{n: l.txt, x: true}"; $"w=text"; $"dropped"] [] false =
  Ok (Some (Base, [($"y", vint 2); ($"z", VDict Base [($"k", vint 4)]); ($"x", vbool true); ($"l", VList Base [vint 5]); ($"v", vint 12); ($"n", VList Base [vint 5]); ($"w", vstr $"text")])) /\
  create_context data0 [$"d/a.json"] [] [] [] false = Ok (Some (Json, [($"x", vint 1); ($"y", vint 2)])).
Proof. vm_compute. split; reflexivity. Qed.

(** A required file that is missing is an error, ... *)
Theorem C53_required : forall {E : Env} {L : Files}, (forall d c, load (d ++ [SLASH]) <> Content c) -> forall decode_map files optional named mode f e r,
  In f files -> f <> [] -> f <> $"-" -> load f = Missing e -> create_context decode_map files optional named mode false <> Ok r.
Proof. exact @required_missing. Qed.
Print Assumptions C53_required.
(** ... an optional file is skipped, ... *)
Theorem C53_optional : forall {E : Env} {L : Files} decode_map files optional1 f optional2 named mode ignore e, f <> [] -> f <> $"-" -> load f = Missing e ->
  create_context decode_map files (optional1 ++ f :: optional2) named mode ignore = create_context decode_map files (optional1 ++ optional2) named mode ignore.
Proof. exact @skip_optional. Qed.
Print Assumptions C53_optional.
(** ... and an argument that is neither a file, nor data, nor an assignment is dropped silently. *)
Theorem C53_dropped : forall {E : Env} {L : Files} decode_map files optional named1 s named2 mode ignore e, s <> [] -> s <> $"-" -> decode_map s = None -> ~ In "="%char s -> load s = Missing e ->
  create_context decode_map files optional (named1 ++ s :: named2) mode ignore = create_context decode_map files optional (named1 ++ named2) mode ignore.
Proof. exact @skip_argument. Qed.
Print Assumptions C53_dropped.
Example C53_required_ex : let E := env0 in let L := files0 in
  create_context data0 [$"none.yml"; $"b.yml"] [] [] [] false = Err $"error no such file while loading variable file none.yml" /\
  create_context data0 [$"none.yml"; $"b.yml"] [] [] [] true = create_context data0 [$"b.yml"] [] [] [] true /\ create_context data0 [] [] [$"dropped"] [] true = Ok None.
Proof. vm_compute. repeat split. Qed.

(** A variable whose value is null makes the program panic. *)
Theorem C53_null : forall {E : Env} {L : Files}, (forall d c, load (d ++ [SLASH]) <> Content c) -> forall decode_map files optional named mode ignore s n kvs r,
  In s named -> decode_map s = Some kvs -> In (n, VNil) kvs -> create_context decode_map files optional named mode ignore <> Ok r.
Proof. exact @null_fails. Qed.
Print Assumptions C53_null.
Theorem C53_null_refuted : exists (E : Env) (L : Files) decode_map s, decode_map s = Some [($"a", VNil)] /\
  create_context decode_map [] [] [s] [] false = Panic $"reflect: call of reflect.Value.Interface on zero Value".
Proof. exists env0, files0, (fun _ => Some [($"a", VNil)]), $"a: null". vm_compute. split; reflexivity. Qed.
Print Assumptions C53_null_refuted.

(** The text given to a variable is not kept when a file has that name. *)
Theorem C53_text_refuted : exists (E : Env) (L : Files) decode_map s, decode_map s = None /\ s = $"v=l.txt" /\
  create_context decode_map [] [] [s] [] false = Ok (Some (Base, [($"v", VList Base [vint 5])])).
Proof. exists env0, files0, data0, $"v=l.txt". vm_compute. repeat split. Qed.
Print Assumptions C53_text_refuted.

(** The iteration order of the data of an argument does not matter if all names are not empty, ... *)
Theorem C53_order : forall {E : Env} {L : Files}, (forall d c, load (d ++ [SLASH]) <> Content c) -> forall dm dm' : str -> option dict,
  (forall s, match dm s, dm' s with
   | Some a, Some b => Permutation a b /\ NoDup (map fst a) /\ ~ In [] (map fst a)
   | None, None => True
   | _, _ => False
   end) ->
  forall files optional named mode ignore r, create_context dm files optional named mode ignore = Ok r ->
  exists r', create_context dm' files optional named mode ignore = Ok r' /\
  match r, r' with
  | Some (i, m), Some (i', m') => i = i' /\ forall k, mget m k = mget m' k
  | None, None => True
  | _, _ => False
  end.
Proof. exact @context_order. Qed.
Print Assumptions C53_order.
Example C53_order_ex : let E := env0 in let L := files0 in
  let a := [($"x", vstr $"b.yml"); ($"y", vint 1)] in let b := [($"y", vint 1); ($"x", vstr $"b.yml")] in
  match create_context (fun _ => Some a) [] [] [$"data"] [] false, create_context (fun _ => Some b) [] [] [$"data"] [] false with
  | Ok (Some (_, m)), Ok (Some (_, m')) => mget m $"x" = Some (VDict Base [($"y", vint 3); ($"z", VDict Base [($"k", vint 4)])]) /\ mget m' $"x" = mget m $"x" /\ mget m $"y" = mget m' $"y"
  | _, _ => False
  end.
Proof. vm_compute. repeat split. Qed.
(** ... otherwise it does: the empty name stands for an import. *)
Theorem C53_order_refuted : exists (E : Env) (L : Files) (a b : dict) i i' m m', Permutation a b /\
  create_context (fun _ => Some a) [] [] [$"data"] [] false = Ok (Some (i, m)) /\ create_context (fun _ => Some b) [] [] [$"data"] [] false = Ok (Some (i', m')) /\ i <> i' /\ mget m $"y" <> mget m' $"y".
Proof.
  exists env0, files0, [([], vstr $"d/a.json"); ($"y", nl_ [])], [($"y", nl_ []); ([], vstr $"d/a.json")], Json, Base, [($"x", vint 1); ($"y", VList Json [])], [($"y", vint 2); ($"x", vint 1)]. split; [apply perm_swap|].
  vm_compute. repeat split; discriminate.
Qed.
Print Assumptions C53_order_refuted.
