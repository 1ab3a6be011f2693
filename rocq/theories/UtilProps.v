(** C103: looking for an element from a template; C104: assertions; C105: kinds of placeholder text, the
    default shell and the environment. *)
From Coq Require Import String Ascii List ZArith NArith Bool PeanoNat Sorted Lia.
From Verif Require Import GoStr GoStrFacts ValueModel CollSpec ListModel ListProofs TextModel TextSpec TextProofs TextProofs2 DataModel AliasModel AliasSpec UtilModel UtilSpec UtilProofs ExampleEnv.
Import ListNotations.

(** In a list, or in the list made of another value, find gives the positions of the elements printed alike. *)
Theorem C103_list : forall (E : Env) l e, (forall n s, l <> VScal (SStr n s)) ->
  exists ps, tpl_find false l e = Ok (map vint ps) /\ Sorted Z.lt ps /\
  forall p, In p ps <-> exists n v, p = Z.of_nat n /\ nth_error (snd (c_as_list l)) n = Some v /\ same_text v e.
Proof. intros E. exact find_list. Qed.
Print Assumptions C103_list.
(** findStrict gives those of the elements that are equal. *)
Theorem C103_strict : forall (E : Env) l e, (forall n s, l <> VScal (SStr n s)) ->
  (forall x, In x (snd (c_as_list l)) -> ~ same_uncomparable_type e x) ->
  exists ps, tpl_find true l e = Ok (map vint ps) /\ Sorted Z.lt ps /\
  forall p, In p ps <-> exists n v, p = Z.of_nat n /\ nth_error (snd (c_as_list l)) n = Some v /\ iface_eq e v = Ok true.
Proof. intros E. exact find_list_strict. Qed.
Print Assumptions C103_strict.
(** In a text, both give the places where the text of the element occurs, from left to right and without
    overlap, and every occurrence overlaps one of them. *)
Theorem C103_text : forall (E : Env) strict n s e, sprint e <> [] ->
  exists ps, tpl_find strict (VScal (SStr n s)) e = Ok (map (fun p => vint (Z.of_nat p)) ps) /\
  (forall p, In p ps -> occurs_at (sprint e) s p) /\ StronglySorted (fun a b => a + length (sprint e) <= b) ps /\
  (forall k, occurs_at (sprint e) s k -> exists p, In p ps /\ p <= k < p + length (sprint e)).
Proof. intros E strict n s e N. exists (index_all s (sprint e)). split; [reflexivity | exact (index_all_spec s (sprint e) N)]. Qed.
Print Assumptions C103_text.
Theorem C103_nothing : forall (E : Env) strict n s e, sprint e = [] -> tpl_find strict (VScal (SStr n s)) e = Ok [].
Proof. intros E strict n s e H. rewrite find_text, H. destruct s; reflexivity. Qed.
Print Assumptions C103_nothing.
(** find gives nothing exactly when contains says no (except for an empty element in a text). *)
Theorem C103_contains : forall (E : Env) l e, match text_value l with
  | Some s => sprint e <> [] -> (tpl_find false l e = Ok [] <-> contains (sprint e) s = false)
  | None => tpl_find false l e = Ok [] <-> list_contains (snd (c_as_list l)) [e] = false
  end.
Proof.
  intros E l e. destruct (text_value l) as [s|] eqn:T.
  - destruct l as [|[b|k z|f|n t]| | | | | |]; try discriminate. injection T as ->. exact (find_text_contains n s e).
  - apply find_list_contains. intros n s ->. discriminate.
Qed.
Print Assumptions C103_contains.
(** A strict search in a text is not strict: the number 1 is found in the text a1. *)
Theorem C103_strict_text_refuted : exists (E : Env) s e, iface_eq (VScal (SStr true s)) e = Ok false /\ (forall t, e <> vstr t) /\ tpl_find true (VScal (SStr true s)) e = Ok [vint 1].
Proof. exists env0, $"a1", (n_ 1). split; [reflexivity|]. split; [discriminate|]. vm_compute. reflexivity. Qed.
Print Assumptions C103_strict_text_refuted.
(** An empty text is contained in any text but never found. *)
Theorem C103_empty_refuted : exists (E : Env) s e, contains (sprint e) s = true /\ tpl_find false (vstr s) e = Ok [].
Proof. exists env0, $"abc", (s_ ""). vm_compute. split; reflexivity. Qed.
Print Assumptions C103_empty_refuted.
Example C103_example : let E := env0 in
  tpl_find false (l_ [n_ 1; s_ "1"; n_ 2; s_ "1"]) (n_ 1) = Ok [vint 0; vint 1; vint 3] /\
  tpl_find true (l_ [n_ 1; s_ "1"; n_ 2; s_ "1"]) (s_ "1") = Ok [vint 1; vint 3] /\
  tpl_find false (s_ "banana") (s_ "an") = Ok [vint 1; vint 3] /\ tpl_find false (n_ 5) (s_ "5") = Ok [vint 0] /\
  tpl_find true (n_ 5) (s_ "5") = Ok [].
Proof. vm_compute. repeat split; reflexivity. Qed.

(** ** C104 Assertions *)

(** assert fails exactly for nil, false, zero and what is empty, with the given message or a default one. *)
Theorem C104_error : forall nilp message t args,
  (zero_value nilp t -> exists m, assert_error nilp message t args = Err m /\
     (args = [] -> m = message [vstr $"Assertion failed"]) /\ (args <> [] -> m = message args)) /\
  (~ zero_value nilp t -> assert_error nilp message t args = Ok []).
Proof. exact assert_error_spec. Qed.
Print Assumptions C104_error.
(** assertWarning never fails: it logs the message with which assert would have failed. *)
Theorem C104_warning : forall nilp message log t args, snd (assert_warning nilp message log t args) = [] /\
  (zero_value nilp t -> exists m, assert_error nilp message t args = Err m /\ fst (assert_warning nilp message log t args) = m :: log) /\
  (~ zero_value nilp t -> fst (assert_warning nilp message log t args) = log).
Proof. exact assert_warning_spec. Qed.
Print Assumptions C104_warning.
Example C104_example : let E := env0 in let m l := sprint (VList Base l) in
  assert_error (fun _ => false) m (n_ 0) [] = Err $"[Assertion failed]" /\ assert_error (fun _ => false) m (s_ "") [s_ "no"; n_ 1] = Err $"[no 1]" /\
  assert_error (fun _ => false) m (s_ "0") [] = Ok [] /\ assert_error (fun _ => false) m (l_ [VNil]) [] = Ok [] /\
  assert_warning (fun _ => false) m [$"old"] (l_ []) [] = ([$"[Assertion failed]"; $"old"], []).
Proof. vm_compute. repeat split; reflexivity. Qed.

(** ** C105 *)

(** The kinds are the documented ones, in capital and small letters; anything else is an error. *)
Theorem C105_kind : forall name k, get_lorem_kind name = Ok k <-> names_kind name k.
Proof. exact kind_spec. Qed.
Print Assumptions C105_kind.
Theorem C105_unknown : forall name params, (forall k, ~ names_kind name k) -> lorem name params = Err ($"undefined Lorem kind " ++ name).
Proof. intros name params N. unfold lorem. rewrite (kind_unknown name N). reflexivity. Qed.
Print Assumptions C105_unknown.
(** Between 3 and 10 unless told otherwise. *)
Theorem C105_size : forall name k, names_kind name k -> k = Word \/ k = Sentence \/ k = Paragraph ->
  lorem name [] = Ok (Sized k 3 10) /\ (forall a, lorem name [a] = Ok (Sized k a 10)) /\ (forall a b r, lorem name (a :: b :: r) = Ok (Sized k a b)).
Proof.
  intros name k N K. apply kind_spec in N. unfold lorem. rewrite N. destruct K as [->|[->| ->]]; (split; [reflexivity|]; split; reflexivity).
Qed.
Print Assumptions C105_size.
Theorem C105_no_size : forall name k params, names_kind name k -> k = Host \/ k = EMail \/ k = URL -> lorem name params = Ok (Unsized k).
Proof. intros name k params N K. apply kind_spec in N. unfold lorem. rewrite N. destruct K as [->|[->| ->]]; reflexivity. Qed.
Print Assumptions C105_no_size.
Example C105_example : lorem $"eMAIL" [] = Ok (Unsized EMail) /\ lorem $"" [1%Z] = Ok (Sized Sentence 1 10) /\ lorem $"Sentences" [1%Z; 2%Z; 9%Z] = Ok (Sized Paragraph 1 2) /\
  lorem $"wrd" [] = Err $"undefined Lorem kind wrd".
Proof. vm_compute. repeat split; reflexivity. Qed.

(** The default shell is the first one found of the known ones. *)
Theorem C105_shell : forall windows look, exists names, names = (if windows : bool then [$"powershell"; $"pwsh"; $"cmd"] else [$"bash"; $"sh"; $"zsh"; $"ksh"]) /\
  ((default_shell windows look [] = [] /\ (forall n, In n names -> look n = None \/ look n = Some [])) \/
   (exists pre n post, names = pre ++ n :: post /\ (forall m, In m pre -> look m = None) /\ look n = Some (default_shell windows look []))).
Proof. intros windows look. eexists. split; [reflexivity|]. exact (first_found_spec look _). Qed.
Print Assumptions C105_shell.
(** Once found it never changes, whatever becomes of the search path. *)
Theorem C105_shell_fixed : forall windows looks, exists n c, (n = length looks \/ c <> []) /\ n <= length looks /\
  shells windows [] looks = repeat [] n ++ repeat c (length looks - n).
Proof. exact shells_prefix. Qed.
Print Assumptions C105_shell_fixed.
(** A variable set to nothing is set. *)
Theorem C105_env : forall environment name default,
  (forall v, mget environment name = Some v -> get_env environment name default = v) /\ (mget environment name = None -> get_env environment name default = default).
Proof. intros environment name default. unfold get_env. split; [intros v ->; reflexivity | intros ->; reflexivity]. Qed.
Print Assumptions C105_env.
Example C105_example_shell : let at_ l n := if mem_str n l then Some ($"/bin/" ++ n) else None in
  shells false [] [at_ []; at_ [$"zsh"; $"sh"]; at_ [$"bash"]] = [[]; $"/bin/sh"; $"/bin/sh"] /\
  shells true [] [at_ [$"bash"; $"cmd"]] = [$"/bin/cmd"] /\ get_env [($"A", [])] $"A" $"x" = [] /\ get_env [($"A", [])] $"B" $"x" = $"x".
Proof. vm_compute. repeat split; reflexivity. Qed.
