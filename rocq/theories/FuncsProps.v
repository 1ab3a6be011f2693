(** C47: the registration of functions does not depend on the iteration order of maps. *)
From Coq Require Import String Ascii List ZArith NArith Bool Permutation Sorting.Sorted.
From Verif Require Import GoStr ValueModel FuncsModel FuncsSpec FuncsProofs.
Import ListNotations.

(** In every order Go may take, each function is found under its name and under its aliases, the other
    names keep what they had, and the engine gets exactly the functions of the new names. *)
Theorem C47_table : forall (F : Type) (fm tf : table F) sched tf' fs,
  NoDup (map fst fm) -> alias_sound fm -> schedule fm sched -> add_functions sched fm tf = Some (tf', fs) ->
  (forall k, known fm k -> exists e, mget tf' k = Some e /\ registered fm k e) /\
  (forall k, ~ known fm k -> mget tf' k = mget tf k) /\
  (forall k f, mget fs k = Some f <-> exists e, registered fm k e /\ e_function e = Some f).
Proof. intros F fm tf sched tf' fs N A. exact (table_spec fm tf N A sched tf' fs). Qed.
Print Assumptions C47_table.

(** Two orders give the same table and the same functions. *)
Theorem C47_order : forall (F : Type) (fm tf : table F) sched sched' r r',
  NoDup (map fst fm) -> alias_sound fm -> schedule fm sched -> schedule fm sched' ->
  add_functions sched fm tf = Some r -> add_functions sched' fm tf = Some r' ->
  (forall k, mget (fst r) k = mget (fst r') k) /\ (forall k, mget (snd r) k = mget (snd r') k).
Proof. intros F fm tf sched sched'. exact (table_order sched sched' fm tf). Qed.
Print Assumptions C47_order.

(** Every order of the names at the start is possible. *)
Theorem C47_runs : forall (F : Type) (fm tf : table F) sched, Permutation sched (map fst fm) -> exists r, add_functions sched fm tf = Some r.
Proof. intros F fm tf sched P. apply table_runs. intros k I. exact (Permutation_in _ P I). Qed.
Print Assumptions C47_runs.

(** A function is reached by all its aliases: what is known under the alias is the function of that name,
    with the name, the aliases, the group and the description of that function. *)
Theorem C47_reachable : forall (F : Type) (fm tf : table F) sched tf' fs f i a,
  NoDup (map fst fm) -> alias_sound fm -> schedule fm sched -> add_functions sched fm tf = Some (tf', fs) ->
  In (f, Own i) fm -> In a (i_aliases i) ->
  exists e, mget tf' a = Some e /\ e_name e = a /\ e_real_name e = f /\ e_function e = i_function i /\ e_aliases e = i_aliases i /\ e_group e = i_group i /\
    e_description e = i_description i /\ mget fs a = i_function i.
Proof.
  intros F fm tf sched tf' fs f i a N A S1 H I J. destruct (table_spec fm tf N A sched tf' fs S1 H) as (T & _ & C). assert (AO : alias_of fm a f i) by (split; assumption).
  destruct (T a (or_intror (ex_intro _ f (ex_intro _ i AO)))) as (e & G0 & R). exists e. split; [exact G0|].
  assert (E : e = Alias a (rename f i)) by (eapply (reg_unique fm N A); [exact R|]; apply (Reg_alias fm a f i); [exact AO|repeat split]). subst e. repeat split.
  destruct (i_function i) as [g|] eqn:IF; [apply C; exists (Alias a (rename f i)); split; [exact R|exact IF]|]. destruct (mget fs a) as [g|] eqn:GF; [|reflexivity].
  apply C in GF. destruct GF as (e & R' & X). rewrite (reg_unique fm N A a _ _ R' R) in X. cbn in X. congruence.
Qed.
Print Assumptions C47_reachable.

(** AddFunctions: the options are looked up for each function; a group given for all has priority. *)
Theorem C47_add_functions : forall (F : Type) (funcs : list (str * F)) group help aliases arguments groups,
  NoDup (map fst funcs) ->
  (forall f, In f (map fst (make_table funcs group help aliases arguments groups)) <-> In f (map fst funcs)) /\
  forall k f, In (k, f) funcs -> exists i, In (k, Own i) (make_table funcs group help aliases arguments groups) /\ i_function i = Some f /\
    (group <> [] -> i_group i = group) /\ (group = [] -> forall g, In (k, g) groups -> NoDup (map fst groups) -> i_group i = g) /\
    (forall l, In (k, l) aliases -> NoDup (map fst aliases) -> i_aliases i = l) /\ (~ In k (map fst aliases) -> i_aliases i = []) /\
    (forall l, In (k, l) arguments -> NoDup (map fst arguments) -> i_arguments i = l) /\
    (forall t, In (k, t) help -> NoDup (map fst help) -> i_description i = t).
Proof. exact @make_spec. Qed.
Print Assumptions C47_add_functions.

(** *** The functions of one sample group: two functions, three aliases. *)
Definition fm0 : table nat := [($"merge", Own (Info [] (Some 1) $"Data" [$"mergeDict"; $"join2"] [$"dest"; $"sources"] $"Merges")); ($"size", Own (Info [] (Some 2) $"Data" [$"len2"] [] $"Counts")); ($"gone", Own (Info [] None [] [] [] []))].
Definition tf0 : table nat := [($"len2", Own (Info $"len2" (Some 7) [] [] [] [])); ($"old", Own (Info $"old" (Some 8) [] [] [] []))].
Example C47_ex :
  (match add_functions [$"merge"; $"size"; $"gone"] fm0 tf0, add_functions [$"gone"; $"size"; $"len2"; $"merge"; $"join2"] fm0 tf0 with
   | Some (t, fs), Some (t', fs') =>
       mget t $"mergeDict" = mget t' $"mergeDict" /\ mget t $"mergeDict" = Some (Alias $"mergeDict" (Info $"merge" (Some 1) $"Data" [$"mergeDict"; $"join2"] [$"dest"; $"sources"] $"Merges")) /\
       mget t $"len2" = Some (Alias $"len2" (Info $"size" (Some 2) $"Data" [$"len2"] [] $"Counts")) /\ mget t' $"len2" = mget t $"len2" /\
       mget t $"old" = mget tf0 $"old" /\ mget fs $"join2" = Some 1 /\ mget fs' $"join2" = Some 1 /\ mget fs $"old" = None /\ mget fs $"gone" = None /\
       get_functions t true false = [$"gone"; $"merge"; $"old"; $"size"] /\ get_functions t' true true = [$"gone"; $"join2"; $"len2"; $"merge"; $"mergeDict"; $"old"; $"size"]
   | _, _ => False
   end).
Proof. vm_compute. repeat split. Qed.

(** Without the conditions the table does depend on the order: a shared alias, *)
Theorem C47_shared_refuted : exists (fm : table nat) sched sched' t t' fs fs' k, NoDup (map fst fm) /\ schedule fm sched /\ schedule fm sched' /\
  add_functions sched fm [] = Some (t, fs) /\ add_functions sched' fm [] = Some (t', fs') /\ mget fs k <> mget fs' k.
Proof.
  exists [($"a", Own (Info [] (Some 1) [] [$"x"] [] [])); ($"b", Own (Info [] (Some 2) [] [$"x"] [] []))], [$"a"; $"b"], [$"b"; $"a"].
  do 4 eexists. exists $"x". split; [apply nodup_decide; reflexivity|]. split; [split; [apply nodup_decide; reflexivity|intros y [<-|[<-|[]]]; cbn; tauto]|].
  split; [split; [apply nodup_decide; reflexivity|intros y [<-|[<-|[]]]; cbn; tauto]|]. split; [vm_compute; reflexivity|]. split; [vm_compute; reflexivity|]. vm_compute. discriminate.
Qed.
Print Assumptions C47_shared_refuted.
(** and an alias that is itself a function with aliases: then its aliases are found in one order and
    not in the other. *)
Theorem C47_chain_refuted : exists (fm : table nat) sched sched' t t' fs fs' k, NoDup (map fst fm) /\ schedule fm sched /\ schedule fm sched' /\
  add_functions sched fm [] = Some (t, fs) /\ add_functions sched' fm [] = Some (t', fs') /\ mget t k <> None /\ mget t' k = None.
Proof.
  exists [($"a", Own (Info [] (Some 1) [] [$"b"] [] [])); ($"b", Own (Info [] (Some 2) [] [$"x"] [] []))], [$"b"; $"a"], [$"a"; $"b"].
  do 4 eexists. exists $"x". split; [apply nodup_decide; reflexivity|]. split; [split; [apply nodup_decide; reflexivity|intros y [<-|[<-|[]]]; cbn; tauto]|].
  split; [split; [apply nodup_decide; reflexivity|intros y [<-|[<-|[]]]; cbn; tauto]|]. split; [vm_compute; reflexivity|]. split; [vm_compute; reflexivity|]. split; [vm_compute; discriminate|vm_compute; reflexivity].
Qed.
Print Assumptions C47_chain_refuted.

(** *** The table of a sub-template is registered once more on itself. *)
Theorem C47_again : forall (F : Type) (tf tf' : table F) sched, NoDup (map fst tf) -> consistent tf -> add_again sched tf = Some tf' -> forall k, mget tf' k = mget tf k.
Proof. intros F tf tf' sched. exact (again_same sched tf tf'). Qed.
Print Assumptions C47_again.
(** It is consistent if it comes from one registration. *)
Theorem C47_consistent : forall (F : Type) (fm tf' : table F) sched fs, NoDup (map fst fm) -> alias_sound fm -> (forall k n i, ~ In (k, Alias n i) fm) -> schedule fm sched ->
  add_functions sched fm [] = Some (tf', fs) -> consistent tf'.
Proof. intros F fm tf' sched fs. exact (fresh_consistent sched fm tf' fs). Qed.
Print Assumptions C47_consistent.
(** If a later registration took over an alias, registering the table again can give it back to the
    first function: "addSprig" has the alias "add", which a later group defines as a function. *)
Definition t_sprig : table nat := [($"addSprig", Own (Info [] (Some 1) $"Sprig" [$"add"] [] []))].
Definition t_math : table nat := [($"add", Own (Info [] (Some 2) $"Math" [$"sum"] [] []))].
Theorem C47_again_refuted : exists (t1 t2 t3 : table nat) fs1 fs2 sched, add_functions [$"addSprig"] t_sprig [] = Some (t1, fs1) /\ add_functions [$"add"] t_math t1 = Some (t2, fs2) /\
  Permutation sched (map fst t2) /\ add_again sched t2 = Some t3 /\ option_map e_function (mget t2 $"add") = Some (Some 2) /\ option_map e_function (mget t3 $"add") = Some (Some 1).
Proof.
  do 5 eexists. exists [$"add"; $"addSprig"; $"sum"]. split; [vm_compute; reflexivity|]. split; [vm_compute; reflexivity|]. split; [apply perm_swap|]. split; [vm_compute; reflexivity|]. vm_compute. auto.
Qed.
Print Assumptions C47_again_refuted.

(** *** The list of the functions *)
Theorem C47_list : forall (F : Type) (tf : table F) original alias, NoDup (map fst tf) ->
  Sorted (fun a b => str_leb a b = true) (get_functions tf original alias) /\
  forall k, In k (get_functions tf original alias) <-> exists e, mget tf k = Some e /\ (if e_is_alias e then alias else original) = true.
Proof. exact @list_spec. Qed.
Print Assumptions C47_list.
Theorem C47_list_order : forall (F : Type) (tf tf' : table F) original alias, Permutation tf tf' -> get_functions tf original alias = get_functions tf' original alias.
Proof. exact @list_order. Qed.
Print Assumptions C47_list_order.

(** *** Sprig *)
(** A function of the library is found under the name it is documented with. *)
Theorem C47_sprig : forall (F : Type) refs (lib : list (str * F)), NoDup (map fst refs) ->
  (forall K K' r r' a, In (K, r) refs -> In (K', r') refs -> In a (r_aliases r) -> In a (r_aliases r') -> K = K') ->
  (forall K k k' f f', gives_name refs K k -> gives_name refs K k' -> In (k, f) lib -> In (k', f') lib -> f = f') ->
  forall K e, mget (sprig_table refs lib) K = Some e <->
    exists k f r, gives_name refs K k /\ In (k, f) lib /\ In (K, r) refs /\ e = Own (Info [] (Some f) (r_group r) (r_aliases r) (r_arguments r) (r_description r)).
Proof. exact @sprig_spec. Qed.
Print Assumptions C47_sprig.
Definition refs0 : list (str * ref) := [($"first", Ref [] [] $"List" $"Head"); ($"uniqSprig", Ref [] [$"uniq"] $"List" $"No duplicates"); ($"lower", Ref [$"str"] [] $"Text" $"Lower case")].
Definition lib0 : list (str * nat) := [($"uniq", 5); ($"first", 6); ($"mustFirst", 7); ($"hello", 8)].
Example C47_sprig_ex : sprig_table refs0 lib0 = [($"uniqSprig", Own (Info [] (Some 5) $"List" [$"uniq"] [] $"No duplicates")); ($"first", Own (Info [] (Some 6) $"List" [] [] $"Head"))].
Proof. vm_compute. reflexivity. Qed.
(** The real table: "all" (extra_sprig.go:227) and "withoutSprig" (242) share the alias "without".  In one
    order of the maps "all" is bound to the function without of the library and "withoutSprig" is missing. *)
Definition refs1 : list (str * ref) := [($"withoutSprig", Ref [] [$"without"] $"List" $"Filters items out of a list."); ($"all", Ref [] [$"without"] $"List" $"Filters items out of a list.")].
Definition lib1 : list (str * nat) := [($"all", 1); ($"without", 2)].
Theorem C47_sprig_refuted : exists refs refs' (lib : list (str * nat)), Permutation refs refs1 /\ Permutation refs' refs1 /\ lib = lib1 /\
  option_map e_function (mget (sprig_table refs lib) $"all") = Some (Some 2) /\ mget (sprig_table refs lib) $"withoutSprig" = None /\
  option_map e_function (mget (sprig_table refs' lib) $"all") = Some (Some 1) /\ option_map e_function (mget (sprig_table refs' lib) $"withoutSprig") = Some (Some 2).
Proof. exists refs1, (rev refs1), lib1. split; [apply Permutation_refl|]. split; [apply Permutation_sym, Permutation_rev|]. vm_compute. repeat split. Qed.
Print Assumptions C47_sprig_refuted.
