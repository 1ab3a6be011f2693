(** C101: the signatures shown by the help; C102: the categories of the functions. *)
From Coq Require Import String Ascii List ZArith NArith Bool PeanoNat Sorted Permutation.
From Verif Require Import GoStr GoStrFacts ValueModel FuncsModel HelpSpec HelpProofs SigModel SigSpec SigProofs.
Import ListNotations.

Section C101.
Variable cyan black blue : str -> str.

(** The parameters of a function without a text of its own are shown in order, each with the name given to it
    and its type, the last one of a variadic function after three points. *)
Theorem C101_parameters : forall d g, d_in d = [] -> d_fn d = Some g -> slice_last g ->
  exists ps, get_arguments cyan false (SOwn d) = join $", " ps /\ length ps = length (g_in g) /\
  forall i p, nth_error ps i = Some p -> exists t name ty, nth_error (g_in g) i = Some t /\
    parameter_name (d_args d) g i name /\ parameter_type g i t ty /\ p = name ++ $" " ++ cyan ty.
Proof. exact (arguments_shown cyan). Qed.

(** Two parameters of a function never have the same name. *)
Theorem C101_names : forall args g i j a b, NoDup args -> (forall x, In x args -> ~ special_name x) ->
  parameter_name args g i a -> parameter_name args g j b -> i <> j -> a <> b.
Proof. exact names_distinct. Qed.

(** The receiver of a method and the names of the parameters are not shown. *)
Theorem C101_method : forall d g, d_in d = [] -> d_fn d = Some g -> slice_last g ->
  exists ps, get_arguments cyan true (SOwn d) = join $", " ps /\ length ps = length (g_in g) - 1 /\
  forall i p, nth_error ps i = Some p -> exists t ty, nth_error (g_in g) (S i) = Some t /\ parameter_type g (S i) t ty /\ p = cyan ty.
Proof. exact (method_shown cyan). Qed.

(** The results are shown without the error at the end, between parentheses unless there is exactly one. *)
Theorem C101_result : forall d g ts, d_out d = [] -> d_fn d = Some g ->
  g_out g = ts ++ [$"error"] \/ (g_out g = ts /\ forall l, ts <> l ++ [$"error"]) ->
  exists us, Forall2 written ts us /\
    ((exists u, us = [u] /\ get_result (SOwn d) = u) \/ (length us <> 1 /\ get_result (SOwn d) = $"(" ++ join $", " us ++ $")")).
Proof. exact result_shown. Qed.

(** A text given for the parameters or the results is shown as it is. *)
Theorem C101_own_text : forall d m, (d_in d <> [] -> get_arguments cyan m (SOwn d) = d_in d) /\ (d_out d <> [] -> get_result (SOwn d) = d_out d).
Proof. intros d m. split; intros N; [unfold get_arguments; destruct (d_in d) | unfold get_result; destruct (d_out d)]; congruence. Qed.

(** The signature: the name, in a colour that tells an alias from a function, then what the function itself
    takes and returns. *)
Theorem C101_signature : forall m d n,
  get_signature cyan black blue m (SOwn d) = blue (d_name d) ++ $"(" ++ get_arguments cyan m (SOwn d) ++ $") " ++ black (get_result (SOwn d)) /\
  get_signature cyan black blue m (SAlias n d) = black n ++ $"(" ++ get_arguments cyan m (SOwn d) ++ $") " ++ black (get_result (SOwn d)).
Proof. intros m d n. split; reflexivity. Qed.

(** An alias of a function without texts of its own is listed below the function; whatever has taken the name
    of an alias over is not. *)
Theorem C101_alias_listed : forall d n, d_fn d <> None -> d_in d = [] -> d_out d = [] ->
  listed_aliases cyan black blue d [SAlias n d] = [get_signature cyan black blue false (SAlias n d)].
Proof. exact (alias_listed cyan black blue). Qed.
Theorem C101_replaced : forall d d', listed_aliases cyan black blue d [SOwn d'] = [].
Proof. intros d d'. reflexivity. Qed.
Theorem C101_listed_all : forall d l l', listed_aliases cyan black blue d (l ++ l') = listed_aliases cyan black blue d l ++ listed_aliases cyan black blue d l'.
Proof. intros d l l'. unfold listed_aliases. rewrite filter_app, map_app. reflexivity. Qed.
End C101.
Print Assumptions C101_parameters.
Print Assumptions C101_names.
Print Assumptions C101_method.
Print Assumptions C101_result.
Print Assumptions C101_own_text.
Print Assumptions C101_signature.
Print Assumptions C101_alias_listed.
Print Assumptions C101_replaced.
Print Assumptions C101_listed_all.

(** A function defined by the user with @func (extra_runtime.go:295-311): its [in] is the list of its
    arguments.  The alias does not carry it, so the help takes the alias for a replaced one and hides it. *)
Definition user_function (args : list str) : described :=
  Described $"f" (Some (Gofun [$"[]interface {}"] [$"interface {}"; $"error"] true)) args (join $", " args) [].
Theorem C101_alias_hidden_refuted : exists d n, d_fn d <> None /\ d_in d <> [] /\ 
  forall cyan black blue, listed_aliases cyan black blue d [SAlias n d] = [].
Proof.
  exists (user_function [$"who"]), $"g". split; [discriminate|]. split; [discriminate|]. intros cyan black blue. reflexivity.
Qed.
Print Assumptions C101_alias_hidden_refuted.

Definition plain (s : str) : str := s.
Definition red (s : str) : str := $"<" ++ s ++ $">".
Example C101_example : get_signature red plain plain false (SOwn (Described $"merge" (Some (Gofun
    [$"collections.IDictionary"; $"map[string]interface {}"; $"[]collections.IDictionary"] [$"collections.IDictionary"; $"error"] true)) [$"destination"] [] [])) =
  $"merge(destination <IDictionary>, arg2 <map[string]interface{}>, args <...IDictionary>) IDictionary".
Proof. vm_compute. reflexivity. Qed.
Example C101_example_results : get_result (SOwn (Described $"f" (Some (Gofun [] [$"int"; $"error"; $"string"] false)) [] [] [])) = $"(int, error, string)" /\
  get_result (SOwn (Described $"f" (Some (Gofun [] [$"error"] false)) [] [] [])) = $"()".
Proof. vm_compute. split; reflexivity. Qed.
Example C101_example_method : get_arguments plain true (SOwn (Described $"f" (Some (Gofun [$"collections.String"; $"int"; $"[]string"] [] true)) [$"a"] [] [])) = $"int, ...string".
Proof. vm_compute. reflexivity. Qed.
Example C101_example_alias : get_signature plain plain plain false (SAlias $"g" (user_function [$"who"; $"what"])) = $"g(who, what) interface{}".
Proof. vm_compute. reflexivity. Qed.

Section C102.
Context {F : Type}.
(** Categories and the names in them are ascending without repetition; no category is empty; a name is in
    the category of the group of its entry, and of no other. *)
Theorem C102_categories : forall tf : table F, NoDup (map fst tf) -> ascending (map fst (get_categories tf)) /\
  (forall g names, In (g, names) (get_categories tf) -> names <> [] /\ ascending names /\ forall n, In n names <-> exists e, In (n, e) tf /\ entry_group e g) /\
  (forall n e g, In (n, e) tf -> entry_group e g -> exists names, In (g, names) (get_categories tf) /\ In n names).
Proof.
  intros tf ND. destruct (categories_ok tf ND) as (A & B & C). split; [exact A|]. split.
  - intros g names I. destruct (B g names I) as (B1 & B2 & B3). split; [exact B1|]. split; [exact B2|]. intros n. rewrite B3. split; intros (e & X & Y); exists e; (split; [exact X | apply group_of; exact Y]).
  - intros n e g I H. apply group_of in H. subst g. exact (C n e I).
Qed.
(** The order in which Go visits the table is irrelevant. *)
Theorem C102_order : forall tf tf' : table F, NoDup (map fst tf) -> Permutation tf tf' -> get_categories tf = get_categories tf'.
Proof. exact categories_order. Qed.
(** The categories depend on nothing but the names and the groups. *)
Theorem C102_determined : forall tf tf' : table F, NoDup (map fst tf) -> NoDup (map fst tf') ->
  (forall n g, (exists e, In (n, e) tf /\ entry_group e g) <-> (exists e, In (n, e) tf' /\ entry_group e g)) -> get_categories tf = get_categories tf'.
Proof. exact categories_same. Qed.
End C102.
Print Assumptions C102_categories.
Print Assumptions C102_order.
Print Assumptions C102_determined.

Definition info_in (g : str) : info unit := Info [] (Some tt) g [] [] [].
Example C102_example : get_categories [($"trim", Own (info_in $"strings")); ($"add", Own (info_in $"math")); ($"sum", Alias $"sum" (info_in $"math")); ($"abs", Own (info_in $"math")); ($"f", Own (info_in []))] =
  [([], [$"f"]); ($"math", [$"abs"; $"add"; $"sum"]); ($"strings", [$"trim"])].
Proof. vm_compute. reflexivity. Qed.
