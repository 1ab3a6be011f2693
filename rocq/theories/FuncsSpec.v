(** Vocabulary for C47: what a table of functions should contain. *)
From Coq Require Import String Ascii List ZArith NArith Bool.
From Verif Require Import GoStr ValueModel FuncsModel.
Import ListNotations.

Section WithFunctions.
Context {F : Type}.

(** The orders in which Go may visit a map while entries are added: each key that was there at the
    start exactly once, keys added during the loop at most once. *)
Definition schedule (fm : table F) (sched : list str) : Prop := NoDup sched /\ incl (map fst fm) sched.

(** k is an alias of the function f. *)
Definition alias_of (fm : table F) (k f : str) (i : info F) : Prop := In (f, Own i) fm /\ In k (i_aliases i).
(** No alias is shared, and a name that is an alias has no aliases of its own. *)
Definition alias_sound (fm : table F) : Prop :=
  (forall k f i g j, alias_of fm k f i -> alias_of fm k g j -> f = g) /\
  (forall k f i j, alias_of fm k f i -> In (k, Own j) fm -> i_aliases j = []).

(** The same information under its own name. *)
Definition same_info (k : str) (i j : info F) : Prop :=
  i_name j = k /\ i_function j = i_function i /\ i_group j = i_group i /\ i_aliases j = i_aliases i /\ i_arguments j = i_arguments i /\ i_description j = i_description i.
(** What is registered under the name k. *)
Inductive registered (fm : table F) (k : str) : entry F -> Prop :=
| Reg_alias f i j : alias_of fm k f i -> same_info f i j -> registered fm k (Alias k j)
| Reg_own i j : (forall f i', ~ alias_of fm k f i') -> In (k, Own i) fm -> same_info k i j -> registered fm k (Own j)
| Reg_old n i : (forall f i', ~ alias_of fm k f i') -> In (k, Alias n i) fm -> registered fm k (Alias k i).
Definition known (fm : table F) (k : str) : Prop := In k (map fst fm) \/ exists f i, alias_of fm k f i.

(** Each alias in the table is an alias of its function, each function has its name. *)
Definition consistent (tf : table F) : Prop :=
  (forall k i, In (k, Own i) tf -> i_name i = k) /\ (forall k n i, In (k, Alias n i) tf -> n = k) /\
  (forall f i a, In (f, Own i) tf -> In a (i_aliases i) -> In (a, Alias a i) tf).

(** ** Sprig *)
(** The function of the library documented as K: K itself, or an undocumented name that is an alias of K. *)
Definition gives_name (refs : list (str * ref)) (K k : str) : Prop :=
  (k = K /\ exists r, In (K, r) refs /\ r_group r <> []) \/
  ((forall r, In (k, r) refs -> r_group r = []) /\ has_prefix $"must" k = false /\ K <> [] /\ exists r, In (K, r) refs /\ In k (r_aliases r)).
End WithFunctions.
