(** What the help should show of a function. *)
From Coq Require Import String Ascii List ZArith NArith Bool PeanoNat Sorted Permutation.
From Verif Require Import GoStr ValueModel FuncsModel HelpSpec SigModel.
Import ListNotations.

(** A type as it is written in Go by someone who imports the package. *)
Definition written (t u : str) : Prop := u = replace_all $"collections." [] (replace_all $"interface {}" $"interface{}" t).

(** The last parameter of a variadic function. *)
Definition rest_parameter (g : gofun) (i : nat) : Prop := g_variadic g = true /\ S i = length (g_in g).
(** The name of the parameter i (from 0). *)
Inductive parameter_name (args : list str) (g : gofun) (i : nat) : str -> Prop :=
| Given : forall a, nth_error args i = Some a -> parameter_name args g i a
| Rest : length args <= i -> rest_parameter g i -> parameter_name args g i $"args"
| Numbered : length args <= i -> ~ rest_parameter g i -> parameter_name args g i ($"arg" ++ itoa (Z.of_nat i + 1)).
(** The type of the parameter i: that of the elements, after three points, for the last one of a variadic function. *)
Inductive parameter_type (g : gofun) (i : nat) (t : str) : str -> Prop :=
| Single : forall u, ~ rest_parameter g i -> written t u -> parameter_type g i t u
| Many : forall u, rest_parameter g i -> written t ($"[]" ++ u) -> parameter_type g i t ($"..." ++ u).

(** A name that no parameter without a given name gets. *)
Definition special_name (a : str) : Prop := a = $"args" \/ exists n, a = $"arg" ++ itoa (Z.of_nat n + 1).

(** The type of the last parameter of a variadic function is that of a slice. *)
Definition slice_last (g : gofun) : Prop := forall i t, rest_parameter g i -> nth_error (g_in g) i = Some t -> exists e, t = $"[]" ++ e.

(** The group of an entry of the table: an alias belongs to the group of its function. *)
Inductive entry_group {F : Type} : entry F -> str -> Prop :=
| OwnGroup : forall i, entry_group (Own i) (i_group i)
| AliasGroup : forall n i, entry_group (Alias n i) (i_group i).
