(** What is listed. *)
From Coq Require Import String Ascii List ZArith NArith Bool PeanoNat Sorted.
From Verif Require Import GoStr ValueModel FuncsModel.
Import ListNotations.

Section Help.
Context {F : Type}.
Variable lower : str -> str.
(** [f] occurs in [s], whatever the case. *)
Definition occurs (f s : str) : Prop := exists a b, lower s = a ++ lower f ++ b.
(** A function answers a question when the question occurs in its name, in one of its aliases or, when they are looked
    at, in its group or description. *)
Definition answers (category detailed : bool) (name : str) (e : entry F) (f : str) : Prop :=
  occurs f name \/ (exists a, In a (e_aliases e) /\ occurs f a) \/ (category = true /\ occurs f (e_group e)) \/ (detailed = true /\ occurs f (e_description e)).
(** What strings.ToLower does with blanks *)
Definition spaced : Prop := forall a b, lower (a ++ $" " ++ b) = lower a ++ $" " ++ lower b.
(** The names asked for *)
Definition asked (tf : table F) (all category detailed : bool) (filters : list str) (name : str) : Prop :=
  exists e, mget tf name = Some e /\ (e_is_alias e = true -> all = true) /\ (filters = [] \/ exists f, In f filters /\ answers category detailed name e f).
(** The same function under its own name *)
Definition stands_for (tf : table F) (name own : str) : Prop :=
  exists e, mget tf name = Some e /\ own = (if e_is_alias e then e_real_name e else name).
(** Every alias has its function under its own name. *)
Definition kept_names (tf : table F) : Prop := forall k n i, mget tf k = Some (Alias n i) -> mget tf (i_name i) = Some (Own i).
End Help.
Definition ascending (l : list str) : Prop := StronglySorted (fun a b => str_leb a b = true /\ a <> b) l.
Definition low (s : str) : Prop := Forall (fun c => (N_of_ascii c < 128)%N) s.
