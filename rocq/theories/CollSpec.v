(** Specification vocabulary for the collections.  Nothing here refers to the functions of the model
    other than the printed representation of values. *)
From Coq Require Import String Ascii List ZArith NArith Bool Permutation.
From Verif Require Import GoStr ValueModel ValueFacts.
Import ListNotations.

(** [converted v] (ValueFacts): no native slice or map at any depth in v. *)

Section WithEnv.
Context {E : Env}.

(** What a stored value looks like: data without native content is kept as it is; a container with
    native content becomes a container of implementation i with the same shape. *)
Inductive converts (i : impl) : value -> value -> Prop :=
| converts_keep v : converted v -> converts i v v
| converts_slice t l l' :
    Forall2 (converts i) l l' -> converts i (VSlice t l) (VList i l')
| converts_list j l l' :
    ~ Forall converted l -> Forall2 (converts i) l l' -> converts i (VList j l) (VList i l')
| converts_map t m m' :
    Forall2 (fun a b => fst a = fst b /\ converts i (snd a) (snd b)) m m' ->
    converts i (VMap t m) (VDict i m')
| converts_dict j m m' :
    ~ Forall (fun kv => converted (snd kv)) m ->
    Forall2 (fun a b => fst a = fst b /\ converts i (snd a) (snd b)) m m' ->
    converts i (VDict j m) (VDict i m')
| converts_mapk t m kvs m' :
    Forall2 (fun a b => sprint_scalar (fst a) = fst b /\ converts i (snd a) (snd b)) m kvs ->
    NoDup (mkeys m') ->
    (forall k, mget m' k = mget (rev kvs) k) ->
    converts i (VMapK t m) (VDict i m').

(** Two values with the same printed representation. *)
Definition same_text (a b : value) : Prop := sprint a = sprint b.

(** Some element of l is printed like x. *)
Definition has_text (l : list value) (x : value) : Prop := exists y, In y l /\ same_text x y.

End WithEnv.

(** [selected P k l r]: r is made of the elements of l whose position (counted from k) satisfies P,
    in order. *)
Inductive selected {A} (P : nat -> A -> Prop) : nat -> list A -> list A -> Prop :=
| sel_nil k : selected P k [] []
| sel_keep k x l r : P k x -> selected P (S k) l r -> selected P k (x :: l) (x :: r)
| sel_drop k x l r : ~ P k x -> selected P (S k) l r -> selected P k (x :: l) r.

(** [r] consists of the elements of [l] satisfying P, in order. *)
Definition kept {A} (P : A -> Prop) (l r : list A) : Prop := selected (fun _ x => P x) 0 l r.

(** Position [k], counted from the end when negative, designates position [p] of a list of length n. *)
Definition designates (n : nat) (k : Z) (p : nat) : Prop :=
  (k = Z.of_nat p \/ k + Z.of_nat n = Z.of_nat p /\ k < 0)%Z /\ p < n.

(** The value found at a signed position: nil out of bounds. *)
Definition at_position (l : list value) (k : Z) (v : value) : Prop :=
  (exists p, designates (length l) k p /\ nth_error l p = Some v)
  \/ ((forall p, ~ designates (length l) k p) /\ v = VNil).

(** ** Dictionaries *)

(** Distinct keys at every level. *)
Inductive wf : value -> Prop :=
| wf_nil : wf VNil
| wf_scal s : wf (VScal s)
| wf_opaque t c n : wf (VOpaque t c n)
| wf_slice t l : Forall wf l -> wf (VSlice t l)
| wf_list i l : Forall wf l -> wf (VList i l)
| wf_map t m : NoDup (mkeys m) -> Forall (fun kv => wf (snd kv)) m -> wf (VMap t m)
| wf_dict i m : NoDup (mkeys m) -> Forall (fun kv => wf (snd kv)) m -> wf (VDict i m)
| wf_mapk t m : NoDup (map fst m) -> Forall (fun kv => wf (snd kv)) m -> wf (VMapK t m).

(** The same value, with other iteration orders for the maps it contains at any depth. *)
Inductive veq : value -> value -> Prop :=
| veq_nil : veq VNil VNil
| veq_scal s : veq (VScal s) (VScal s)
| veq_opaque t c n : veq (VOpaque t c n) (VOpaque t c n)
| veq_slice t l l' : Forall2 veq l l' -> veq (VSlice t l) (VSlice t l')
| veq_list i l l' : Forall2 veq l l' -> veq (VList i l) (VList i l')
| veq_map t m m1 m' : Permutation m m1 ->
    Forall2 (fun a b => fst a = fst b /\ veq (snd a) (snd b)) m1 m' -> veq (VMap t m) (VMap t m')
| veq_dict i m m1 m' : Permutation m m1 ->
    Forall2 (fun a b => fst a = fst b /\ veq (snd a) (snd b)) m1 m' -> veq (VDict i m) (VDict i m')
| veq_mapk t m m1 m' : Permutation m m1 ->
    Forall2 (fun a b => fst a = fst b /\ veq (snd a) (snd b)) m1 m' -> veq (VMapK t m) (VMapK t m').

(** Equal content, whatever the implementation of the containers. *)
Inductive same_data : value -> value -> Prop :=
| sd_nil : same_data VNil VNil
| sd_scal s : same_data (VScal s) (VScal s)
| sd_opaque t c n : same_data (VOpaque t c n) (VOpaque t c n)
| sd_list i j l l' : Forall2 same_data l l' -> same_data (VList i l) (VList j l')
| sd_dict i j m m' :
    Forall2 (fun a b => fst a = fst b /\ same_data (snd a) (snd b)) m m' -> same_data (VDict i m) (VDict j m').

(** No dictionary value, at any depth of dictionaries, is a list whose only element is a list. *)
Inductive no_nested_singleton : value -> Prop :=
| nns_nil : no_nested_singleton VNil
| nns_scal s : no_nested_singleton (VScal s)
| nns_opaque t c n : no_nested_singleton (VOpaque t c n)
| nns_list i l : (forall j l', l <> [VList j l']) -> no_nested_singleton (VList i l)
| nns_dict i m : Forall (fun kv => no_nested_singleton (snd kv)) m -> no_nested_singleton (VDict i m).

(** Recursive merge with priority to the first argument. *)
Inductive merges : value -> value -> value -> Prop :=
| merges_dict i j t s r :
    NoDup (mkeys r) ->
    (forall k, mget t k = None -> mget r k = mget s k) ->
    (forall k a, mget t k = Some a -> mget s k = None -> mget r k = Some a) ->
    (forall k a b, mget t k = Some a -> mget s k = Some b ->
                   exists c, mget r k = Some c /\ merges a b c) ->
    merges (VDict i t) (VDict j s) (VDict i r)
| merges_other a b :
    ~ (exists i j t s, a = VDict i t /\ b = VDict j s) -> merges a b a.

(** The elements a dictionary value contributes to a transposition: those of a list, nothing for nil,
    the value itself otherwise. *)
Definition elements (v : value) : list value :=
  match v with VNil => [] | VList _ l => l | _ => [v] end.

(** Neither nil nor a list. *)
Definition single (v : value) : Prop := v <> VNil /\ forall i l, v <> VList i l.

(** Accumulated values: nothing, the value itself, or the list of the values. *)
Definition accumulated (i : impl) (vs : list value) : option value :=
  match vs with [] => None | [v] => Some v | _ => Some (VList i vs) end.

(** Wherever the first value has a dictionary and the second has something, this is a dictionary. *)
Inductive dict_where_dict : value -> value -> Prop :=
| dwd_dict i j m m' :
    (forall k a b, mget m k = Some a -> mget m' k = Some b -> dict_where_dict a b) ->
    dict_where_dict (VDict i m) (VDict j m')
| dwd_other a b : (forall i m, a <> VDict i m) -> dict_where_dict a b.

(** Values found for one key in a sequence of dictionaries, combined from left to right. *)
Inductive merged_values : list (option value) -> option value -> Prop :=
| mv_one o : merged_values [o] o
| mv_skip o os r : merged_values (o :: os) r -> merged_values (o :: None :: os) r
| mv_first v os r : merged_values (Some v :: os) r -> merged_values (None :: Some v :: os) r
| mv_merge a b c os r : merges a b c -> merged_values (Some c :: os) r ->
    merged_values (Some a :: Some b :: os) r.

(** ** Template helpers *)

(** Neither nil nor any kind of map. *)
Definition plain (v : value) : Prop :=
  match v with VNil | VMap _ _ | VMapK _ _ | VDict _ _ => False | _ => True end.

(** The zero values of Go: nil, false, 0, "", empty containers, nil pointers. *)
Definition zero_value (nilp : value -> bool) (v : value) : Prop :=
  match v with
  | VNil => True
  | VScal (SBool b) => b = false
  | VScal (SInt _ z) => z = 0%Z
  | VScal (SFloat f) => exists sign, f = SpecFloat.S754_zero sign
  | VScal (SStr _ s) => s = []
  | VSlice _ l | VList _ l => l = []
  | VMap _ m | VDict _ m => m = []
  | VMapK _ m => m = []
  | VOpaque _ _ _ => nilp v = true
  end.

Definition nil_pointer (nilp : value -> bool) (v : value) : Prop :=
  match v with VOpaque _ _ _ => nilp v = true | _ => False end.
