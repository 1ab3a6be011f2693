(** What values denote, and what it means that a map changes. *)
From Coq Require Import String Ascii List ZArith NArith Bool PeanoNat.
From Verif Require Import GoStr ValueModel ListModel HeapModel SetModel.
Import ListNotations.

(** Finite data, whatever the types that hold it *)
Inductive tree := TNil | TScal (s : scalar) | TMap (m : list (str * tree)) | TList (l : list tree).
Fixpoint height (t : tree) : nat :=
  match t with
  | TNil | TScal _ => 0
  | TMap m => S (fold_right (fun kt n => Nat.max (height (snd kt)) n) 0 m)
  | TList l => S (fold_right (fun t n => Nat.max (height t) n) 0 l)
  end.
(** [denotes h v t]: the value [v] in the maps [h] is the data [t]. *)
Inductive denotes (h : maps) : gval -> tree -> Prop :=
| de_nil : denotes h GNil TNil
| de_scal s : denotes h (GScal s) (TScal s)
| de_dict i p ts : p < length h -> NoDup (map fst (entries h p)) -> denotes_all h (map snd (entries h p)) ts ->
    denotes h (GDict i p) (TMap (combine (map fst (entries h p)) ts))
| de_native p ts : p < length h -> NoDup (map fst (entries h p)) -> denotes_all h (map snd (entries h p)) ts ->
    denotes h (GNative p) (TMap (combine (map fst (entries h p)) ts))
| de_typed p ts : p < length h -> NoDup (map fst (entries h p)) -> denotes_all h (map snd (entries h p)) ts ->
    denotes h (GTyped p) (TMap (combine (map fst (entries h p)) ts))
| de_list i l ts : denotes_all h l ts -> denotes h (GList i l) (TList ts)
| de_slice l ts : denotes_all h l ts -> denotes h (GSlice l) (TList ts)
with denotes_all (h : maps) : list gval -> list tree -> Prop :=
| da_nil : denotes_all h [] []
| da_cons v t l ts : denotes h v t -> denotes_all h l ts -> denotes_all h (v :: l) (t :: ts).
(** Data that only consists of dictionaries and lists of the package *)
Inductive within (h : maps) : gval -> gval -> Prop :=
| wi_self v : within h v v
| wi_dict i p k v x : In (k, v) (entries h p) -> within h v x -> within h (GDict i p) x
| wi_list i l v x : In v l -> within h v x -> within h (GList i l) x.
Definition native (v : gval) : Prop := match v with GNative _ | GTyped _ | GSlice _ => True | _ => False end.
Definition converted (h : maps) (v : gval) : Prop := forall x, within h v x -> ~ native x.
(** The maps that exist remain as they are. *)
Definition unchanged (h h' : maps) : Prop := forall p, p < length h -> nth_error h' p = nth_error h p.
(** Only one entry of one of them changes. *)
Definition assigned (h h' : maps) (p : loc) (k : str) (o : option gval) : Prop :=
  (forall q, q < length h -> q <> p -> nth_error h' q = nth_error h q) /\
  exists m, nth_error h' p = Some (Some m) /\ forall k', mget m k' = if str_eqb k' k then o else mget (entries h p) k'.
(** Values that are not maps of any kind, nor nil *)
Definition no_map (v : gval) : Prop := match v with GScal _ | GList _ _ | GSlice _ => True | _ => False end.
(** What is not changed by set and unset, [i] being the implementation used by default: nil, nil maps, native maps of
    other types than map[string]interface{}, and native maps that contain native data *)
Definition lost (i : impl) (h : maps) (d : gval) : Prop :=
  match d with GNil => True | GNative p => ~ converted h (GDict i p) \/ nth_error h p = Some None | GTyped _ => True | GDict _ p => nth_error h p = Some None | _ => False end.
