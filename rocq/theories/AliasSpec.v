(** Vocabulary for C49: the settings of a function and what it sees when it is called. *)
From Coq Require Import String Ascii List ZArith NArith Bool.
From Verif Require Import GoStr ValueModel ListModel DictModel HeapModel IncludeModel IncludeSpec AliasModel.
Import ListNotations.

(** ** Settings *)
Definition small (c : ascii) : Prop := 97 <= nat_of_ascii c <= 122.
(** The word in capital and small letters. *)
Inductive written : str -> str -> Prop :=
| wr_nil : written [] []
| wr_small c r w : small c -> written r w -> written (c :: r) (c :: w)
| wr_capital c c' r w : small c' -> nat_of_ascii c + 32 = nat_of_ascii c' -> written r w -> written (c :: r) (c' :: w)
| wr_dotted r w : written r w -> written ("196"%char :: "176"%char :: r) ("i"%char :: w)
| wr_kelvin r w : written r w -> written ("226"%char :: "132"%char :: "170"%char :: r) ("k"%char :: w).
(** The words for each setting. *)
Definition words (name : str) : list str :=
  if str_eqb name $"description" then [$"d"; $"desc"; $"description"]
  else if str_eqb name $"group" then [$"g"; $"group"]
  else if str_eqb name $"args" then [$"a"; $"args"; $"arguments"]
  else if str_eqb name $"aliases" then [$"aliases"]
  else if str_eqb name $"def" then [$"def"; $"default"; $"defaults"]
  else [].
Definition means (key name : str) : Prop := exists w, In w (words name) /\ written key w.
(** Lists for the arguments and the aliases, a dictionary for the defaults. *)
Definition suits (name : str) (v : value) : Prop :=
  ((name = $"args" \/ name = $"aliases") -> exists i l, v = VList i l) /\ (name = $"def" -> exists i m, v = VDict i m).
(** Each key is a setting with a suitable value, no setting is given twice. *)
Definition sound (cfg : list (str * value)) : Prop :=
  NoDup (map fst cfg) /\ (forall key v, In (key, v) cfg -> exists name, means key name /\ suits name v) /\
  forall key key' name, In key (map fst cfg) -> In key' (map fst cfg) -> means key name -> means key' name -> key = key'.
Definition says (cfg : list (str * value)) (name : str) (v : value) : Prop := exists key, In (key, v) cfg /\ means key name.
(** The orders in which Go may visit the configuration. *)
Definition visits (cfg : list (str * value)) (sched : list str) : Prop := incl (map fst cfg) sched.

(** ** Calls *)
Fixpoint first_of (l : list (option hval)) : option hval :=
  match l with
  | [] => None
  | Some v :: _ => Some v
  | None :: r => first_of r
  end.
(** References lead to existing objects, no key is there twice. *)
Definition wellformed (h : heap) : Prop :=
  (forall p k i q, mget (map_at h p) k = Some (HDict i q) -> q < List.length h) /\ (forall p, NoDup (mkeys (map_at h p))).
(** The last argument bound to the name k. *)
Definition bound (names : list str) (args : list hval) (k : str) (v : hval) : Prop :=
  exists i, nth_error names i = Some k /\ nth_error args i = Some v /\ forall j, i < j -> nth_error names j = Some k -> nth_error args j = None.
(** No two of the dictionaries have a dictionary under the same name. *)
Definition disjoint (h : heap) (a b : loc) : Prop :=
  forall k i p j q, mget (map_at h a) k = Some (HDict i p) -> mget (map_at h b) k = Some (HDict j q) -> False.
(** What ConvertData gives for a text is new. *)
Definition fresh_data (h h' : heap) : Prop :=
  keeps h h' /\ List.length h <= List.length h' /\ (forall p k i q, List.length h <= p -> mget (map_at h' p) k = Some (HDict i q) -> List.length h <= q) /\ (forall p, List.length h <= p -> NoDup (mkeys (map_at h' p))).
(** The arguments are not one dictionary (or nil, or a text that can be read as data). *)
Definition positional (convert : heap -> str -> option (heap * hval)) (names : list str) (args : list hval) : Prop :=
  List.length args <> 1 \/ List.length names = 1 \/
  forall v, In v args -> match v with HDict _ _ | HNil => False | HScal (SStr false s) => forall h, convert h s = None | _ => True end.
