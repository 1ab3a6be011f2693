(** Dictionaries: collections/implementation/dict_helper.go and the method table of generic.go, on
    pure values.  A dictionary of implementation [i] is represented by its entries in iteration
    order; sharing between dictionaries is the subject of HeapModel.v. *)
From Coq Require Import String Ascii List ZArith NArith Bool.
From Verif Require Import GoStr ValueModel ListModel.
Import ListNotations.
Local Open Scope Z_scope.

Section WithEnv.
Context {E : Env}.

Notation dict := (list (str * value)).

(** KeysAsString: dict_helper.go:120-126, Sorted: collections/string_array.go:106-110 *)
Definition dict_keys_as_string (m : dict) : list str := sort_strings (mkeys m).

(** GetKeys: dict_helper.go:99-107; the elements are collections.String values. *)
Definition dict_get_keys (m : dict) : list value := map vnstr (dict_keys_as_string m).

(** Get with one key: dict_helper.go:78-79 *)
Definition dict_get1 (m : dict) (key : value) : value := mget0 m (sprint key).

(** DictHelper.Get: dict_helper.go:74-86 *)
Definition dict_get (i : impl) (m : dict) (keys : list value) : value :=
  match keys with
  | [] => VNil
  | [k] => dict_get1 m k
  | _ => VList i (map (fun k => conv i (dict_get1 m k)) keys)
  end.

(** GetValues: dict_helper.go:211-217 *)
Definition dict_get_values (i : impl) (m : dict) : list value :=
  map (fun k => conv i (mget0 m k)) (dict_keys_as_string m).

(** Has: dict_helper.go:89-96 *)
Definition dict_has (m : dict) (keys : list value) : bool :=
  forallb (fun k => mhas m (sprint k)) keys && (0 <? zlen m).

(** Set: dict_helper.go:181-187 *)
Definition dict_set (i : impl) (m : dict) (key v : value) : dict := mset m (sprint key) (conv i v).

(** Default: dict_helper.go:52-57 *)
Definition dict_default (m : dict) (key defVal : value) : value :=
  if negb (dict_has m [key]) then defVal else dict_get1 m key.

(** delete: dict_helper.go:242-250.  Returns the dictionary (modified in place) and the error. *)
Fixpoint dict_delete_loop (m : dict) (keys : list value) (mustExist : bool) : dict * option str :=
  match keys with
  | [] => (m, None)
  | k :: r =>
      if mustExist && negb (dict_has m [k]) then (m, Some ($"key " ++ sprint k ++ $" not found"))
      else dict_delete_loop (mdel m (sprint k)) r mustExist
  end.

(** Delete: dict_helper.go:60-62, generic.go:130-132 *)
Definition dict_delete (m : dict) (key : value) (others : list value) : dict * option str :=
  dict_delete_loop m (key :: others) true.

(** Flush: dict_helper.go:65-71 *)
Definition dict_flush (m : dict) (keys : list value) : dict :=
  let keys := match keys with [] => dict_get_keys m | _ => keys end in
  fst (dict_delete_loop m keys false).

(** Pop: dict_helper.go:171-178; returns the result and the modified dictionary. *)
Definition dict_pop (i : impl) (m : dict) (keys : list value) : value * dict :=
  match keys with
  | [] => (VNil, m)
  | _ => (dict_get i m keys, fst (dict_delete_loop m keys false))
  end.

(** The copy Clone makes of one (non-native) value: dict_helper.go:38-45.  Dictionaries are cloned
    recursively with the helper of the receiver, lists with their own Clone (new_list of their
    implementation) followed by ConvertList; the elements of the list are not cloned. *)
Fixpoint clone_conv (i : impl) (v : value) : value :=
  match v with
  | VDict _ m => VDict i (map (fun kv => (fst kv, clone_conv i (snd kv))) m)
  | VList j l => VList i (list_clone j l)
  | _ => v
  end.
(** Native values are first converted by TryAsDictionary / TryAsList (40, 42). *)
Definition clone_value (i : impl) (v : value) : value := clone_conv i (conv i v).

(** Clone: dict_helper.go:32-49.  Without keys, the sorted keys of the dictionary are used; every
    key, even a missing one, is Set in the new dictionary. *)
Definition dict_clone (i : impl) (m : dict) (keys : list value) : dict :=
  let keys := match keys with [] => dict_get_keys m | _ => keys end in
  fold_left (fun acc k => dict_set i acc k (clone_value i (dict_get1 m k))) keys [].

(** Omit: dict_helper.go:163-168, generic.go:138-140 *)
Definition dict_omit (i : impl) (m : dict) (key : value) (others : list value) : dict :=
  dict_flush (dict_clone i m []) (key :: others).

(** deepMerge: dict_helper.go:139-160, structurally on the source.  An entry missing in the target is
    copied; when both values are dictionaries they are merged; otherwise the target is kept. *)
Fixpoint merge_val (t s : value) {struct s} : value :=
  match t, s with
  | VDict i tm, VDict _ sm =>
      VDict i ((fix go (tm sm : dict) {struct sm} : dict :=
                  match sm with
                  | [] => tm
                  | (k, sv) :: r =>
                      go (match mget tm k with
                          | None => mset tm k sv
                          | Some tv => mset tm k (merge_val tv sv)
                          end) r
                  end) tm sm)
  | _, _ => t
  end.
Fixpoint deep_merge (tm sm : dict) {struct sm} : dict :=
  match sm with
  | [] => tm
  | (k, sv) :: r =>
      deep_merge (match mget tm k with
                  | None => mset tm k sv
                  | Some tv => mset tm k (merge_val tv sv)
                  end) r
  end.

(** Merge: dict_helper.go:129-137; None is a nil source. *)
Definition dict_merge (target : dict) (sources : list (option dict)) : dict :=
  fold_left (fun t s => match s with None => t | Some s => deep_merge t s end) sources target.

(** Add: dict_helper.go:190-208.  [i] is the implementation of the dictionary (198-202 use
    collections.TryAsList and list.Append of the list found, then dict.CreateList). *)
Definition dict_add (i : impl) (m : dict) (key v : value) : dict :=
  let k := sprint key in
  match mget m k with
  | Some current =>
      match c_try_as_list current with
      | Some (j, l) => mset m k (VList j (list_append j l [v]))
      | None => mset m k (VList i (list_append i [] [current; v]))
      end
  | None => mset m k (conv i v)
  end.

(** Transpose: dict_helper.go:221-235 *)
Definition dict_transpose (i : impl) (m : dict) : dict :=
  fold_left
    (fun acc key =>
       let v := dict_get1 m key in
       match c_try_as_list v with
       | Some (_, l) => fold_left (fun acc x => dict_add i acc x key) l acc
       | None => dict_add i acc v key
       end)
    (dict_get_keys m) [].

(** collections.TryAsDictionary on any object: collections/dictionary.go:83-89; a dictionary is returned
    as it is, anything else goes through the registered default helper. *)
Definition c_try_as_dict (v : value) : option (impl * dict) :=
  match v with
  | VDict j m => Some (j, m)
  | _ => try_as_dict dflt v
  end.

End WithEnv.
