(** The template functions set and unset (template/extra_data.go:396-420) on dictionaries and native Go maps by
    reference, with the conversion of what they are given (collections/dictionary.go:84-90,
    collections/implementation/base_helper.go:99-255).
    Simplifications: pointers and structures are not modelled; the elements of lists and slices are part of the
    value (nothing here writes into an array that exists); a new map is allocated when its entries are known
    (nothing refers to it earlier); the keys of other native maps are given as text. *)
From Coq Require Import String Ascii List ZArith NArith Bool PeanoNat.
From Verif Require Import GoStr ValueModel ListModel HeapModel.
Import ListNotations.

(** Interface values: [GDict i p] is a dictionary of implementation [i], [GNative p] a map[string]interface{},
    [GTyped p] a map of another type, [GList i l] a list of implementation [i], [GSlice l] a native slice. *)
Inductive gval :=
| GNil
| GScal (s : scalar)
| GDict (i : impl) (p : loc)
| GNative (p : loc)
| GTyped (p : loc)
| GList (i : impl) (l : list gval)
| GSlice (l : list gval).
(** The maps; None is a nil map. *)
Definition maps := list (option (list (str * gval))).
Definition entries (h : maps) (p : loc) : list (str * gval) :=
  match nth_error h p with Some (Some m) => m | _ => [] end.
Definition fresh (h : maps) (m : list (str * gval)) : maps * loc := (h ++ [Some m], length h).

(** A loop that returns at the first true; None is a stack overflow. *)
Fixpoint any_need {A} (f : A -> option bool) (l : list A) : option bool :=
  match l with
  | [] => Some false
  | x :: r => match f x with Some false => any_need f r | o => o end
  end.
(** NeedConversion, not strict: base_helper.go:224-255 *)
Fixpoint need (fuel : nat) (h : maps) (v : gval) : option bool :=
  match fuel with
  | O => None
  | S f =>
      match v with
      | GNil | GScal _ => Some false
      | GNative _ | GTyped _ | GSlice _ => Some true
      | GDict _ p => any_need (fun kv => need f h (snd kv)) (entries h p)
      | GList _ l => any_need (need f h) l
      end
  end.

(** Convert each value in turn. *)
Fixpoint convert_all (rec : maps -> gval -> option (maps * gval)) (h : maps) (l : list gval) : option (maps * list gval) :=
  match l with
  | [] => Some (h, [])
  | x :: r => match rec h x with
              | Some (h1, y) => match convert_all rec h1 r with Some (h2, ys) => Some (h2, y :: ys) | None => None end
              | None => None
              end
  end.
(** CreateDictionary, then Set of each entry: base_helper.go:127-132, 140-146, dict_helper.go:181-187 *)
Definition rebuilt (rec : maps -> gval -> option (maps * gval)) (h : maps) (m : list (str * gval)) : option (maps * loc) :=
  match convert_all rec h (map snd m) with
  | Some (h1, ws) => Some (fresh h1 (fold_left (fun acc kw => mset acc (fst kw) (snd kw)) (combine (map fst m) ws) []))
  | None => None
  end.
(** tryAsDictionary, not strict: base_helper.go:108-150.  [rec] is Convert of the helper, [i] its implementation;
    Some None is the error of line 134. *)
Definition as_dict (rec : maps -> gval -> option (maps * gval)) (need : maps -> gval -> option bool) (i : impl) (h : maps) (v : gval)
    : option (option (maps * impl * loc)) :=
  let result :=
    match v with
    | GDict j p => Some (Some (h, j, p))
    | GNil => let (h1, p) := fresh h [] in Some (Some (h1, i, p))
    | GNative p => Some (Some (h, i, p))
    | GTyped p => match rebuilt rec h (entries h p) with Some (h1, q) => Some (Some (h1, i, q)) | None => None end
    | _ => Some None
    end in
  match result with
  | Some (Some (h1, j, p)) =>
      match need h1 (GDict j p) with
      | Some true => match rebuilt rec h1 (entries h1 p) with Some (h2, q) => Some (Some (h2, i, q)) | None => None end
      | Some false => result
      | None => None
      end
  | _ => result
  end.
(** TryAsList: base_helper.go:166-205 *)
Definition as_list (rec : maps -> gval -> option (maps * gval)) (need : maps -> gval -> option bool) (i : impl) (h : maps) (j : impl) (l : list gval)
    : option (maps * gval) :=
  match need h (GList j l) with
  | Some true => match convert_all rec h l with Some (h1, ws) => Some (h1, GList i ws) | None => None end
  | Some false => Some (h, GList j l)
  | None => None
  end.
(** Convert, TryConvert: base_helper.go:62-65, 209-218, with the helper of implementation [i]; a slice of another type
    than []interface{} is filled element by element (188-192), which gives the same as line 186 and 196-202. *)
Fixpoint convert (fuel : nat) (i : impl) (h : maps) (v : gval) : option (maps * gval) :=
  match fuel with
  | O => None
  | S f =>
      match v with
      | GNil | GScal _ => Some (h, v)
      | GDict _ _ | GNative _ | GTyped _ =>
          match as_dict (convert f i) (need fuel) i h v with
          | Some (Some (h1, j, p)) => Some (h1, GDict j p)
          | _ => None
          end
      | GList j l => as_list (convert f i) (need fuel) i h j l
      | GSlice l => as_list (convert f i) (need fuel) i h i l
      end
  end.

Section Setting.
Variable dflt : impl.                      (* the helper set by SetDictionaryHelper *)
Variable sprint : maps -> gval -> str.     (* fmt.Sprint *)
Variable fuel : nat.

(** collections.TryAsDictionary: collections/dictionary.go:84-90 *)
Definition try_dict (h : maps) (v : gval) : option (option (maps * impl * loc)) :=
  match v with
  | GDict i p => Some (Some (h, i, p))
  | _ => as_dict (convert fuel dflt) (need (S fuel)) dflt h v
  end.
(** DictHelper.Set: dict_helper.go:181-187 *)
Definition dict_set (h : maps) (i : impl) (p : loc) (key v : gval) : option maps :=
  match nth_error h p with
  | Some None => match convert fuel i h v with Some (h1, w) => Some (fst (fresh h1 [(sprint h key, w)])) | None => None end
  | _ => match convert fuel i h v with Some (h1, w) => Some (upd h1 p (Some (mset (entries h1 p) (sprint h key) w))) | None => None end
  end.
(** Delete of one key: generic.go:130-132, dict_helper.go:60-62, 242-250, 89-96; the error is not used *)
Definition dict_delete (h : maps) (p : loc) (key : gval) : maps :=
  if mhas (entries h p) (sprint h key) then upd h p (Some (mdel (entries h p) (sprint h key))) else h.

(** set: template/extra_data.go:396-407; None is a stack overflow, the flag tells whether there is no error. *)
Definition tpl_set (h : maps) (arg1 arg2 arg3 : gval) : option (maps * bool) :=
  match try_dict h arg1 with
  | Some (Some (h1, i, p)) => option_map (fun h2 => (h2, true)) (dict_set h1 i p arg2 arg3)
  | Some None =>
      match try_dict h arg3 with
      | Some (Some (h1, i, p)) => option_map (fun h2 => (h2, true)) (dict_set h1 i p arg1 arg2)
      | Some None => Some (h, false)
      | None => None
      end
  | None => None
  end.
(** unset: template/extra_data.go:409-420 *)
Definition tpl_unset (h : maps) (arg1 arg2 : gval) : option (maps * bool) :=
  match try_dict h arg1 with
  | Some (Some (h1, _, p)) => Some (dict_delete h1 p arg2, true)
  | Some None =>
      match try_dict h arg2 with
      | Some (Some (h1, _, p)) => Some (dict_delete h1 p arg1, true)
      | Some None => Some (h, false)
      | None => None
      end
  | None => None
  end.
End Setting.
