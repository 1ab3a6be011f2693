(** Template functions over lists and dictionaries (template/extra_data.go, template/extra_utils.go),
    the conditional helpers (collections/utils.go) and list formatting (utils/list.go). *)
From Coq Require Import String Ascii List ZArith NArith Bool SpecFloat.
From Verif Require Import GoStr ValueModel ListModel DictModel.
Import ListNotations.
Local Open Scope Z_scope.

Section WithEnv.
Context {E : Env}.

Notation dict := (list (str * value)).

(** ** pick, omit, pickv, pluck *)

(** pick: template/extra_data.go:506-508; dict.Clone(keys...) *)
Definition tpl_pick (i : impl) (m : dict) (keys : list value) : dict := dict_clone i m keys.

(** omit: template/extra_data.go:510-512 *)
Definition tpl_omit (i : impl) (m : dict) (key : value) (others : list value) : dict :=
  dict_omit i m key others.

(** The error message of pickv: template/extra_data.go:517-524.  [fmt_v message over] is
    fmt.Sprintf(message, over) for a message that contains "%v". *)
Definition pickv_message (fmt_v : str -> str -> str) (message : str) (o : dict) : str :=
  let over := join $", " (dict_keys_as_string o) in
  if contains $"%v" message then fmt_v message over
  else (if str_eqb message [] then $"Unwanted values" else message) ++ $" " ++ over.

(** pickv: template/extra_data.go:514-528.  Line 527 passes the slice append(otherKeys, key) as one
    single key to the variadic pick. *)
Definition tpl_pickv (fmt_v : str -> str -> str) (i : impl) (m : dict) (message : str)
    (key : value) (others : list value) : res dict :=
  let o := tpl_omit i m key others in
  if 0 <? zlen o then Err (pickv_message fmt_v message o)
  else Ok (tpl_pick i m [VSlice 0 (others ++ [key])]).

(** pluck: template/extra_data.go:545-553.  The result of result.Append is dropped (line 549) and
    [result] has length 0. *)
Definition tpl_pluck (key : value) (dicts : list (impl * dict)) : list value :=
  fold_left (fun result d =>
               if dict_has (snd d) [key]
               then let _ := list_append dflt result [dict_get1 (snd d) key] in result
               else result) dicts [].

(** ** get, hasKey, createDict *)

(** get: template/extra_data.go:360-382; the dictionary is accepted on either side. *)
Definition tpl_get (arg1 arg2 : value) (defs : list value) : res value :=
  do result <- match c_try_as_dict arg1 with
               | Some (_, m) => Ok (dict_get1 m arg2)
               | None => match c_try_as_dict arg2 with
                         | Some (_, m) => Ok (dict_get1 m arg1)
                         | None => Err $"must supply dictionary object"
                         end
               end;
  Ok (match result, defs with
      | VNil, [] => VNil
      | VNil, [d] => d
      | VNil, _ => VSlice 0 defs
      | v, _ => v
      end).

(** hasKey: template/extra_data.go:384-394 *)
Definition tpl_has_key (arg1 arg2 : value) : res bool :=
  match c_try_as_dict arg1 with
  | Some (_, m) => Ok (dict_has m [arg2])
  | None => match c_try_as_dict arg2 with
            | Some (_, m) => Ok (dict_has m [arg1])
            | None => Err $"must supply dictionary object"
            end
  end.

(** createDict: template/extra_data.go:533-543 *)
Fixpoint set_pairs (m : dict) (v : list value) : dict :=
  match v with
  | k :: x :: r => set_pairs (dict_set dflt m k x) r
  | _ => m
  end.
Definition tpl_create_dict (v : list value) : res dict :=
  if negb (zlen v mod 2 =? 0) then Err $"must supply even number of arguments (keypair)"
  else Ok (set_pairs [] v).

(** array: template/extra_data.go:348-358; Slice kinds are native slices and list implementations. *)
Definition tpl_array (v : value) : value :=
  match v with
  | VNil | VSlice _ _ | VList _ _ => v
  | _ => VSlice 0 [v]
  end.

(** ** contains *)

(** trapError: template/utils.go; panics become errors. *)
Definition trap {A} (r : res A) : res A := match r with Panic m => Err m | _ => r end.

(** containsInternal: template/extra_data.go:586-610.  When the "list" is not a list and there is one
    element: if the element is a list the arguments are swapped (602-603), if it is a string this is a
    substring test (597-600), otherwise an error (601). *)
Definition tpl_contains (strict : bool) (l : value) (elements : list value) : res bool :=
  let test l elements :=
    if strict then trap (list_contains_strict (snd (c_as_list l)) elements)
    else Ok (list_contains (snd (c_as_list l)) elements) in
  match c_try_as_list l, elements with
  | None, [e] =>
      match c_try_as_list e with
      | None => match e with
                | VScal (SStr _ s) => Ok (contains (sprint l) s)
                | _ => Err $"object cannot be converted to generic list"
                end
      | Some _ => test e [l]
      end
  | _, _ => test l elements
  end.

(** ** Conditional helpers *)

(** IsEmptyValue: collections/utils.go:6-24 on an interface value.  [nilp] tells which opaque values are
    nil pointers. *)
Definition is_empty_value (nilp : value -> bool) (v : value) : bool :=
  match v with
  | VSlice _ l | VList _ l => zlen l =? 0
  | VMap _ m | VDict _ m => zlen m =? 0
  | VMapK _ m => zlen m =? 0
  | VScal (SStr _ s) => zlen s =? 0
  | VScal (SBool b) => negb b
  | VScal (SInt _ z) => z =? 0
  | VScal (SFloat f) => match f with S754_zero _ => true | _ => false end
  | VNil => true
  | VOpaque _ _ _ => nilp v
  end.

(** IfUndef: collections/utils.go:27-39; nilp holds only for pointers, so the kind test of line 32 is
    part of it. *)
Definition if_undef (nilp : value -> bool) (def : value) (values : list value) : value :=
  match values with
  | [] => def
  | [v] => match v with
           | VNil => def
           | VOpaque _ _ _ => if nilp v then def else v
           | _ => v
           end
  | _ => VSlice 0 values
  end.

(** IIf: collections/utils.go:43-48 *)
Definition iif (nilp : value -> bool) (test vtrue vfalse : value) : value :=
  if is_empty_value nilp test then vfalse else vtrue.

(** Default: collections/utils.go:51-53 *)
Definition default_ (nilp : value -> bool) (v def : value) : value := iif nilp v v def.

(** ** repeat and FormatList *)

(** list.Set with a dropped result, for [k] from the given position: in place inside the bounds, lost
    outside (list_helper.go:126-135 returns the enlarged list). *)
Fixpoint set_each (i : impl) (l : list value) (k : nat) (vs : list value) : list value :=
  match vs with
  | [] => l
  | v :: r => set_each i (upd l k (conv i v)) (S k) r
  end.

(** repeat: template/extra_utils.go:198-208 *)
Definition tpl_repeat (n : Z) (a : value) : res (list value) :=
  if n <? 0 then Err $"n must be greater or equal than 0"
  else Ok (set_each dflt (repeat VNil (Z.to_nat n)) 0 (repeat a (Z.to_nat n))).

(** FormatList: utils/list.go:25-42; [fmt1 v] is fmt.Sprintf(format, v). *)
Definition format_list (fmt1 : value -> str) (args : list value) : impl * list value :=
  let il := match args with
            | [a] => match c_try_as_list a with
                     | Some il => il
                     | None => (dflt, new_list dflt [a])
                     end
            | _ => (dflt, as_list_arr dflt args)
            end in
  let (i, l) := il in
  (i, set_each i (list_clone i l) 0 (map (fun v => vstr (fmt1 v)) l)).

End WithEnv.
