(** Values handled by the collections (Go [interface{}]), their printed representation, and the
    conversion of native containers into list and dictionary implementations.

    Transcribed from collections/implementation/base_helper.go, generic.go and the String methods of
    list_helper.go and dict_helper.go. *)
From Coq Require Import String Ascii List ZArith NArith Bool.
From Coq Require Import SpecFloat.
From Verif Require Import GoStr.
Import ListNotations.

(** The implementations of IGenericList / IDictionary: collections/implementation/generic.go:17-151
    (base) and its generated copies json/generated_impl.go, yaml/generated_impl.go,
    hcl/generated_impl.go, xml/generated_impl.go. *)
Inductive impl := Base | Json | Yaml | Hcl | Xml.

Definition impl_eqb (a b : impl) : bool :=
  match a, b with
  | Base, Base | Json, Json | Yaml, Yaml | Hcl, Hcl | Xml, Xml => true
  | _, _ => false
  end.

(** Go integer kinds. *)
Inductive ikind := KInt | KInt8 | KInt16 | KInt32 | KInt64 | KUint | KUint8 | KUint16 | KUint32 | KUint64.

Definition ikind_eqb (a b : ikind) : bool :=
  match a, b with
  | KInt, KInt | KInt8, KInt8 | KInt16, KInt16 | KInt32, KInt32 | KInt64, KInt64
  | KUint, KUint | KUint8, KUint8 | KUint16, KUint16 | KUint32, KUint32 | KUint64, KUint64 => true
  | _, _ => false
  end.

(** Scalars.  [SStr true] is collections.String (collections/string.go:14), [SStr false] a native
    string.  Floats are IEEE numbers of the standard library's SpecFloat. *)
Inductive scalar :=
| SBool (b : bool)
| SInt (k : ikind) (z : Z)
| SFloat (f : spec_float)
| SStr (named : bool) (s : str).

(** Go interface{} values.
    - [VSlice t l]: a native slice or array; [t] identifies its Go type (0 is []interface{}).
    - [VMap t m]: a native map with string keys; [t] identifies its type (0 is map[string]interface{}).
    - [VMapK t m]: a native map with other scalar keys (such as map[interface{}]interface{}).
    - [VList i l], [VDict i m]: an implementation of IGenericList / IDictionary.
    - [VOpaque ty cmp n]: a value of any other type (function, structure, pointer ...), identified by
      its type, whether the type is comparable, and an identity.
    The order of the association lists is the (arbitrary) iteration order of the map.
    Simplification: pointers are opaque, i.e. pointers to containers, which base_helper.go:109-111 and
    168-170 dereference once, are not modelled; nil maps and nil slices are empty ones. *)
Inductive value :=
| VNil
| VScal (s : scalar)
| VSlice (t : N) (l : list value)
| VMap (t : N) (m : list (str * value))
| VMapK (t : N) (m : list (scalar * value))
| VList (i : impl) (l : list value)
| VDict (i : impl) (m : list (str * value))
| VOpaque (ty : N) (cmp : bool) (n : N).

Definition vstr (s : str) : value := VScal (SStr false s).
Definition vnstr (s : str) : value := VScal (SStr true s).
Definition vint (z : Z) : value := VScal (SInt KInt z).
Definition vbool (b : bool) : value := VScal (SBool b).

(** What the model does not define about formatting: the text fmt.Sprint gives for floats and opaque
    values, the String method of the json, yaml, hcl and xml implementations, and the text of native
    maps whose keys are not strings; and the default implementation registered with
    SetListHelper / SetDictionaryHelper (collections/generic_list.go:71, dictionary.go:60; main.go:150-164
    chooses it from the command line). *)
Class Env := { fmtx : value -> str; dflt : impl }.

(** ** Maps as association lists *)

(** m[k] *)
Fixpoint mget {A} (m : list (str * A)) (k : str) : option A :=
  match m with
  | [] => None
  | (k', v) :: m' => if str_eqb k k' then Some v else mget m' k
  end.

(** m[k] = v *)
Fixpoint mset {A} (m : list (str * A)) (k : str) (v : A) : list (str * A) :=
  match m with
  | [] => [(k, v)]
  | (k', v') :: m' => if str_eqb k k' then (k, v) :: m' else (k', v') :: mset m' k v
  end.

(** delete(m, k) *)
Fixpoint mdel {A} (m : list (str * A)) (k : str) : list (str * A) :=
  match m with
  | [] => []
  | (k', v') :: m' => if str_eqb k k' then mdel m' k else (k', v') :: mdel m' k
  end.

Definition mhas {A} (m : list (str * A)) (k : str) : bool :=
  match mget m k with Some _ => true | None => false end.

Definition mkeys {A} (m : list (str * A)) : list str := map fst m.

(** m[k] with Go's zero value nil for missing keys. *)
Definition mget0 (m : list (str * value)) (k : str) : value :=
  match mget m k with Some v => v | None => VNil end.

(** Successive assignments. *)
Definition mset_all {A} (kvs : list (str * A)) (m : list (str * A)) : list (str * A) :=
  fold_left (fun acc kv => mset acc (fst kv) (snd kv)) kvs m.

Section WithEnv.
Context {E : Env}.

(** ** fmt.Sprint *)

(** fmt.Sprint of a scalar. *)
Definition sprint_scalar (s : scalar) : str :=
  match s with
  | SBool true => $"true"
  | SBool false => $"false"
  | SInt _ z => itoa z
  | SFloat _ => fmtx (VScal s)
  | SStr _ s => s
  end.

(** The text of key/value pairs in key order, "k1:v1 k2:v2": dict_helper.go:10-17 for baseDict and
    package fmt for native maps. *)
Definition render_entries (r : list (str * str)) : str :=
  join $" " (map (fun k => k ++ $":" ++ match mget r k with Some t => t | None => [] end)
                 (sort_strings (mkeys r))).

(** fmt.Sprint of one value: list_helper.go:10 (baseList), dict_helper.go:10-17 (baseDict), package
    fmt for the others. *)
Fixpoint sprint (v : value) : str :=
  match v with
  | VNil => $"<nil>"
  | VScal s => sprint_scalar s
  | VSlice _ l => $"[" ++ join $" " (map sprint l) ++ $"]"
  | VList Base l => $"[" ++ join $" " (map sprint l) ++ $"]"
  | VMap _ m => $"map[" ++ render_entries (map (fun kv => (fst kv, sprint (snd kv))) m) ++ $"]"
  | VDict Base m => $"dict[" ++ render_entries (map (fun kv => (fst kv, sprint (snd kv))) m) ++ $"]"
  | VMapK _ _ | VList _ _ | VDict _ _ | VOpaque _ _ _ => fmtx v
  end.

(** ** Conversion *)

(** NeedConversion(object, false, _): base_helper.go:224-254 *)
Fixpoint need_conv (v : value) : bool :=
  match v with
  | VNil | VScal _ | VOpaque _ _ _ => false
  | VSlice _ _ | VMap _ _ | VMapK _ _ => true
  | VList _ l => existsb need_conv l
  | VDict _ m => existsb (fun kv => need_conv (snd kv)) m
  end.

(** BaseHelper.Convert for implementation i: base_helper.go:62-65 and TryConvert 209-218, with
    tryAsDictionary 108-150 (dictionaries first) and TryAsList 167-205 unfolded.
    - A list or dictionary implementation without native content is kept as it is (lines 139, 196).
    - Otherwise a new container of implementation i receives the converted elements (140-146, 197-201).
    - Native maps whose keys are not strings use the printed key (131); with two keys printed alike
      the last one wins.
    - Anything else is returned unchanged (217).
    Simplification: the second NeedConversion pass after a native slice or map of a specific element
    type (lines 188-190, 130-132) is never effective (see [conv_converted]). *)
Fixpoint conv (i : impl) (v : value) : value :=
  match v with
  | VNil | VScal _ | VOpaque _ _ _ => v
  | VSlice _ l => VList i (if existsb need_conv l then map (conv i) l else l)
  | VList j l => if existsb need_conv l then VList i (map (conv i) l) else v
  | VMap _ m =>
      VDict i (if existsb (fun kv => need_conv (snd kv)) m
               then map (fun kv => (fst kv, conv i (snd kv))) m else m)
  | VDict j m =>
      if existsb (fun kv => need_conv (snd kv)) m
      then VDict i (map (fun kv => (fst kv, conv i (snd kv))) m) else v
  | VMapK _ m =>
      VDict i (mset_all (map (fun kv => (sprint_scalar (fst kv), conv i (snd kv))) m) [])
  end.

(** TryAsDictionary: base_helper.go:99-150; None is the error "object cannot be converted to
    dictionary".  nil gives an empty dictionary (117-118). *)
Definition try_as_dict (i : impl) (v : value) : option (impl * list (str * value)) :=
  match v with
  | VNil => Some (i, [])
  | VDict _ _ | VMap _ _ | VMapK _ _ =>
      match conv i v with VDict j m => Some (j, m) | _ => None end
  | _ => None
  end.

(** TryAsList: base_helper.go:167-205; None is the error "object cannot be converted to generic
    list".  nil gives an empty list (176-177). *)
Definition try_as_list (i : impl) (v : value) : option (impl * list value) :=
  match v with
  | VNil => Some (i, [])
  | VList _ _ | VSlice _ _ =>
      match conv i v with VList j l => Some (j, l) | _ => None end
  | _ => None
  end.

(** lh.AsList on a native []interface{}: base_helper.go:51-53, 167-205.  The result is a list of
    implementation i; elements are converted only if one of them needs it. *)
Definition as_list_arr (i : impl) (l : list value) : list value :=
  if existsb need_conv l then map (conv i) l else l.

(** collections.TryAsList: collections/generic_list.go:111-117; a list implementation is returned as
    it is, anything else goes through the registered default helper. *)
Definition c_try_as_list (v : value) : option (impl * list value) :=
  match v with
  | VList j l => Some (j, l)
  | _ => try_as_list dflt v
  end.

(** ** Interface equality *)

(** Go [==] on two interface values.  Comparing two values of the same non-comparable type panics. *)
Definition uncomparable : str := $"runtime error: comparing uncomparable type".
Definition iface_eq (a b : value) : res bool :=
  match a, b with
  | VNil, VNil => Ok true
  | VScal (SBool x), VScal (SBool y) => Ok (Bool.eqb x y)
  | VScal (SInt k x), VScal (SInt k' y) => Ok (ikind_eqb k k' && Z.eqb x y)
  | VScal (SFloat x), VScal (SFloat y) => Ok (SFeqb x y)
  | VScal (SStr n x), VScal (SStr n' y) => Ok (Bool.eqb n n' && str_eqb x y)
  | VSlice t _, VSlice t' _ => if N.eqb t t' then Panic uncomparable else Ok false
  | VMap t _, VMap t' _ => if N.eqb t t' then Panic uncomparable else Ok false
  | VMapK t _, VMapK t' _ => if N.eqb t t' then Panic uncomparable else Ok false
  | VList i _, VList j _ => if impl_eqb i j then Panic uncomparable else Ok false
  | VDict i _, VDict j _ => if impl_eqb i j then Panic uncomparable else Ok false
  | VOpaque t c n, VOpaque t' c' n' =>
      if N.eqb t t' then (if c then Ok (N.eqb n n') else Panic uncomparable) else Ok false
  | _, _ => Ok false
  end.

End WithEnv.
