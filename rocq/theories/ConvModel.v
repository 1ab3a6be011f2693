(** Conversion to native Go data and the post-processing of decoded documents:
    collections/convert_data.go (MarshalGo), json/json.go, yaml/yaml.go, hcl/utilities.go. *)
From Coq Require Import String Ascii List ZArith NArith Bool.
From Coq Require Import SpecFloat.
From Verif Require Import GoStr ValueModel ListModel DictModel FloatModel MathModel.
Import ListNotations.

Section WithEnv.
Context {E : Env} {NE : NumEnv}.

(** MarshalGo on scalars: convert_data.go:167-186; the reflect kind decides, so collections.String is
    a string. *)
Definition marshal_kind (k : ikind) : ikind :=
  match k with
  | KInt | KInt8 | KInt16 | KInt32 => KInt
  | KUint | KUint8 | KUint16 | KUint32 => KUint
  | KInt64 => KInt64
  | KUint64 => KUint64
  end.
Definition marshal_scalar (s : scalar) : scalar :=
  match s with
  | SStr _ s => SStr false s
  | SInt k z => SInt (marshal_kind k) z
  | SFloat f => SFloat f
  | SBool b => SBool b
  end.

(** MarshalGo: convert_data.go:147-271.  Simplifications: opaque values are taken for functions,
    channels ... (default branch, 265-268); structures and pointers are not modelled. *)
Fixpoint marshal_go (v : value) : value :=
  match v with
  | VNil => VNil
  | VScal s => VScal (marshal_scalar s)
  | VSlice _ l | VList _ l => VSlice 0 (map marshal_go l)
  | VMap _ m | VDict _ m => VMap 0 (mset_all (map (fun kv => (fst kv, marshal_go (snd kv))) m) [])
  | VMapK _ m => VMap 0 (mset_all (map (fun kv => (sprint_scalar (fst kv), marshal_go (snd kv))) m) [])
  | VOpaque _ _ _ => vstr (fmtx v)
  end.

(** Native: collections/implementation/generic.go:115, list_helper.go:213 *)
Definition native_of (v : value) : value := marshal_go v.

(** The nesting of containers, used as a bound on the recursion below. *)
Fixpoint depth (v : value) : nat :=
  match v with
  | VNil | VScal _ | VOpaque _ _ _ => 0
  | VSlice _ l | VList _ l => S (list_max (map depth l))
  | VMap _ m | VDict _ m => S (list_max (map (fun kv => depth (snd kv)) m))
  | VMapK _ m => S (list_max (map (fun kv => depth (snd kv)) m))
  end.

(** The float branch of json/json.go:71-76; int(value) *)
Definition json_number (v : value) : value :=
  match v with
  | VScal (SFloat f) => if SFeqb (ffloor f) f then vint (f_int64 f) else v
  | _ => v
  end.

(** map[interface{}]interface{} to map[string]interface{}: yaml/yaml.go:52-59 *)
Definition yaml_keys (v : value) : value :=
  match v with
  | VMapK t m => if N.eqb t 0 then VMap 0 (mset_all (map (fun kv => (sprint_scalar (fst kv), snd kv)) m) []) else v
  | _ => v
  end.

(** transformElement: json/json.go:58-76, yaml/yaml.go:51-73, hcl/utilities.go:52-65 for i = Json,
    Yaml, Hcl.  Set converts what it stores (base_helper.go:62). *)
Fixpoint transform_element (fuel : nat) (i : impl) (source : value) : value :=
  match fuel with
  | O => source
  | S fuel =>
      let source := match i with Yaml => yaml_keys source | _ => source end in
      match try_as_dict i source with
      | Some (j, m) =>
          VDict j (fold_left (fun m key => dict_set j m (vnstr key) (transform_element fuel i (dict_get1 m (vnstr key))))
                             (dict_keys_as_string m) m)
      | None =>
          match try_as_list i source with
          | Some (j, l) => VList j (map (fun sub => conv j (transform_element fuel i sub)) l)
          | None => match i with Json => json_number source | _ => source end
          end
      end
  end.

(** The type []map[string]interface{}. *)
Definition maps_type : N := 1.

(** flatten: hcl/utilities.go:16-40 *)
Fixpoint flatten (v : value) : value :=
  match v with
  | VSlice t l =>
      if N.eqb t maps_type then
        match l with
        | [x] => flatten x
        | _ => VSlice t (map flatten l)
        end
      else if N.eqb t 0 then VSlice t (map flatten l) else v
  | VMap t m => if N.eqb t 0 then VMap t (map (fun kv => (fst kv, flatten (snd kv))) m) else v
  | _ => v
  end.

(** transform: json/json.go:50-57, yaml/yaml.go:42-49, hcl/utilities.go:42-50; [isMap] tells whether
    the target is a *map[string]interface{}. *)
Definition transform (i : impl) (isMap : bool) (out : value) : value :=
  let source := match i with Hcl => flatten out | _ => out end in
  let result := transform_element (S (depth source)) i source in
  if isMap then native_of result else result.

End WithEnv.
