(** Structures converted to native Go maps. *)
From Coq Require Import String Ascii List ZArith NArith Bool PeanoNat.
From Verif Require Import GoStr ValueModel.
Import ListNotations.

(** What MarshalGo gives: nil, a map, or something else. *)
Inductive gv := GNil | GMap (m : list (str * gv)) | GOther (s : str).
(** A field of a structure.  [f_visible] is the outcome of the tests on embedded and unexported fields
    (collections/convert_data.go:214-232), [f_exported] is IsExported of the name (308-311), [f_zero] IsEmptyValue of
    the field (utils.go:6-24), [f_text] what String of reflect.Value gives and [f_value] what MarshalGo gives. *)
Record field := Field { f_name : str; f_visible : bool; f_exported : bool; f_tags : list (str * str); f_zero : bool; f_text : str; f_value : res gv }.

(** The tag of a field: convert_data.go:283-289 *)
Definition categories : list str := [$"hcl"; $"json"; $"yaml"; $"xml"; $"toml"].
Fixpoint first_tag (tags : list (str * str)) (l : list str) : str :=
  match l with
  | [] => []
  | c :: r => match mget tags c with Some (x :: v) => x :: v | _ => first_tag tags r end
  end.
Definition tag_parts (f : field) : str * list str :=
  match split $"," (first_tag (f_tags f) categories) with n :: o => (n, o) | [] => ([], []) end.
Definition has_option (o : str) (f : field) : bool := existsb (str_eqb o) (snd (tag_parts f)).

(** getTags: convert_data.go:279-305.  The last field that is a key and the last error. *)
Fixpoint find_key (tname : str) (key : option field) (err : option str) (fs : list field) : option field * option str :=
  match fs with
  | [] => (key, err)
  | f :: r =>
      if has_option $"key" f then
        find_key tname (Some f) (match key with
                                 | Some k => Some ($"multiple keys defined on struct '" ++ tname ++ $"' ('" ++ f_name k ++ $"' and '" ++ f_name f ++ $"')")
                                 | None => err
                                 end) r
      else find_key tname key err r
  end.

(** The loop on the fields: convert_data.go:212-264 *)
Definition add_field (key : option field) (m : list (str * gv)) (f : field) : res (list (str * gv)) :=
  let name := fst (tag_parts f) in
  let omit := has_option $"omitempty" f in
  if negb (f_visible f) then Ok m
  else if str_eqb name $"-" || negb (f_exported f) || (omit && f_zero f) then Ok m
  else
    let name := match name with [] => f_name f | _ => name end in
    if has_option $"inline" f || has_option $"squash" f then
      do v <- f_value f;
      match v with
      | GMap sub => Ok (mset_all sub m)
      | _ => Err ($"cannot apply inline or squash to non struct on field '" ++ f_name f ++ $"'")
      end
    else
      do v <- f_value f;
      match v with
      | GNil => Panic $"reflect: call of reflect.Value.Interface on zero Value"
      | _ =>
          if omit && match v with GMap [] => true | _ => false end then Ok m
          else Ok (match key with
                   | Some k => mset m (f_text k) (GMap [(name, v)])
                   | None => mset m name v
                   end)
      end.
Fixpoint add_fields (key : option field) (m : list (str * gv)) (fs : list field) : res (list (str * gv)) :=
  match fs with
  | [] => Ok m
  | f :: r => do m <- add_field key m f; add_fields key m r
  end.
(** MarshalGo of a structure: convert_data.go:206-265.  Simplification: the map is a list without order. *)
Definition marshal_struct (tname : str) (fs : list field) : res gv :=
  match find_key tname None None fs with
  | (_, Some e) => Err e
  | (key, None) => do m <- add_fields key [] fs; Ok (GMap m)
  end.
