(** The list of templates and the decoding of HCL texts. *)
From Coq Require Import String Ascii List ZArith NArith Bool PeanoNat.
From Verif Require Import GoStr Utf8 ValueModel MathModel HclModel ConvModel PathModel CliModel.
Import ListNotations.

(** ** PrintTemplates: template/template_help.go:16-41 *)

(** The templates: name and ParseName; getTemplateNames (add_funcs.go:58-66) sorts the names, Lookup finds the
    template of a name. *)
Definition parse_name (tpls : list (str * str)) (n : str) : str := match mget tpls n with Some p => p | None => [] end.
(** template_help.go:19-24: the longest name in bytes *)
Definition max_len (tpls : list (str * str)) (names : list str) : nat :=
  fold_left (fun m n => if Nat.ltb m (length n) && negb (str_eqb n (parse_name tpls n)) then length n else m) names 0.
(** template_help.go:28-39.  The verb pads the name on the right to a number of runes; [faint] is the colour.
    A panic of Relative stops the loop. *)
Fixpoint template_lines (faint : str -> str) (all : bool) (folder : str) (tpls : list (str * str)) (width : nat) (names : list str) : res (list str) :=
  match names with
  | [] => Ok []
  | n :: r =>
      let p := parse_name tpls n in
      let same := str_eqb n p in
      if all || negb same then
        let name := if same then [] else n in
        do f <- relative folder p;
        do l <- template_lines faint all folder tpls width r;
        Ok (if negb (str_eqb (f ++ name) $".") then (pad_right width name ++ $" " ++ faint f) :: l else l)
      else template_lines faint all folder tpls width r
  end.
Definition print_templates (faint : str -> str) (all : bool) (folder : str) (tpls : list (str * str)) : res (list str) :=
  let names := sort_strings (map fst tpls) in
  template_lines faint all folder tpls (max_len tpls names) names.

(** ** Unmarshal: hcl/hcl.go:51-68 *)

Section Hcl.
Context {E : Env} {NE : NumEnv}.
(** hcl.Unmarshal into the target and into a dictionary; a panic becomes an error (errors.Trap).
    Simplification: transform is taken as total (ConvModel.v), though its type assertion panics, and is trapped,
    when the target is a map and the value none. *)
Variable decode : str -> res value.
Variable decode_dict : str -> res (list (str * value)).
Definition hcl_unmarshal (is_map : bool) (text : str) : res value :=
  let bs := trim_space text ++ [NL] in
  match decode bs with
  | Ok v => Ok (transform Hcl is_map v)
  | Panic e => Err e
  | Err e =>
      match decode_dict ($"_=" ++ bs) with
      | Err _ => Err e
      | Panic p => Err p
      | Ok m => match mget m $"_" with
                | Some v => match v with
                            | VNil => Err $"reflect: call of reflect.Value.Set on zero Value"
                            | _ => Ok (transform Hcl is_map v)
                            end
                | None => Err $"reflect: call of reflect.Value.Set on zero Value"
                end
      end
  end.
End Hcl.
