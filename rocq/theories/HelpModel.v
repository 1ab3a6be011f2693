(** The list of functions (template/template_help.go:44-177), over the table of functions of FuncsModel.v.
    strings.ToLower is a parameter; the titles of the groups, the signatures and the examples are not modelled. *)
From Coq Require Import String Ascii List ZArith NArith Bool PeanoNat.
From Verif Require Import GoStr Utf8 ValueModel TextModel HclModel FuncsModel.
Import ListNotations.

Section Help.
Context {F : Type}.
Variable lower : str -> str.
Variable pre post : str.     (* what color.HiBlackString puts around a text, nothing without colours *)
Variable tf : table F.       (* t.functions, in any order *)

(** The texts searched: template_help.go:112-118 *)
Definition search_text (category detailed : bool) (name : str) (e : entry F) : str :=
  lower (name ++ $" " ++ join $" " (e_aliases e)) ++ (if category then $" " ++ lower (e_group e) else []) ++
  (if detailed then $" " ++ lower (e_description e) else []).
(** filterFunctions: template_help.go:87-128 *)
Definition filter_functions (all category detailed : bool) (filters : list str) : list str :=
  let functions := get_functions tf true true in
  if all && (match filters with [] => true | _ => false end) then functions
  else filter (fun name =>
    match mget tf name with
    | None => false
    | Some e =>
        if e_is_alias e && negb all then false
        else match filters with
             | [] => true
             | _ => existsb (fun f => contains f (search_text category detailed name e)) (map lower filters)
             end
    end) functions.

(** PrintFunctions: the groups in order and the functions of each, template_help.go:44-65 *)
Definition group_of (by_category : bool) (name : str) : str :=
  if by_category then match mget tf name with Some e => e_group e | None => [] end else [].
Definition categories (by_category : bool) (functions : list str) : list (str * list str) :=
  fold_left (fun m f => mset m (group_of by_category f) (sget [] m (group_of by_category f) ++ [f])) functions [].
Definition sections (by_category : bool) (functions : list str) : list (str * list str) :=
  let m := categories by_category functions in map (fun k => (k, sget [] m k)) (sort_strings (mkeys m)).
(** maxLength: template_help.go:47, 58 *)
Definition max_length (functions : list str) : nat := fold_left (fun m f => Nat.max (length f) m) functions 0.

(** printFunctionsShort: template_help.go:130-151, the names of each line; colLength is l / 5 rounded up. *)
Definition nb_column : nat := 5.
Definition col_length (l : nat) : nat := (l + (nb_column - 1)) / nb_column.
Definition short_rows (functions : list str) : list (list str) :=
  let col := col_length (length functions) in
  map (fun r => let i := r * nb_column in
    flat_map (fun j => match nth_error functions (j * col + i / nb_column) with Some item => [item] | None => [] end) (seq 0 nb_column)) (seq 0 col).
(** The text of a cell and of a line: template_help.go:140-147 *)
Definition short_cell (width : nat) (item : str) : str :=
  match mget tf item with
  | Some (Alias _ _) => pad_right (width + 2 + length (pre ++ post)) (pre ++ item ++ post)
  | _ => pad_right (width + 2) item
  end.
Definition short_line (width : nat) (row : list str) : str := concat (map (short_cell width) row).

(** printFunctionsDetailed: the names, template_help.go:157-171, and the description of each (174-178) *)
Definition detailed_names (functions : list str) : list str :=
  sort_strings (mkeys (fold_left (fun m f => match mget tf f with
                                             | Some (Own _) => mset m f tt
                                             | Some (Alias _ i) => mset m (i_name i) tt
                                             | None => m
                                             end) functions [])).
Definition detailed_description (name : str) : str :=
  match mget tf name with Some (Own i) => i_description i | _ => [] end.
End Help.
