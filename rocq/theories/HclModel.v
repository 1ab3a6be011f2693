(** Rendering of data as HCL: hcl/hcl.go and hcl/utilities.go. *)
From Coq Require Import String Ascii List ZArith NArith Bool.
From Verif Require Import GoStr ValueModel DictModel Utf8 TextModel QuoteModel ConvModel.
Import ListNotations.

(** identifierRegex: hcl/utilities.go:253; the first character is in the range A to z *)
Definition ident_start (c : ascii) : bool := within 65 122 c.
Definition word_char (c : ascii) : bool := within 48 57 c || within 65 90 c || within 97 122 c || Ascii.eqb c "_".
Definition ident_char (c : ascii) : bool := word_char c || Ascii.eqb c "-".
Definition is_identifier (k : str) : bool := match k with [] => false | c :: r => ident_start c && forallb ident_char r end.

(** isArrayOfMap: hcl/utilities.go:227-237 *)
Definition is_map0 (v : value) : bool := match v with VMap t _ => N.eqb t 0 | _ => false end.

(** singleMap: hcl/utilities.go:239-249; the key of a map with one entry that is a map, else empty *)
Definition single_map (m : list (str * value)) : str :=
  match m with [(k, v)] => if is_map0 v then k else [] | _ => [] end.

(** specialFormat: hcl/utilities.go:74 *)
Definition marker : str := $"#HCL_ARRAY_MAP#!".

Section WithEnv.
Context {E : Env} {P : PrintEnv}.

(** id: hcl/utilities.go:252-258 *)
Definition hcl_id (k : str) : str := if is_identifier k then k else go_quote k.

(** The case of strings: hcl/utilities.go:84-100 *)
Definition hcl_string (ind s : str) : str :=
  let q := go_quote s in
  match ind with
  | [] => q
  | _ =>
      if contains $"\n" q then
        let u := removelast (tl q) in
        let u := replace_all $"\n" [NL] u in
        let u := replace_all $"\\" $"\" u in
        let u := replace_all $"\""" $"""" u in
        let u := replace_all $"\r" [CR] u in
        let u := replace_all $"\t" [TAB] u in
        let u := unindent u in
        if has_suffix [NL] u then $"<<HCLVALUE" ++ NL :: u ++ $"HCLVALUE" else q
      else q
  end.

(** The case of lists, for the rendered elements: hcl/utilities.go:120-134.  The branch of lines
    103-119 cannot be reached: a list of one map is replaced by the map (76-79). *)
Definition hcl_list (prefix ind : str) (results : list str) : str :=
  let total := list_sum (map (@List.length ascii) results) in
  let new_line := existsb (contains [NL]) results in
  if (Nat.ltb 60 total && negb (str_eqb ind [])) || new_line
  then $"[" ++ NL :: indent (join ($"," ++ [NL]) results) (prefix ++ ind) ++ $"," ++ NL :: $"]"
  else $"[" ++ join (if str_eqb ind [] then $"," else $", ") results ++ $"]".

(** One entry of a map: the key, the rendered value, whether the value counts as a dictionary
    (hclHelper.TryAsDictionary succeeds). *)
Definition hcl_entry : Type := str * str * bool.

(** fmt.Sprintf("%*s", -width, s) *)
Definition pad_right (width : nat) (s : str) : str := s ++ spaces (width - rune_count s).

(** One round of the loop on the keys: hcl/utilities.go:166-205; the items so far and keyLen. *)
Definition hcl_item (full : bool) (ind : str) (multi : bool) (st : list str * nat) (e : hcl_entry) : list str * nat :=
  let '(items, key_len) := st in
  let '(k, r, dict) := e in
  if Bool.eqb (contains [NL] r) multi then
    let '(items, key_len) := if multi && negb (match items with [] => true | _ => false end) then (items ++ [[]], O) else (items, key_len) in
    let equal := if dict && full
                 then if multi then $" " else if str_eqb ind [] then [] else $" = "
                 else if str_eqb ind [] then $"=" else $" = " in
    if contains marker r then (items ++ [replace_all marker (hcl_id k) r], key_len)
    else
      let key_len := if str_eqb ind []
                     then if str_eqb equal [] && negb (has_prefix $"{" r) then S (List.length (hcl_id k)) else O
                     else key_len in
      (items ++ [pad_right key_len (hcl_id k) ++ equal ++ r], key_len)
  else (items, key_len).

(** keyLen: hcl/utilities.go:150-162 *)
Definition hcl_key_len (ind : str) (rendered : list (str * str)) : nat :=
  if str_eqb ind [] then O
  else list_max (map (fun kr => if contains [NL] (snd kr) then O else List.length (fst kr)) rendered).

(** The case of maps, for the rendered values: hcl/utilities.go:136-216 *)
Definition hcl_map (full head : bool) (prefix ind : str) (m : list (str * value)) (rendered : list (str * str)) : str :=
  let text k := match mget rendered k with Some r => r | None => [] end in
  let key := single_map m in
  if full && negb (str_eqb key []) then hcl_id key ++ $" " ++ text key
  else
    let dict k := match try_as_dict Hcl (mget0 m k) with Some _ => true | None => false end in
    let entries := map (fun k => (k, text k, dict k)) (sort_strings (mkeys m)) in
    let pass1 := fold_left (hcl_item full ind false) entries ([], hcl_key_len ind rendered) in
    let items := fst (fold_left (hcl_item full ind true) entries pass1) in
    if head then join (if str_eqb ind [] then $" " else [NL]) items
    else if str_eqb ind [] || (match items with [] => true | _ => false end) then $"{" ++ join $" " items ++ $"}"
    else $"{" ++ NL :: indent (join [NL] items) (prefix ++ ind) ++ NL :: $"}".

(** marshalHCL: hcl/utilities.go:67-225, on what MarshalGo produces (nil, strings, numbers, booleans,
    []interface{}, map[string]interface{}); other types, for which it fails, give an empty text here. *)
Fixpoint marshal_hcl (full head : bool) (prefix ind : str) (v : value) {struct v} : str :=
  match v with
  | VNil => $"null"
  | VScal (SStr _ s) => hcl_string ind s
  | VScal s => sprint_scalar s
  | VSlice _ [VMap _ m] => hcl_map full head prefix ind m (map (fun kv => (fst kv, marshal_hcl full false [] ind (snd kv))) m)
  | VSlice _ l => hcl_list prefix ind (map (marshal_hcl full false [] ind) l)
  | VMap _ m => hcl_map full head prefix ind m (map (fun kv => (fst kv, marshal_hcl full false [] ind (snd kv))) m)
  | _ => []
  end.

(** MarshalIndent, MarshalInternal, MarshalTFVarsIndent: hcl/hcl.go:81-110 *)
Definition hcl_marshal_indent (v : value) (prefix ind : str) : str := marshal_hcl true true prefix ind (marshal_go v).
Definition hcl_marshal (v : value) : str := hcl_marshal_indent v [] [].
Definition hcl_marshal_internal (v : value) : str := marshal_hcl false false [] [] (marshal_go v).
Definition hcl_marshal_tfvars (v : value) (prefix ind : str) : str := marshal_hcl false true prefix ind (marshal_go v).

End WithEnv.
