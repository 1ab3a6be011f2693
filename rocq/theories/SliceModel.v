(** slice, extract, rest, initial, safeIndex, key and content: template/slice.go and
    template/extra_data.go. *)
From Coq Require Import String Ascii List ZArith NArith Bool.
From Verif Require Import GoStr ValueModel ListModel DictModel DataModel Utf8 TextModel FloatModel MathModel.
Import ListNotations.
Local Open Scope Z_scope.

(** reverseString: slice.go:195-201.  The runes of the text in reverse order; bytes that are no valid
    UTF-8 come back as the encoding of U+FFFD. *)
Definition replacement : str := map ascii_of_N [239; 191; 189]%N.
Definition rune_text (c : chunk) : str := if N.eqb (fst c) rune_error then replacement else snd c.
Definition reverse_string (s : str) : str := concat (map rune_text (rev (chunks s))).

(** The Go expression s[b:e] on a text. *)
Definition slice_panic : str := $"slice bounds out of range".
Definition substring (s : str) (b e : Z) : res str :=
  if (0 <=? b) && (b <=? e) && (e <=? zlen s)
  then Ok (firstn (Z.to_nat (e - b)) (skipn (Z.to_nat b) s)) else Panic slice_panic.

Section WithEnv.
Context {E : Env} {NE : NumEnv}.

(** safeIndex: slice.go:11-23; an element of a text is a byte. *)
Definition safe_index (v : value) (index : Z) (def : value) : res value :=
  match v with
  | VSlice _ l | VList _ l =>
      if (index <? 0) || (zlen l <=? index) then Ok def else Ok (nth (Z.to_nat index) l VNil)
  | VScal (SStr _ s) =>
      if (index <? 0) || (zlen s <=? index) then Ok def
      else Ok (VScal (SInt KUint8 (Z.of_N (N_of_ascii (nth (Z.to_nat index) s "000"%char)))))
  | _ => Err $"first argument is not indexable"
  end.

(** selectElement: slice.go:151-157, on a list and on a text. *)
Definition select_element (l : list value) (index : Z) : res value :=
  let index := if index <? 0 then zlen l + index else index in
  if (index <? 0) || (zlen l <=? index) then Panic index_panic else Ok (nth (Z.to_nat index) l VNil).
Definition select_byte (s : str) (index : Z) : res value :=
  let index := if index <? 0 then zlen s + index else index in
  do t <- substring s index (index + 1); Ok (vstr t).

(** x.(int64) on the result of min or max: slice.go:126-127 *)
Definition as_int64 (r : res value) : res Z :=
  match r with
  | Ok (VScal (SInt KInt64 z)) => Ok z
  | Ok _ => Panic $"interface conversion"
  | Err m => Panic m
  | Panic m => Panic m
  end.

(** The bounds computed by sliceList: slice.go:112-127; begin, end and whether to reverse. *)
Definition slice_bounds (length : Z) (a b : value) : res (Z * Z * bool) :=
  do x <- to_int a;
  let x := if x <? 0 then length + x + 1 else x in
  do y <- to_int b;
  let y := if y <? 0 then length + y + 1 else y in
  let reverse := y <? x in
  let '(x, y) := if reverse then (y, x) else (x, y) in
  do y <- as_int64 (tpl_min [vint y; vint length]);
  do x <- as_int64 (tpl_max [vint x; vint 0]);
  Ok (x, y, reverse).

(** sliceList on a text: slice.go:129-136 *)
Definition slice_text (s : str) (a b : value) : res value :=
  do r <- slice_bounds (zlen s) a b;
  let '(x, y, reverse) := r in
  do t <- substring s x y;
  Ok (vstr (if reverse : bool then reverse_string t else t)).

(** sliceList on a list: slice.go:138-148.  [i] is the implementation of the new list; the elements
    are stored with Set, which converts them. *)
Definition slice_list (i : impl) (l : list value) (a b : value) : res value :=
  do r <- slice_bounds (zlen l) a b;
  let '(x, y, reverse) := r in
  if zlen l <? x then Ok (VList i [])
  else if y - x <? 0 then Panic $"makeslice: len out of range"
  else let results := map (conv i) (firstn (Z.to_nat (y - x)) (skipn (Z.to_nat x) l)) in
       Ok (VList i (if reverse : bool then list_reverse i results else results)).

(** sliceMap: slice.go:73-109 *)
Definition in_key_range (k1 k2 k : str) : bool := negb (str_ltb k k1) && negb (str_ltb k2 k).
Definition slice_map (i : impl) (m : list (str * value)) (extract : bool) (args : list value) : res value :=
  match args, extract with
  | [], _ => Ok VNil
  | [a], _ => Ok (dict_get1 m a)
  | [a; b], false =>
      let k1 := sprint a in
      let k2 := sprint b in
      let swap := str_ltb k2 k1 in
      let keys := if swap then list_reverse i (dict_get_keys m) else dict_get_keys m in
      let '(k1, k2) := if swap then (k2, k1) else (k1, k2) in
      Ok (VList i (fold_left (fun acc k => if in_key_range k1 k2 (sprint k)
                                           then list_append i acc [dict_get1 m (vstr (sprint k))] else acc) keys []))
  | _, false => Err $"slice cannot have more that two parts"
  | _, true => Ok (VList i (map (fun k => conv i (dict_get1 m k)) args))
  end.

(** The list implementation collections.AsList(value).Create uses. *)
Definition list_impl (v : value) : impl := match v with VList i _ => i | _ => dflt end.

(** sliceInternal: slice.go:33-71 *)
Definition slice_internal (v : value) (extract : bool) (args : list value) : res value :=
  trap
    (let args := snd (convert_args VNil args) in
     match v with
     | VSlice _ l | VList _ l =>
         let i := list_impl v in
         match args, extract with
         | [], _ => Ok v
         | [a], _ => do n <- to_int a; select_element l n
         | [a; b], false => slice_list i l a b
         | _, false => Err $"to many parameters"
         | _, true => do r <- map_res (fun a => do n <- to_int a; select_element l n) args;
                      Ok (VList i (map (conv i) r))
         end
     | VScal (SStr _ s) =>
         match args, extract with
         | [], _ => Ok v
         | [a], _ => do n <- to_int a; select_byte s n
         | [a; b], false => slice_text s a b
         | _, false => Err $"to many parameters"
         | _, true => do r <- map_res (fun a => do n <- to_int a; select_byte s n) args;
                      Ok (vstr (sprint_all r))
         end
     | VMap _ _ | VMapK _ _ | VDict _ _ =>
         match c_try_as_dict v with
         | Some (i, m) => slice_map i m extract args
         | None => Panic $"object cannot be converted to dictionary"
         end
     | _ => Err $"cannot apply slice on type"
     end).

(** slice, extract: slice.go:25-31; rest, initial: extra_data.go:555-556 *)
Definition tpl_slice (v : value) (args : list value) : res value := slice_internal v false args.
Definition tpl_extract (v : value) (args : list value) : res value := slice_internal v true args.
Definition tpl_rest (v : value) : res value := tpl_slice v [vint 1; vint (-1)].
Definition tpl_initial (v : value) : res value := tpl_slice v [vint 0; vint (-2)].

(** getSingleMapElement: slice.go:159-192.  The key and the value of a map with one entry; for a
    slice of such maps, the list of the keys and the map of the values. *)
Definition single_error : str := $"argument must be a map with a single key".
Fixpoint single_element (v : value) : res (value * value) :=
  match v with
  | VMap _ m | VDict _ m => match m with [(k, x)] => Ok (vstr k, x) | _ => Err single_error end
  | VMapK _ m => match m with [(k, x)] => Ok (VScal k, x) | _ => Err single_error end
  | VSlice _ l | VList _ l =>
      do kvs <- (fix each (l : list value) : res (list (value * value)) :=
                   match l with
                   | [] => Ok []
                   | x :: r => do kv <- single_element x; do kvs <- each r; Ok (kv :: kvs)
                   end) l;
      Ok (VSlice 0 (map fst kvs), VMap 0 (mset_all (map (fun kv => (sprint (fst kv), snd kv)) kvs) []))
  | _ => Err single_error
  end.

(** key, content: extra_data.go:426-434 *)
Definition tpl_key (v : value) : res value := do kv <- single_element v; Ok (fst kv).
Definition tpl_content (v : value) : res value := do kv <- single_element v; Ok (snd kv).

End WithEnv.
