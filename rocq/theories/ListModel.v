(** Generic lists: collections/implementation/list_helper.go, base_helper.go (NewList) and the
    method table of generic.go.  A list of implementation [i] is represented by its elements; sharing
    of the backing array is the subject of HeapModel.v. *)
From Coq Require Import String Ascii List ZArith NArith Bool.
From Verif Require Import GoStr ValueModel.
Import ListNotations.
Local Open Scope Z_scope.

Section WithEnv.
Context {E : Env}.

Definition zlen {A} (l : list A) : Z := Z.of_nat (List.length l).

(** ListHelper.Add: list_helper.go:19-28 (Append: prepend=false, Prepend: prepend=true). *)
Definition list_add (i : impl) (l : list value) (prepend : bool) (objects : list value) : list value :=
  let objects := map (conv i) objects in
  as_list_arr i (if prepend then objects ++ l else l ++ objects).

Definition list_append i l objs := list_add i l false objs.   (* generic.go:48-50 *)
Definition list_prepend i l objs := list_add i l true objs.   (* generic.go:75-77 *)

(** BaseHelper.NewList: base_helper.go:22-39.  A single slice or array argument (native or list
    implementation, both have reflect.Kind Slice) is unrolled; elements are appended one by one. *)
Definition new_list (i : impl) (items : list value) : list value :=
  let items := match items with
               | [VSlice _ l] => l
               | [VList _ l] => l
               | _ => items
               end in
  fold_left (fun acc x => list_append i acc [x]) items [].

(** collections.AsList on any object: generic_list.go:84-90; NewList(object) when it is not a list. *)
Definition c_as_list (v : value) : impl * list value :=
  match c_try_as_list v with
  | Some r => r
  | None => (dflt, new_list dflt [v])
  end.

(** ListHelper.Clone: list_helper.go:31-33 *)
Definition list_clone (i : impl) (l : list value) : list value := new_list i l.

(** ListHelper.Contains, strict=false: list_helper.go:36-52 *)
Definition list_contains (source values : list value) : bool :=
  forallb (fun value => existsb (fun item => str_eqb (sprint value) (sprint item)) source) values
  && (0 <? zlen source).

(** The inner loop of Contains, strict=true: list_helper.go:40-45 *)
Fixpoint strict_match (v : value) (source : list value) : res bool :=
  match source with
  | [] => Ok false
  | item :: r => do eq <- iface_eq v item; if eq : bool then Ok true else strict_match v r
  end.
(** ListHelper.Contains, strict=true: list_helper.go:36-52 *)
Fixpoint list_contains_strict (source values : list value) : res bool :=
  match values with
  | [] => Ok (0 <? zlen source)
  | v :: r => do m <- strict_match v source; if m : bool then list_contains_strict source r else Ok false
  end.

(** ListHelper.Find, strict=false: list_helper.go:55-66; k is the loop index, the result holds ints. *)
Fixpoint find_from (element : str) (k : Z) (l : list value) : list Z :=
  match l with
  | [] => []
  | v :: r => if str_eqb element (sprint v) then k :: find_from element (k + 1) r
              else find_from element (k + 1) r
  end.
Definition list_find (l : list value) (element : value) : list value :=
  map vint (find_from (sprint element) 0 l).

(** ListHelper.Find, strict=true: list_helper.go:55-66 *)
Fixpoint find_strict_from (element : value) (k : Z) (l : list value) : res (list Z) :=
  match l with
  | [] => Ok []
  | v :: r => do eq <- iface_eq element v;
              do t <- find_strict_from element (k + 1) r;
              Ok (if eq : bool then k :: t else t)
  end.
Definition list_find_strict (l : list value) (element : value) : res (list value) :=
  do t <- find_strict_from element 0 l; Ok (map vint t).

(** GetIndexes with one index: list_helper.go:73-82 *)
Definition get_index (l : list value) (index : Z) : value :=
  let index := if index <? 0 then index + zlen l else index in
  if (index <? 0) || (index >=? zlen l) then VNil
  else nth (Z.to_nat index) l VNil.

(** ListHelper.GetIndexes: list_helper.go:69-89.  With several indexes, every position of the new
    list is Set, hence converted. *)
Definition list_get (i : impl) (l : list value) (indexes : list Z) : value :=
  match indexes with
  | [] => VNil
  | [k] => get_index l k
  | _ => VList i (map (fun k => conv i (get_index l k)) indexes)
  end.

Definition list_first i l := list_get i l [0].                 (* generic.go:25 *)
Definition list_last i l := list_get i l [zlen l - 1].         (* generic.go:32 *)

(** a[n] = v inside the bounds. *)
Fixpoint upd {A} (l : list A) (n : nat) (v : A) : list A :=
  match l, n with
  | [], _ => []
  | _ :: r, O => v :: r
  | x :: r, S n' => x :: upd r n' v
  end.

(** ListHelper.SetIndex: list_helper.go:126-135 (nil padding one element at a time, 130-132). *)
Definition list_set (i : impl) (l : list value) (index : Z) (v : value) : res (list value) :=
  if index <? 0 then Err $"index must be positive number"
  else
    let l := Nat.iter (Z.to_nat (index + 1 - zlen l)) (fun l => list_add i l false [VNil]) l in
    Ok (upd l (Z.to_nat index) (conv i v)).

(** ListHelper.Reverse: list_helper.go:116-123.  [target.Set(target.Len()-i-1, source[i])] for
    ascending i over a new list of the same length. *)
Definition list_reverse (i : impl) (l : list value) : list value :=
  fst (fold_left (fun '(target, k) x =>
                    (upd target (List.length target - k - 1) (conv i x), S k))
                 l (repeat VNil (List.length l), O)).

(** ListHelper.Unique: list_helper.go:143-152 *)
Definition list_unique (i : impl) (l : list value) : list value :=
  fold_left (fun target x => if negb (list_contains target [x]) then list_append i target [x] else target) l [].

(** Union: generic.go:87-89 *)
Definition list_union (i : impl) (l values : list value) : list value :=
  list_unique i (list_add i l false values).

(** ListHelper.Intersect: list_helper.go:155-165; [values] is an []interface{}, converted by the
    default helper (157). *)
Definition list_intersect (i : impl) (l values : list value) : list value :=
  let source := list_unique i l in
  let include := as_list_arr dflt values in
  fold_left (fun target x => if list_contains include [x] then list_append i target [x] else target) source [].

(** ListHelper.Without: list_helper.go:214-224 *)
Definition list_without (i : impl) (l values : list value) : list value :=
  let exclude := as_list_arr dflt values in
  fold_left (fun target x => if negb (list_contains exclude [x]) then list_append i target [x] else target) l [].

(** First loop of Remove, the update of the caller's slice: list_helper.go:169-173 *)
Definition remove_indexes (len : Z) (indexes : list Z) : list Z :=
  map (fun k => if k <? 0 then k + len else k) indexes.

(** The positions of a list, as ranged over by Go. *)
Fixpoint positions {A} (k : Z) (l : list A) : list Z :=
  match l with [] => [] | _ :: r => k :: positions (k + 1) r end.

(** ListHelper.Remove: list_helper.go:168-182 *)
Definition list_remove (i : impl) (l : list value) (indexes : list Z) : list value :=
  let discard := as_list_arr dflt (map vint (remove_indexes (zlen l) indexes)) in
  fold_left (fun target k => if negb (list_contains discard [vint k])
                             then list_append i target [get_index l k] else target)
            (positions 0 l) [].

(** Pop: generic.go:68-73.  Go evaluates Get before Remove. *)
Definition list_pop (i : impl) (l : list value) (indexes : list Z) : value * list value :=
  let indexes := match indexes with [] => [zlen l - 1] | _ => indexes end in
  (list_get i l indexes, list_remove i l indexes).

(** RemoveEmpty: list_helper.go:185-200 *)
Definition is_empty_item (v : value) : bool :=
  match v with
  | VList _ l => zlen l =? 0
  | VNil => true
  | _ => str_eqb (sprint v) []
  end.
Definition list_remove_empty (i : impl) (l : list value) : list value :=
  fold_left (fun target x => if negb (is_empty_item x) then list_append i target [x] else target) l [].

(** RemoveNil: list_helper.go:203-211 *)
Definition is_nil (v : value) : bool := match v with VNil => true | _ => false end.
Definition list_remove_nil (i : impl) (l : list value) : list value :=
  fold_left (fun target x => if negb (is_nil x) then list_append i target [x] else target) l [].

(** GetStringArray / Join: list_helper.go:97-103, generic.go:31, collections/string_array.go:101-103 *)
Definition list_string_array (l : list value) : list str := map sprint l.
Definition list_join (l : list value) (sep : value) : str := join (sprint sep) (list_string_array l).

(** utils.MergeLists: utils/list.go:10-22; lists of any implementation, None stands for nil. *)
Definition merge_lists (lists : list (impl * list value)) : option (impl * list value) :=
  match lists with
  | [] => None
  | [l] => Some l
  | (i, l) :: _ =>
      Some (i, fold_left (fun acc x => list_append i acc (snd x)) lists [])
  end.

End WithEnv.
