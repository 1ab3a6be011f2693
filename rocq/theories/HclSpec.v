(** Reading of compact HCL values, independent of the model. *)
From Coq Require Import String Ascii List ZArith NArith Bool Permutation.
From Coq Require DecimalString.
From Verif Require Import GoStr ValueModel QuoteSpec.
Import ListNotations.

(** Characters of numbers, keywords and bare keys. *)
Definition letter (c : ascii) : bool :=
  let n := N_of_ascii c in ((65 <=? n) && (n <=? 90))%N || ((97 <=? n) && (n <=? 122))%N.
Definition digit (c : ascii) : bool := let n := N_of_ascii c in ((48 <=? n) && (n <=? 57))%N.
Definition token_char (c : ascii) : bool := letter c || digit c || Ascii.eqb c "_" || Ascii.eqb c "-".
Fixpoint token_split (s : str) : str * str :=
  match s with
  | c :: r => if token_char c then let (a, b) := token_split r in (c :: a, b) else ([], s)
  | [] => ([], [])
  end.

(** Numbers and keywords. *)
Definition token_value (t : str) : option value :=
  if str_eqb t $"null" then Some VNil
  else if str_eqb t $"true" then Some (vbool true)
  else if str_eqb t $"false" then Some (vbool false)
  else match DecimalString.NilZero.int_of_string (string_of_list_ascii t) with
       | Some d => Some (vint (Z.of_int d))
       | None => None
       end.

Definition read_key (s : str) : option (str * str) :=
  match s with
  | """"%char :: _ => read_literal s
  | _ => match token_split s with ([], _) => None | r => Some r end
  end.

(** A value, the items of a list after the first bracket, the entries of a map after the first brace. *)
Fixpoint read_value (fuel : nat) (s : str) : option (value * str) :=
  match fuel with
  | O => None
  | S fuel =>
      match s with
      | """"%char :: _ => match read_literal s with Some (t, r) => Some (vstr t, r) | None => None end
      | "["%char :: "]"%char :: r => Some (VSlice 0 [], r)
      | "["%char :: r => match read_items fuel r with Some (l, r) => Some (VSlice 0 l, r) | None => None end
      | "{"%char :: "}"%char :: r => Some (VMap 0 [], r)
      | "{"%char :: r => match read_entries fuel r with Some (m, r) => Some (VMap 0 m, r) | None => None end
      | _ => let (t, r) := token_split s in match token_value t with Some v => Some (v, r) | None => None end
      end
  end
with read_items (fuel : nat) (s : str) : option (list value * str) :=
  match fuel with
  | O => None
  | S fuel =>
      match read_value fuel s with
      | Some (v, ","%char :: r) => match read_items fuel r with Some (l, r) => Some (v :: l, r) | None => None end
      | Some (v, "]"%char :: r) => Some ([v], r)
      | _ => None
      end
  end
with read_entries (fuel : nat) (s : str) : option (list (str * value) * str) :=
  match fuel with
  | O => None
  | S fuel =>
      match read_key s with
      | Some (k, "="%char :: r) =>
          match read_value fuel r with
          | Some (v, " "%char :: r) => match read_entries fuel r with Some (m, r) => Some ((k, v) :: m, r) | None => None end
          | Some (v, "}"%char :: r) => Some ([(k, v)], r)
          | _ => None
          end
      | _ => None
      end
  end.
Definition read_hcl (s : str) : option value :=
  match read_value (2 * List.length s) s with Some (v, []) => Some v | _ => None end.

(** The internal marker of the renderer. *)
Definition free_of_marker (s : str) : Prop := ~ exists a b, s = a ++ $"#HCL_ARRAY_MAP#!" ++ b.
(** Keys that do not start with one of the characters between Z and a, the underscore excepted. *)
Definition proper_key (k : str) : Prop :=
  match k with [] => True | c :: _ => ~ In c ["["; "\"; "]"; "^"; "`"]%char end.

(** Keys that need no quotes. *)
Definition bare_key (k : str) : Prop :=
  match k with [] => False | c :: r => (letter c = true \/ c = "_"%char) /\ Forall (fun c => token_char c = true) r end.

(** Data rendered faithfully: no float, no list of a single map. *)
Inductive faithful : value -> Prop :=
| f_nil : faithful VNil
| f_bool b : faithful (vbool b)
| f_int z : faithful (vint z)
| f_str s : free_of_marker s -> faithful (vstr s)
| f_list l : (forall m, l <> [VMap 0 m]) -> Forall faithful l -> faithful (VSlice 0 l)
| f_map m : NoDup (map fst m) -> Forall (fun kv => free_of_marker (fst kv) /\ proper_key (fst kv) /\ faithful (snd kv)) m -> faithful (VMap 0 m).

(** The layout of an indented document, for entries of (key as printed, length of the key, value as printed, is a block). *)
Record item := { i_key : str; i_len : nat; i_text : str; i_block : bool }.
Definition lines_of (e : item) : bool := if in_dec ascii_dec NL (i_text e) then true else false.
Definition padded (width : nat) (s : str) (n : nat) : str := s ++ repeat " "%char (width - n).
(** Values of one line first, with aligned equal signs (n counts the characters of the printed key). *)
Definition single_lines (count : str -> nat) (es : list item) : list str :=
  let singles := filter (fun e => negb (lines_of e)) es in
  let width := list_max (map i_len singles) in
  map (fun e => padded width (i_key e) (count (i_key e)) ++ $" = " ++ i_text e) singles.
(** Then the others, each after an empty line. *)
Definition big_items (blocks : bool) (es : list item) : list str :=
  map (fun e => i_key e ++ (if blocks && i_block e then $" " else $" = ") ++ i_text e) (filter lines_of es).
Definition layout (count : str -> nat) (blocks : bool) (es : list item) : list str :=
  let big := flat_map (fun s => [[]; s]) (big_items blocks es) in
  match single_lines count es with [] => tl big | singles => singles ++ big end.
Definition block_value (v : value) : bool := match v with VNil | VMap _ _ => true | _ => false end.

(** Texts of several lines that are printed as they are: the last line ends, the first one does not start with a blank, printable ASCII without backslash. *)
Definition plain_lines (s : str) : Prop :=
  Forall (fun c => In c [NL; TAB; CR] \/ ((32 <= N_of_ascii c <= 126)%N /\ c <> "\"%char)) s /\
  (exists c r, s = c :: r /\ ~ In c [" "%char; TAB; NL; CR]) /\ exists r, s = r ++ [NL].
