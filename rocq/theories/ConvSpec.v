(** Vocabulary for native data and decoded documents. *)
From Coq Require Import String Ascii List ZArith NArith Bool Permutation.
From Coq Require Import SpecFloat.
From Verif Require Import GoStr ValueModel ValueFacts FloatFacts.
Import ListNotations.

(** Only strings, numbers, booleans, nil, []interface{} and map[string]interface{} at every depth. *)
Inductive native : value -> Prop :=
| native_nil : native VNil
| native_bool b : native (VScal (SBool b))
| native_int k z : In k [KInt; KUint; KInt64; KUint64] -> native (VScal (SInt k z))
| native_float f : native (VScal (SFloat f))
| native_str s : native (VScal (SStr false s))
| native_slice l : Forall native l -> native (VSlice 0 l)
| native_map m : NoDup (mkeys m) -> Forall (fun kv => native (snd kv)) m -> native (VMap 0 m).

(** Values made of data only. *)
Inductive data : value -> Prop :=
| data_nil : data VNil
| data_scal s : data (VScal s)
| data_slice t l : Forall data l -> data (VSlice t l)
| data_list i l : Forall data l -> data (VList i l)
| data_map t m : NoDup (mkeys m) -> Forall (fun kv => data (snd kv)) m -> data (VMap t m)
| data_dict i m : NoDup (mkeys m) -> Forall (fun kv => data (snd kv)) m -> data (VDict i m)
| data_mapk t m : Forall (fun kv => data (snd kv)) m -> data (VMapK t m).

(** The same text, truth value or number; int64 and uint64 stay what they are, signed integers stay
    signed. *)
Definition signed (k : ikind) : bool := match k with KInt | KInt8 | KInt16 | KInt32 | KInt64 => true | _ => false end.
Inductive same_scalar : scalar -> scalar -> Prop :=
| ss_bool b : same_scalar (SBool b) (SBool b)
| ss_int k k' z : signed k = signed k' -> (k = KInt64 <-> k' = KInt64) -> (k = KUint64 <-> k' = KUint64) ->
    same_scalar (SInt k z) (SInt k' z)
| ss_float f : same_scalar (SFloat f) (SFloat f)
| ss_str n n' s : same_scalar (SStr n s) (SStr n' s).

(** The elements of a list of any kind, the entries of a map of any kind. *)
Inductive elements : value -> list value -> Prop :=
| elements_slice t l : elements (VSlice t l) l
| elements_list i l : elements (VList i l) l.
Inductive entries : value -> list (str * value) -> Prop :=
| entries_map t m : entries (VMap t m) m
| entries_dict i m : entries (VDict i m) m.

Section WithEnv.
Context {E : Env}.

(** The same content in containers of any kind; keys that are no strings are printed, the last one
    wins when two of them are printed alike. *)
Inductive same_content : value -> value -> Prop :=
| sc_nil : same_content VNil VNil
| sc_scal s s' : same_scalar s s' -> same_content (VScal s) (VScal s')
| sc_list v w l l' : elements v l -> elements w l' -> Forall2 same_content l l' -> same_content v w
| sc_map v w m m' : entries v m -> entries w m' ->
    Forall2 (fun a b => fst a = fst b /\ same_content (snd a) (snd b)) m m' -> same_content v w
| sc_mapk t m kvs w m' : entries w m' -> NoDup (mkeys m') -> (forall k, mget m' k = mget (rev kvs) k) ->
    Forall2 (fun a b => sprint_scalar (fst a) = fst b /\ same_content (snd a) (snd b)) m kvs -> same_content (VMapK t m) w.

(** ** Decoded documents *)

(** A document as the decoders produce it: native containers, and for JSON only floats that are not
    integral or whose value is in the range of int64. *)
Definition number_ok (json : bool) (s : scalar) : Prop :=
  json = true -> forall f, s = SFloat f -> valid f /\ forall z, is_int f z -> (- 2 ^ 63 <= z < 2 ^ 63)%Z.
Inductive document (json : bool) : value -> Prop :=
| doc_nil : document json VNil
| doc_scal s : number_ok json s -> document json (VScal s)
| doc_opaque t c n : document json (VOpaque t c n)
| doc_slice t l : Forall (document json) l -> document json (VSlice t l)
| doc_map t m : NoDup (mkeys m) -> Forall (fun kv => document json (snd kv)) m -> document json (VMap t m)
| doc_mapk t m : NoDup (map fst m) -> Forall (fun kv => document json (snd kv)) m -> document json (VMapK t m).

(** What becomes of a document: containers of implementation i, null is an empty dictionary, integral
    floats of JSON are ints, other scalars are kept. *)
Inductive processed (json : bool) (i : impl) : value -> value -> Prop :=
| pr_nil : processed json i VNil (VDict i [])
| pr_int f z : json = true -> is_int f z -> processed json i (VScal (SFloat f)) (vint z)
| pr_scal s : (json = true -> forall f, s = SFloat f -> forall z, ~ is_int f z) -> processed json i (VScal s) (VScal s)
| pr_opaque t c n : processed json i (VOpaque t c n) (VOpaque t c n)
| pr_slice t l l' : Forall2 (processed json i) l l' -> processed json i (VSlice t l) (VList i l')
| pr_map t m m' : Forall2 (fun a b => fst a = fst b /\ processed json i (snd a) (snd b)) m m' ->
    processed json i (VMap t m) (VDict i m')
| pr_mapk t m kvs m' : Forall2 (fun a b => sprint_scalar (fst a) = fst b /\ processed json i (snd a) (snd b)) m kvs ->
    NoDup (mkeys m') -> (forall k, mget m' k = mget (rev kvs) k) -> processed json i (VMapK t m) (VDict i m').

(** A native document of HCL with every []map[string]interface{} of one map replaced by this map. *)
Inductive unwrapped : value -> value -> Prop :=
| uw_nil : unwrapped VNil VNil
| uw_scal s : unwrapped (VScal s) (VScal s)
| uw_opaque t c n : unwrapped (VOpaque t c n) (VOpaque t c n)
| uw_one m w : unwrapped m w -> unwrapped (VSlice 1 [m]) w
| uw_maps l l' : List.length l <> 1 -> Forall2 unwrapped l l' -> unwrapped (VSlice 1 l) (VSlice 1 l')
| uw_slice l l' : Forall2 unwrapped l l' -> unwrapped (VSlice 0 l) (VSlice 0 l')
| uw_map m m' : Forall2 (fun a b => fst a = fst b /\ unwrapped (snd a) (snd b)) m m' -> unwrapped (VMap 0 m) (VMap 0 m').

(** The types hcl.Unmarshal produces. *)
Inductive hcl_document : value -> Prop :=
| hd_nil : hcl_document VNil
| hd_scal s : hcl_document (VScal s)
| hd_opaque t c n : hcl_document (VOpaque t c n)
| hd_maps l : Forall hcl_document l -> hcl_document (VSlice 1 l)
| hd_slice l : Forall hcl_document l -> hcl_document (VSlice 0 l)
| hd_map m : NoDup (mkeys m) -> Forall (fun kv => hcl_document (snd kv)) m -> hcl_document (VMap 0 m).

End WithEnv.
