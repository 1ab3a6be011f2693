(** C29 and C30: slice, extract, rest, initial, safeIndex, key and content. *)
From Coq Require Import String Ascii List ZArith NArith Bool Lia Permutation Sorted.
From Verif Require Import GoStr GoStrFacts ValueModel ValueFacts CollSpec ListModel DictModel DataModel ExampleEnv Utf8 TextModel FloatModel MathModel MathSpec MathProofs MathProps SliceModel SliceSpec SliceProofs.
Import ListNotations.
Local Open Scope Z_scope.

(** ** C29 *)

(** A section of a list, native or not, the two positions given as two arguments or as one list. *)
Theorem C29_slice : forall {E : Env} {NE : NumEnv} v i l a b x y args, list_content dflt v i l -> position_ok (zlen l) ->
  numeral a x -> numeral b y -> position_ok x -> position_ok y -> (args = [a; b] \/ exists j, args = [VList j [a; b]]) ->
  let n := zlen l in
  let lo := Z.min (bound n x) (bound n y) in
  let hi := Z.max (bound n x) (bound n y) in
  (hi < 0 -> exists m, tpl_slice v args = Err m) /\
  (0 <= hi -> exists r r', between lo hi l r /\ Forall2 (converts i) r r' /\
     tpl_slice v args = Ok (VList i (if bound n y <? bound n x then rev r' else r'))).
Proof. exact @slice_lists. Qed.
Print Assumptions C29_slice.

(** Positions count from 0; -1 is the end; a section is reversed when its end comes first. *)
Example C29_ex :
  let E := env1 in let N := num1 in
  let l := l_ [s_ "a"; s_ "b"; s_ "c"; s_ "d"] in
  (tpl_slice l [n_ 1; n_ 3], tpl_slice l [n_ 1; n_ (-1)], tpl_slice l [n_ (-2); n_ 0], tpl_slice l [n_ 2; n_ 99], tpl_slice l [n_ 7; n_ 9], is_ok (tpl_slice l [n_ (-9); n_ (-8)]))
  = (Ok (l_ [s_ "b"; s_ "c"]), Ok (l_ [s_ "b"; s_ "c"; s_ "d"]), Ok (l_ [s_ "c"; s_ "b"; s_ "a"]), Ok (l_ [s_ "c"; s_ "d"]), Ok (l_ []), false).
Proof. vm_compute. reflexivity. Qed.

Theorem C29_slice_text : forall {E : Env} {NE : NumEnv} nm s a b x y args, position_ok (zlen s) ->
  numeral a x -> numeral b y -> position_ok x -> position_ok y -> (args = [a; b] \/ exists j, args = [VList j [a; b]]) ->
  let n := zlen s in
  let lo := Z.min (bound n x) (bound n y) in
  let hi := Z.max (bound n x) (bound n y) in
  (hi < 0 \/ n < lo -> exists m, tpl_slice (VScal (SStr nm s)) args = Err m) /\
  (0 <= hi -> lo <= n -> exists r, between lo hi s r /\
     tpl_slice (VScal (SStr nm s)) args = Ok (vstr (if bound n y <? bound n x then reverse_string r else r))).
Proof. exact @slice_texts. Qed.
Print Assumptions C29_slice_text.

(** The reversal of a text keeps its characters; a section can cut one. *)
Theorem C29_reverse : forall ps, Forall character ps -> reverse_string (concat ps) = concat (rev ps).
Proof. exact reverse_characters. Qed.
Print Assumptions C29_reverse.

Theorem C29_reverse_ascii : forall s, Forall (fun c => (N_of_ascii c < 128)%N) s -> reverse_string s = rev s.
Proof. exact reverse_ascii. Qed.
Print Assumptions C29_reverse_ascii.

Example C29_ex_text :
  let E := env1 in let N := num1 in
  let eacute := map ascii_of_N [195; 169]%N in
  (tpl_slice (s_ "hello") [n_ 1; n_ 3], tpl_slice (s_ "hello") [n_ (-1); n_ 2], tpl_slice (vstr ($"a" ++ eacute ++ $"b")) [n_ (-1); n_ 0], is_ok (tpl_slice (s_ "hello") [n_ 6; n_ 9]), tpl_slice (s_ "hello") [n_ 5; n_ 9])
  = (Ok (s_ "el"), Ok (s_ "oll"), Ok (vstr ($"b" ++ eacute ++ $"a")), false, Ok (s_ "")).
Proof. vm_compute. reflexivity. Qed.

(** Cutting a character and reversing what is left replaces the cut byte by U+FFFD: the bytes of the
    result are not those of the section. *)
Theorem C29_reverse_refuted : exists (E : Env) (NE : NumEnv) s, List.length s = 2%nat /\
  tpl_slice (vstr s) [n_ 0; n_ 1] = Ok (vstr (firstn 1 s)) /\ tpl_slice (vstr s) [n_ 1; n_ 0] = Ok (vstr replacement).
Proof. exists env1, num1, (map ascii_of_N [195; 169]%N). vm_compute. repeat split; reflexivity. Qed.
Print Assumptions C29_reverse_refuted.

(** One position: the element itself, by slice and by extract. *)
Theorem C29_element : forall {E : Env} {NE : NumEnv} v i l a k, list_content dflt v i l -> numeral a k -> within64 k ->
  (forall x, element l k x -> tpl_slice v [a] = Ok x /\ tpl_extract v [a] = Ok x) /\
  ((forall x, ~ element l k x) -> (exists m, tpl_slice v [a] = Err m) /\ (exists m, tpl_extract v [a] = Err m)).
Proof. exact @one_element. Qed.
Print Assumptions C29_element.

Theorem C29_extract : forall {E : Env} {NE : NumEnv} v i l args ks, list_content dflt v i l -> Forall2 numeral args ks -> Forall within64 ks -> (2 <= List.length args)%nat ->
  (forall vs, Forall2 (element l) ks vs -> exists vs', Forall2 (converts i) vs vs' /\ tpl_extract v args = Ok (VList i vs')) /\
  (Exists (fun k => forall x, ~ element l k x) ks -> exists m, tpl_extract v args = Err m).
Proof. exact @extract_lists. Qed.
Print Assumptions C29_extract.

Theorem C29_extract_text : forall {E : Env} {NE : NumEnv} nm s args ks, Forall2 numeral args ks -> Forall within64 ks -> (1 <= List.length args)%nat ->
  (forall cs, Forall2 (element s) ks cs -> tpl_extract (VScal (SStr nm s)) args = Ok (vstr cs)) /\
  (Exists (fun k => forall x, ~ element s k x) ks -> exists m, tpl_extract (VScal (SStr nm s)) args = Err m).
Proof. exact @extract_texts. Qed.
Print Assumptions C29_extract_text.

Example C29_ex_extract :
  let E := env1 in let N := num1 in
  let l := nl_ [s_ "a"; n_ 2; nl_ [n_ 3]; s_ "d"] in
  (tpl_slice l [n_ (-1)], tpl_extract l [n_ 2], tpl_extract l [n_ (-2); s_ "0"; n_ 0], is_ok (tpl_extract l [n_ 0; n_ 4]), tpl_extract (s_ "hello") [n_ 4; n_ 0; n_ (-1)], is_ok (tpl_extract (s_ "hello") [n_ 0; n_ (-6)]))
  = (Ok (s_ "d"), Ok (nl_ [n_ 3]), Ok (l_ [l_ [n_ 3]; s_ "a"; s_ "a"]), false, Ok (s_ "oho"), false).
Proof. vm_compute. reflexivity. Qed.

Theorem C29_rest_initial : forall {E : Env} {NE : NumEnv} v i l, list_content dflt v i l -> position_ok (zlen l) ->
  (exists r, Forall2 (converts i) (tl l) r /\ tpl_rest v = Ok (VList i r)) /\
  (exists r, Forall2 (converts i) (removelast l) r /\ tpl_initial v = Ok (VList i r)).
Proof. exact @rest_lists. Qed.
Print Assumptions C29_rest_initial.

Theorem C29_rest_initial_text : forall {E : Env} {NE : NumEnv} nm s, position_ok (zlen s) ->
  tpl_rest (VScal (SStr nm s)) = Ok (vstr (tl s)) /\ tpl_initial (VScal (SStr nm s)) = Ok (vstr (removelast s)).
Proof. exact @rest_texts. Qed.
Print Assumptions C29_rest_initial_text.

Example C29_ex_rest :
  let E := env1 in let N := num1 in
  (tpl_rest (l_ [n_ 1; n_ 2; n_ 3]), tpl_initial (nl_ [n_ 1; n_ 2; n_ 3]), tpl_rest (l_ []), tpl_initial (l_ []), tpl_rest (s_ "ab"), tpl_initial (s_ ""))
  = (Ok (l_ [n_ 2; n_ 3]), Ok (l_ [n_ 1; n_ 2]), Ok (l_ []), Ok (l_ []), Ok (s_ "b"), Ok (s_ "")).
Proof. vm_compute. reflexivity. Qed.

(** What yields an error, and the value itself when no position is given. *)
Theorem C29_other : forall {E : Env} {NE : NumEnv} v args, (forall i l, ~ list_content dflt v i l) -> (forall nm s, v <> VScal (SStr nm s)) ->
  (forall t m, v <> VMap t m) -> (forall t m, v <> VMapK t m) -> (forall i m, v <> VDict i m) ->
  (exists m, tpl_slice v args = Err m) /\ (exists m, tpl_extract v args = Err m).
Proof. exact @slice_other. Qed.
Print Assumptions C29_other.

Theorem C29_many : forall {E : Env} {NE : NumEnv} v a b c r ks, (exists i l, list_content dflt v i l) \/ (exists nm s, v = VScal (SStr nm s)) -> Forall2 numeral (a :: b :: c :: r) ks ->
  exists m, tpl_slice v (a :: b :: c :: r) = Err m.
Proof. exact @slice_many. Qed.
Print Assumptions C29_many.

Theorem C29_bad_position : forall {E : Env} {NE : NumEnv} v a b, (exists i l, list_content dflt v i l) \/ (exists nm s, v = VScal (SStr nm s)) ->
  scal a -> scal b -> not_integer_text (sprint a) \/ not_integer_text (sprint b) -> exists m, tpl_slice v [a; b] = Err m.
Proof. exact @bad_position. Qed.
Print Assumptions C29_bad_position.

Theorem C29_none : forall {E : Env} {NE : NumEnv} v, (exists i l, list_content dflt v i l) \/ (exists nm s, v = VScal (SStr nm s)) -> tpl_slice v [] = Ok v /\ tpl_extract v [] = Ok v.
Proof. exact @slice_itself. Qed.
Print Assumptions C29_none.

Theorem C29_safe_index : forall {E : Env} v i l k def, list_content dflt v i l ->
  (forall p x, k = Z.of_nat p -> nth_error l p = Some x -> safe_index v k def = Ok x) /\
  (~ (0 <= k < zlen l) -> safe_index v k def = Ok def).
Proof. exact @safe_index_spec. Qed.
Print Assumptions C29_safe_index.

Theorem C29_safe_index_text : forall nm s k def,
  (forall p c, k = Z.of_nat p -> nth_error s p = Some c -> safe_index (VScal (SStr nm s)) k def = Ok (VScal (SInt KUint8 (Z.of_N (N_of_ascii c))))) /\
  (~ (0 <= k < zlen s) -> safe_index (VScal (SStr nm s)) k def = Ok def).
Proof. exact @safe_index_text. Qed.
Print Assumptions C29_safe_index_text.

Example C29_ex_errors :
  let E := env1 in let N := num1 in
  let l := l_ [s_ "a"; s_ "b"] in
  (tpl_slice l [], is_ok (tpl_slice (n_ 12) [n_ 0; n_ 1]), is_ok (tpl_slice l [n_ 0; n_ 1; n_ 1]), is_ok (tpl_slice l [s_ "x"; n_ 1]), safe_index l 1 (n_ 9), safe_index l (-1) (n_ 9), safe_index (s_ "xyz") 2 VNil)
  = (Ok l, false, false, false, Ok (s_ "b"), Ok (n_ 9), Ok (VScal (SInt KUint8 122))).
Proof. vm_compute. reflexivity. Qed.

(** ** C30 *)

Theorem C30_range : forall {E : Env} {NE : NumEnv} i m a b, NoDup (mkeys m) -> scal a -> scal b ->
  exists ks r, StronglySorted (fun x y => str_leb x y = true) ks /\ NoDup ks /\
    (forall k, In k ks <-> (mhas m k = true /\ (key_between (sprint a) (sprint b) k \/ key_between (sprint b) (sprint a) k))) /\
    Forall2 (fun k w => exists v, mget m k = Some v /\ converts i v w) ks r /\
    tpl_slice (VDict i m) [a; b] = Ok (VList i (if str_leb (sprint a) (sprint b) then r else rev r)).
Proof. exact @key_range_spec. Qed.
Print Assumptions C30_range.

(** Neither slice nor extract depends on the order of the map. *)
Theorem C30_order : forall {E : Env} {NE : NumEnv} i m m' args, NoDup (mkeys m) -> Permutation m m' ->
  tpl_slice (VDict i m') args = tpl_slice (VDict i m) args /\ tpl_extract (VDict i m') args = tpl_extract (VDict i m) args.
Proof. exact @slice_any_order. Qed.
Print Assumptions C30_order.

Example C30_ex :
  let E := env1 in let N := num1 in
  let d := d_ [("pear"%string, n_ 1); ("apple"%string, n_ 2); ("fig"%string, nl_ [n_ 3]); ("kiwi"%string, n_ 4)] in
  (tpl_slice d [s_ "b"; s_ "kiwi"], tpl_slice d [s_ "kiwi"; s_ "apple"], tpl_slice d [s_ "x"; s_ "z"], is_ok (tpl_slice d [s_ "a"; s_ "b"; s_ "c"]))
  = (Ok (l_ [l_ [n_ 3]; n_ 4]), Ok (l_ [n_ 4; l_ [n_ 3]; n_ 2]), Ok (l_ []), false).
Proof. vm_compute. reflexivity. Qed.

Theorem C30_extract : forall {E : Env} {NE : NumEnv} i m args, Forall scal args -> (2 <= List.length args)%nat ->
  exists r, tpl_extract (VDict i m) args = Ok (VList i r) /\
    Forall2 (fun a w => (exists v, mget m (sprint a) = Some v /\ converts i v w) \/ (mget m (sprint a) = None /\ w = VNil)) args r.
Proof. exact @dict_extract. Qed.
Print Assumptions C30_extract.

Theorem C30_single : forall {E : Env} {NE : NumEnv} i m a, scal a ->
  tpl_slice (VDict i m) [a] = Ok (match mget m (sprint a) with Some v => v | None => VNil end) /\
  tpl_extract (VDict i m) [a] = tpl_slice (VDict i m) [a].
Proof. exact @dict_single. Qed.
Print Assumptions C30_single.

Theorem C30_many : forall {E : Env} {NE : NumEnv} i m a b c r, Forall scal (a :: b :: c :: r) -> exists e, tpl_slice (VDict i m) (a :: b :: c :: r) = Err e.
Proof. exact @dict_many. Qed.
Print Assumptions C30_many.

(** A native map behaves as the dictionary it converts to. *)
Theorem C30_native : forall {E : Env} {NE : NumEnv} t m args, exists m', converts dflt (VMap t m) (VDict dflt m') /\
  tpl_slice (VMap t m) args = tpl_slice (VDict dflt m') args /\ tpl_extract (VMap t m) args = tpl_extract (VDict dflt m') args.
Proof. exact @slice_native. Qed.
Print Assumptions C30_native.

Example C30_ex_extract :
  let E := env1 in let N := num1 in
  let d := nm_ [("2"%string, n_ 1); ("apple"%string, nl_ [n_ 2])] in
  (tpl_extract d [s_ "apple"; s_ "none"; n_ 2], tpl_slice d [s_ "apple"], tpl_extract d [s_ "none"], tpl_slice d [])
  = (Ok (l_ [l_ [n_ 2]; VNil; n_ 1]), Ok (l_ [n_ 2]), Ok VNil, Ok VNil).
Proof. vm_compute. reflexivity. Qed.

(** key and content of a map with one entry, of any other dictionary, and of a list of maps with one
    entry each: the last value wins. *)
Theorem C30_key_content : forall {E : Env} v k x, (exists t, v = VMap t [(k, x)]) \/ (exists i, v = VDict i [(k, x)]) ->
  tpl_key v = Ok (vstr k) /\ tpl_content v = Ok x.
Proof. exact @key_content_one. Qed.
Print Assumptions C30_key_content.

Theorem C30_key_content_error : forall {E : Env} i m, List.length m <> 1%nat -> (exists e, tpl_key (VDict i m) = Err e) /\ (exists e, tpl_content (VDict i m) = Err e).
Proof. exact @key_content_other. Qed.
Print Assumptions C30_key_content_error.

(** Neither is defined for texts, numbers, booleans and nil. *)
Theorem C30_key_content_scalar : forall {E : Env} v, scal v \/ v = VNil -> (exists e, tpl_key v = Err e) /\ (exists e, tpl_content v = Err e).
Proof. exact @key_content_scalar. Qed.
Print Assumptions C30_key_content_scalar.

Theorem C30_key_content_list : forall {E : Env} i kvs j,
  tpl_key (VList i (map (fun kv => VDict j [kv]) kvs)) = Ok (VSlice 0 (map (fun kv => vstr (fst kv)) kvs)) /\
  exists m, tpl_content (VList i (map (fun kv => VDict j [kv]) kvs)) = Ok (VMap 0 m) /\ NoDup (mkeys m) /\ forall k, mget m k = mget (rev kvs) k.
Proof. exact @key_content_list. Qed.
Print Assumptions C30_key_content_list.

Example C30_ex_key :
  let E := env1 in
  let d k v := d_ [(k, v)] in
  (tpl_key (d "a"%string (n_ 1)), tpl_content (nm_ [("b"%string, nl_ [])]), tpl_key (l_ [d "x"%string (n_ 1); d "y"%string (n_ 2); d "x"%string (n_ 3)]), tpl_content (l_ [d "x"%string (n_ 1); d "y"%string (n_ 2); d "x"%string (n_ 3)]), is_ok (tpl_key (d_ [])))
  = (Ok (s_ "a"), Ok (nl_ []), Ok (nl_ [s_ "x"; s_ "y"; s_ "x"]), Ok (nm_ [("x"%string, n_ 3); ("y"%string, n_ 2)]), false).
Proof. vm_compute. reflexivity. Qed.
