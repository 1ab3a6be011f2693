(** Properties of the template data functions: C17, C57, C60, C61, C62. *)
From Coq Require Import String Ascii List ZArith NArith Bool Lia Permutation Sorted SpecFloat.
From Verif Require Import GoStr ValueModel ValueFacts CollSpec ListModel DictModel DictProofs DataModel DataProofs ExampleEnv.
Import ListNotations.

(** ** C17 pick, pickv, pluck *)

(** pick returns exactly the requested keys, nil for the missing ones (content as kept by Clone). *)
Theorem C17_pick : forall (E : Env) i m k1 ks, Forall (fun kv => converted (snd kv)) m ->
  Forall (fun kv => no_nested_singleton (snd kv)) m ->
  NoDup (mkeys (tpl_pick i m (k1 :: ks))) /\
  forall k, match mget (tpl_pick i m (k1 :: ks)) k with
            | None => ~ In k (map sprint (k1 :: ks))
            | Some w => In k (map sprint (k1 :: ks)) /\
                match mget m k with Some v => same_data v w | None => w = VNil end
            end.
Proof. intros E. exact dict_clone_keys_spec. Qed.
Print Assumptions C17_pick.

(** pickv fails when there are other keys, naming them; otherwise it returns one single entry, named
    after the printed key list, whose value is nil. *)
Theorem C17_pickv : forall (E : Env) fmt_v i m message key others, NoDup (mkeys m) ->
  Forall (fun kv => converted (snd kv)) m ->
  let keys := key :: others in
  ((forall k, In k (mkeys m) -> In k (map sprint keys)) /\
   tpl_pickv fmt_v i m message key others = Ok [(sprint (VSlice 0 (others ++ [key])), VNil)])
  \/
  ((exists k, In k (mkeys m) /\ ~ In k (map sprint keys)) /\
   exists o, tpl_pickv fmt_v i m message key others = Err (pickv_message fmt_v message o) /\
     Permutation (mkeys o) (filter (fun k => negb (mem_str k (map sprint keys))) (dict_keys_as_string m))).
Proof. intros E. exact pickv_spec. Qed.
Print Assumptions C17_pickv.

(** So it does not return the picked dictionary. *)
Theorem C17_pickv_returns_picked_refuted : exists (E : Env) i m key,
  (forall k, In k (mkeys m) -> In k (map sprint [key])) /\
  tpl_pickv (fun a _ => a) i m [] key [] <> Ok (tpl_pick i m [key]).
Proof.
  exists env0, Base, [($"a", n_ 1)], (s_ "a"). split; [|vm_compute; discriminate].
  intros k [<-|[]]. left. reflexivity.
Qed.
Print Assumptions C17_pickv_returns_picked_refuted.

(** pluck returns the empty list whatever the dictionaries contain. *)
Theorem C17_pluck_always_empty : forall (E : Env) key dicts, tpl_pluck key dicts = [].
Proof. intros E. exact pluck_empty. Qed.
Print Assumptions C17_pluck_always_empty.

Theorem C17_pluck_returns_values_refuted : exists (E : Env) key i m v,
  mget m (sprint key) = Some v /\ ~ In v (tpl_pluck key [(i, m)]).
Proof.
  exists env0, (s_ "a"), Base, [($"a", n_ 1)], (n_ 1).
  split; [reflexivity|]. vm_compute. tauto.
Qed.
Print Assumptions C17_pluck_returns_values_refuted.

Example C17_example :
  let E := env0 in
  tpl_pick Base [($"a", n_ 1); ($"b", n_ 2)] [s_ "a"; s_ "z"] = [($"a", n_ 1); ($"z", VNil)] /\
  tpl_pickv (fun a _ => a) Base [($"a", n_ 1); ($"b", n_ 2)] [] (s_ "a") [s_ "b"] = Ok [($"[b a]", VNil)] /\
  tpl_pickv (fun a _ => a) Base [($"a", n_ 1); ($"c", n_ 2); ($"b", n_ 2)] [] (s_ "a") [] = Err $"Unwanted values b, c".
Proof. vm_compute. repeat split; reflexivity. Qed.

(** ** C57 Conditional helpers *)

Theorem C57_iif : forall nilp t a b,
  (zero_value nilp t -> iif nilp t a b = b) /\ (~ zero_value nilp t -> iif nilp t a b = a).
Proof. exact iif_spec. Qed.
Print Assumptions C57_iif.

Theorem C57_default : forall nilp v d,
  (zero_value nilp v -> default_ nilp v d = d) /\ (~ zero_value nilp v -> default_ nilp v d = v).
Proof. exact default_spec'. Qed.
Print Assumptions C57_default.

Theorem C57_if_undef : forall nilp def vs,
  (vs = [] -> if_undef nilp def vs = def) /\
  (forall v, vs = [v] -> (v = VNil \/ nil_pointer nilp v) -> if_undef nilp def vs = def) /\
  (forall v, vs = [v] -> v <> VNil -> ~ nil_pointer nilp v -> if_undef nilp def vs = v) /\
  (2 <= length vs -> if_undef nilp def vs = VSlice 0 vs).
Proof. exact if_undef_spec. Qed.
Print Assumptions C57_if_undef.

Example C57_example :
  let nilp := fun v => match v with VOpaque 1 _ _ => true | _ => false end in
  iif nilp (n_ 0) (s_ "t") (s_ "f") = s_ "f" /\ iif nilp (l_ [VNil]) (s_ "t") (s_ "f") = s_ "t" /\
  default_ nilp (s_ "") (s_ "d") = s_ "d" /\ default_ nilp (s_ "x") (s_ "d") = s_ "x" /\
  if_undef nilp (s_ "d") [s_ ""] = s_ "" /\ if_undef nilp (s_ "d") [VOpaque 1 true 7] = s_ "d" /\
  if_undef nilp (s_ "d") [VNil; VNil] = nl_ [VNil; VNil].
Proof. vm_compute. repeat split; reflexivity. Qed.

(** ** C60 Repeat and list formatting *)

Theorem C60_repeat : forall (E : Env) n a,
  ((n < 0)%Z -> exists e, tpl_repeat n a = Err e) /\
  ((0 <= n)%Z -> exists r, tpl_repeat n a = Ok r /\ zlen r = n /\ Forall (converts dflt a) r).
Proof. intros E. exact repeat_spec. Qed.
Print Assumptions C60_repeat.

(** FormatList formats every element in order, unless the list consists of one single list ... *)
Theorem C60_format_list : forall (E : Env) fmt1 i l, Forall converted l -> (forall j l', l <> [VList j l']) ->
  format_list fmt1 [VList i l] = (i, map (fun v => vstr (fmt1 v)) l).
Proof. intros E. exact format_list_spec. Qed.
Print Assumptions C60_format_list.

Theorem C60_format_list_arguments : forall (E : Env) fmt1 a b vs, Forall converted (a :: b :: vs) ->
  format_list fmt1 (a :: b :: vs) = (dflt, map (fun v => vstr (fmt1 v)) (a :: b :: vs)).
Proof. intros E. exact format_list_many. Qed.
Print Assumptions C60_format_list_arguments.

(** ... in which case the result has another length. *)
Theorem C60_format_list_length_refuted : exists (E : Env) fmt1 i l, Forall converted l /\
  length (snd (format_list fmt1 [VList i l])) <> length l.
Proof.
  exists env0, (fun _ => $"x"), Base, [l_ [n_ 1; n_ 2]].
  split; [repeat constructor|]. vm_compute. discriminate.
Qed.
Print Assumptions C60_format_list_length_refuted.

Example C60_example :
  let E := env0 in
  tpl_repeat 3 (nl_ [n_ 1]) = Ok [l_ [n_ 1]; l_ [n_ 1]; l_ [n_ 1]] /\ tpl_repeat 0 VNil = Ok [] /\
  format_list (fun v => $"<" ++ sprint v ++ $">") [l_ [n_ 1; n_ 2]] = (Base, [s_ "<1>"; s_ "<2>"]) /\
  format_list (fun v => $"<" ++ sprint v ++ $">") [l_ [l_ [n_ 1; n_ 2]]] = (Base, [s_ "<[1 2]>"; n_ 2]).
Proof. vm_compute. repeat split; reflexivity. Qed.

(** ** C61 get, hasKey and dict *)

(** The dictionary may be the first or the second argument; missing and nil entries give the default. *)
Theorem C61_get : forall (E : Env) d i m key defs, c_try_as_dict d = Some (i, m) -> plain key ->
  tpl_get d key defs = tpl_get key d defs /\
  tpl_get d key defs = Ok (match mget m (sprint key) with
                           | None | Some VNil =>
                               match defs with [] => VNil | [x] => x | _ => VSlice 0 defs end
                           | Some v => v
                           end).
Proof. intros E. exact get_spec. Qed.
Print Assumptions C61_get.

Theorem C61_has_key : forall (E : Env) d i m key, c_try_as_dict d = Some (i, m) -> plain key ->
  tpl_has_key d key = tpl_has_key key d /\
  (tpl_has_key d key = Ok true <-> In (sprint key) (mkeys m)).
Proof. intros E. exact has_key_spec. Qed.
Print Assumptions C61_has_key.

Theorem C61_no_dictionary : forall (E : Env) a b defs, plain a -> plain b ->
  tpl_get a b defs = Err $"must supply dictionary object" /\
  tpl_has_key a b = Err $"must supply dictionary object".
Proof. intros E. exact get_no_dict. Qed.
Print Assumptions C61_no_dictionary.

(** dict k1 v1 k2 v2 ...: each key holds its last value, and there is no other key. *)
Theorem C61_create_dict : forall (E : Env) kvs,
  exists m, tpl_create_dict (flat_map (fun kv => [fst kv; snd kv]) kvs) = Ok m /\
  forall k, match mget m k with
            | Some w => exists pre kv post, kvs = pre ++ kv :: post /\ sprint (fst kv) = k /\
                converts dflt (snd kv) w /\ (forall x, In x post -> sprint (fst x) <> k)
            | None => forall x, In x kvs -> sprint (fst x) <> k
            end.
Proof. intros E. exact create_dict_spec. Qed.
Print Assumptions C61_create_dict.

Theorem C61_create_dict_odd : forall (E : Env) v, (zlen v mod 2 = 1)%Z -> exists e, tpl_create_dict v = Err e.
Proof. intros E. exact create_dict_odd. Qed.
Print Assumptions C61_create_dict_odd.

Example C61_example :
  let E := env0 in
  tpl_get (nm_ [("a"%string, nl_ [n_ 1])]) (s_ "a") [] = Ok (l_ [n_ 1]) /\
  tpl_get (s_ "z") (d_ [("a"%string, n_ 1)]) [n_ 7] = Ok (n_ 7) /\
  tpl_create_dict [s_ "a"; n_ 1; n_ 2; n_ 3; s_ "a"; nl_ []] = Ok [($"a", l_ []); ($"2", n_ 3)] /\
  tpl_create_dict [s_ "a"] = Err $"must supply even number of arguments (keypair)".
Proof. vm_compute. repeat split; reflexivity. Qed.

(** ** C62 contains *)

Theorem C62_contains_list : forall (E : Env) l i vs es, c_try_as_list l = Some (i, vs) ->
  (tpl_contains false l es = Ok true <-> vs <> [] /\ forall e, In e es -> has_text vs e) /\
  (exists b, tpl_contains false l es = Ok b).
Proof. intros E. exact contains_list_spec. Qed.
Print Assumptions C62_contains_list.

Theorem C62_contains_swapped : forall (E : Env) strict l e i vs, c_try_as_list e = Some (i, vs) -> c_try_as_list l = None ->
  tpl_contains strict l [e] = tpl_contains strict e [l].
Proof. intros E. exact contains_swap. Qed.
Print Assumptions C62_contains_swapped.

Theorem C62_contains_substring : forall (E : Env) strict l n s, c_try_as_list l = None ->
  exists b, tpl_contains strict l [VScal (SStr n s)] = Ok b /\
  (b = true <-> exists pre post, s = pre ++ sprint l ++ post).
Proof. intros E. exact contains_substring. Qed.
Print Assumptions C62_contains_substring.

Theorem C62_never_panics : forall (E : Env) strict l es e, tpl_contains strict l es <> Panic e.
Proof. intros E. exact contains_never_panics. Qed.
Print Assumptions C62_never_panics.

Example C62_example :
  let E := env0 in
  tpl_contains false (nl_ [n_ 1; s_ "b"]) [s_ "1"; s_ "b"] = Ok true /\
  tpl_contains false (s_ "1") [nl_ [n_ 1]] = Ok true /\ tpl_contains true (s_ "1") [nl_ [n_ 1]] = Ok false /\
  tpl_contains false (s_ "ell") [s_ "hello"] = Ok true /\ tpl_contains false (s_ "hello") [s_ "ell"] = Ok false /\
  (exists e, tpl_contains true (l_ [l_ []]) [l_ []] = Err e).
Proof. vm_compute. repeat split; try reflexivity. eexists; reflexivity. Qed.
