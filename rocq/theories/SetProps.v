(** C81, C82: set and unset. *)
From Coq Require Import String Ascii List ZArith NArith Bool PeanoNat.
From Verif Require Import GoStr ValueModel ListModel HeapModel SetModel SetSpec SetProofs.
Import ListNotations.

(** ** C81: set and unset change one entry of the dictionary they are given *)
(** [h1] is the state when the value has been converted: it denotes the same data, only with dictionaries and lists of
    the package, and nothing that existed was written.  [fuel] is the depth of the stack. *)
Theorem C81_set : forall dflt sprint fuel h i p key v t m, nth_error h p = Some (Some m) -> denotes h v t -> height t < fuel ->
  exists h1 h' w, tpl_set dflt sprint fuel h (GDict i p) key v = Some (h', true) /\ unchanged h h1 /\ denotes h1 w t /\ converted h1 w /\
  assigned h h' p (sprint h key) (Some w) /\ (forall q, q <> p -> nth_error h' q = nth_error h1 q).
Proof. exact set_dict. Qed.
Print Assumptions C81_set.
Theorem C81_unset : forall dflt sprint fuel h i p key m, nth_error h p = Some (Some m) ->
  exists h', tpl_unset dflt sprint fuel h (GDict i p) key = Some (h', true) /\ length h' = length h /\ assigned h h' p (sprint h key) None.
Proof. exact unset_dict. Qed.
Print Assumptions C81_unset.
(** The dictionary may be the last argument. *)
Theorem C81_either_side : forall dflt sprint fuel h d key v, no_map key -> ~ no_map d ->
  tpl_set dflt sprint fuel h key v d = tpl_set dflt sprint fuel h d key v /\ tpl_unset dflt sprint fuel h key d = tpl_unset dflt sprint fuel h d key.
Proof. intros. split; [apply set_swap | apply unset_swap]; assumption. Qed.
Print Assumptions C81_either_side.
(** There is an error when no argument is a dictionary, and only then; nothing is written. *)
Theorem C81_error : forall dflt sprint fuel h a b c,
  (no_map a /\ no_map c <-> exists h', tpl_set dflt sprint fuel h a b c = Some (h', false)) /\
  (no_map a /\ no_map c -> tpl_set dflt sprint fuel h a b c = Some (h, false) /\ tpl_unset dflt sprint fuel h a c = Some (h, false)).
Proof.
  intros. split; [split|].
  - intros (A & C). exists h. apply set_error; assumption.
  - intros (h' & E). exact (set_error_only dflt sprint fuel h a b c h' E).
  - intros (A & C). split; [apply set_error | apply unset_error]; assumption.
Qed.
Print Assumptions C81_error.
(** A map[string]interface{} without native data inside is changed like a dictionary. *)
Theorem C81_native : forall dflt sprint fuel h p ts key v, denotes h (GNative p) (TMap ts) -> height (TMap ts) < S fuel -> converted h (GDict dflt p) ->
  tpl_set dflt sprint fuel h (GNative p) key v = tpl_set dflt sprint fuel h (GDict dflt p) key v /\ tpl_unset dflt sprint fuel h (GNative p) key = tpl_unset dflt sprint fuel h (GDict dflt p) key.
Proof. intros. split; [apply (set_shared dflt sprint fuel h p ts) | apply (unset_shared dflt sprint fuel h p ts)]; assumption. Qed.
Print Assumptions C81_native.
(** A native map that is stored is shared in this case, and copied otherwise. *)
Theorem C81_stored : forall dflt sprint fuel h i p key q ts m, nth_error h p = Some (Some m) -> denotes h (GNative q) (TMap ts) -> height (TMap ts) < fuel ->
  exists h' j r m', tpl_set dflt sprint fuel h (GDict i p) key (GNative q) = Some (h', true) /\ nth_error h' p = Some (Some m') /\ mget m' (sprint h key) = Some (GDict j r) /\
  (converted h (GDict i q) -> j = i /\ r = q) /\ (~ converted h (GDict i q) -> length h <= r).
Proof. exact stored_map. Qed.
Print Assumptions C81_stored.

Definition names (h : maps) (v : gval) : str := match v with GScal (SStr _ s) => s | _ => $"?" end.
Definition word (s : string) : gval := GScal (SStr false (list_ascii_of_string s)).
Definition one : gval := GScal (SInt KInt 1).
Example C81_set_example :
  tpl_set Json names 9 [Some [($"a", one)]; Some [($"x", GSlice [one])]] (GDict Hcl 0) (word "b") (GSlice [one; GNative 1; GTyped 1]) =
    Some ([Some [($"a", one); ($"b", GList Hcl [one; GDict Hcl 2; GDict Hcl 3])]; Some [($"x", GSlice [one])]; Some [($"x", GList Hcl [one])]; Some [($"x", GList Hcl [one])]], true) /\
  tpl_set Json names 9 [Some [($"a", one)]] (word "a") (word "n") (GNative 0) = Some ([Some [($"a", word "n")]], true) /\
  tpl_set Json names 9 [Some [($"a", one)]; Some [($"x", one)]] (GDict Yaml 0) (word "b") (GNative 1) = Some ([Some [($"a", one); ($"b", GDict Yaml 1)]; Some [($"x", one)]], true) /\
  tpl_set Json names 9 [] one one one = Some ([], false).
Proof. vm_compute. repeat split; reflexivity. Qed.
Example C81_unset_example :
  tpl_unset Json names 9 [Some [($"a", one); ($"b", one)]] (word "a") (GDict Base 0) = Some ([Some [($"b", one)]], true) /\
  tpl_unset Json names 9 [Some [($"a", one)]] (GDict Base 0) (word "z") = Some ([Some [($"a", one)]], true).
Proof. vm_compute. repeat split; reflexivity. Qed.

(** ** C82: native maps, nil *)
(** Nothing that exists changes, and there is no error. *)
Theorem C82_lost : forall dflt sprint fuel h d td key v t, denotes h d td -> height td < S fuel -> denotes h v t -> height t < fuel -> lost dflt h d ->
  (exists h', tpl_set dflt sprint fuel h d key v = Some (h', true) /\ unchanged h h') /\ (exists h', tpl_unset dflt sprint fuel h d key = Some (h', true) /\ unchanged h h').
Proof. intros dflt sprint fuel h d td key v t Dd Hd D H L. split; [exact (set_lost dflt sprint fuel h d td key v t Dd Hd D H L) | exact (unset_lost dflt sprint fuel h d td key Dd Hd L)]. Qed.
Print Assumptions C82_lost.
(** set of a key of a map[string]interface{}, without error, and the map has no such key: it contains a native slice. *)
Theorem C82_set_refuted : exists h h', tpl_set Json names 9 h (GNative 0) (word "b") one = Some (h', true) /\ nth_error h 0 = Some (Some [($"a", GSlice [])]) /\ nth_error h' 0 = nth_error h 0.
Proof. exists [Some [($"a", GSlice [])]]. eexists. split; [vm_compute; reflexivity|]. split; reflexivity. Qed.
Print Assumptions C82_set_refuted.
Theorem C82_unset_refuted : exists h h', tpl_unset Json names 9 h (GNative 0) (word "a") = Some (h', true) /\ nth_error h 0 = Some (Some [($"a", GSlice [])]) /\ nth_error h' 0 = nth_error h 0.
Proof. exists [Some [($"a", GSlice [])]]. eexists. split; [vm_compute; reflexivity|]. split; reflexivity. Qed.
Print Assumptions C82_unset_refuted.
(** nil is accepted as a dictionary. *)
Theorem C82_nil_refuted : exists v h', tpl_set Json names 9 [] GNil (word "a") v = Some (h', true) /\ tpl_set Json names 9 [] (word "a") v GNil = Some (h', true) /\ ~ no_map GNil.
Proof. exists one. eexists. split; [vm_compute; reflexivity|]. split; [vm_compute; reflexivity | intros []]. Qed.
Print Assumptions C82_nil_refuted.
(** A dictionary that contains itself cannot be stored: the conversion does not end. *)
Theorem C82_cycle_refuted : exists h, h = [Some [($"self", GDict Json 0)]] /\ forall dflt sprint fuel key, tpl_set dflt sprint fuel h (GDict Json 0) key (GDict Json 0) = None.
Proof.
  eexists. split; [reflexivity|]. intros. assert (N : forall f, need f [Some [($"self", GDict Json 0)]] (GDict Json 0) = None).
  { induction f as [|f IH]; [reflexivity|]. cbn [need]. change (entries [Some [($"self", GDict Json 0)]] 0) with [($"self", GDict Json 0)]. cbn [any_need snd]. rewrite IH. reflexivity. }
  unfold tpl_set, try_dict, dict_set. cbn [nth_error]. destruct fuel as [|f]; [reflexivity|]. cbn [convert]. unfold as_dict. cbv beta iota zeta. rewrite N. reflexivity.
Qed.
Print Assumptions C82_cycle_refuted.
