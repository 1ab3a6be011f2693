(** C110: structures converted to native Go maps. *)
From Coq Require Import String Ascii List ZArith NArith Bool PeanoNat.
From Verif Require Import GoStr ValueModel CliSpec StructModel StructSpec StructProofs.
Import ListNotations.

(** An entry of the map is what the last field that gives that entry gives, if no field is a key. *)
Theorem C110_struct : forall tname fs, (forall f, In f fs -> ~ option_in $"key" f) -> Forall sane fs ->
  exists m, marshal_struct tname fs = Ok (GMap m) /\
  forall k v, mget m k = Some v <-> exists a f b, fs = a ++ f :: b /\ gives f k v /\ forall g w, In g b -> ~ gives g k w.
Proof. exact @struct_spec. Qed.
Print Assumptions C110_struct.
(** Two keys are an error. *)
Theorem C110_two_keys : forall tname a f b g c, option_in $"key" f -> option_in $"key" g ->
  exists e, marshal_struct tname (a ++ f :: b ++ g :: c) = Err e.
Proof. exact @two_keys. Qed.
Print Assumptions C110_two_keys.
(** The message names the last two. *)
Theorem C110_last_keys : forall tname a f b g c, option_in $"key" f -> option_in $"key" g -> (forall h, In h (b ++ c) -> ~ option_in $"key" h) ->
  marshal_struct tname (a ++ f :: b ++ g :: c) = Err ($"multiple keys defined on struct '" ++ tname ++ $"' ('" ++ f_name f ++ $"' and '" ++ f_name g ++ $"')").
Proof. exact @last_keys. Qed.
Print Assumptions C110_last_keys.
(** A field that cannot be converted is an error; so is a field that is not a map and is to be inlined. *)
Theorem C110_error : forall tname a f b name, (forall g, In g (a ++ f :: b) -> ~ option_in $"key" g) -> Forall sane a -> converted f name ->
  (forall e, f_value f = Err e -> marshal_struct tname (a ++ f :: b) = Err e) /\
  (inlined f -> forall v, f_value f = Ok v -> (forall sub, v <> GMap sub) ->
     marshal_struct tname (a ++ f :: b) = Err ($"cannot apply inline or squash to non struct on field '" ++ f_name f ++ $"'")).
Proof. exact @struct_error. Qed.
Print Assumptions C110_error.

Definition plain_field (name : str) (tags : list (str * str)) (v : gv) : field := {|
  f_name := name; f_visible := true; f_exported := true; f_tags := tags; f_zero := false; f_text := $"text of " ++ name; f_value := Ok v |}.
(** With a key all the other fields are wanted under that key: only the last one remains. *)
Theorem C110_key_refuted : exists tname f g h m, option_in $"key" f /\ Forall sane [f; g; h] /\
  gives g $"size" (GOther $"3") /\ marshal_struct tname [f; g; h] = Ok (GMap m) /\
  (forall k sub, mget m k = Some (GMap sub) -> mget sub $"size" = None).
Proof.
  exists $"T", (plain_field $"Name" [($"hcl", $",key")] (GOther $"n")), (plain_field $"Size" [($"hcl", $"size")] (GOther $"3")),
    (plain_field $"Color" [($"hcl", $"color")] (GOther $"red")), [($"text of Name", GMap [($"color", GOther $"red")])].
  split; [apply option_iff; vm_compute; reflexivity|].
  split.
  { assert (NI : forall f, has_option $"inline" f || has_option $"squash" f = false -> ~ inlined f) by (intros f E I; apply inlined_iff in I; congruence).
    repeat constructor; intros n _; eexists; (split; [reflexivity|]); (split; [discriminate|]); intros I; exfalso; revert I; apply NI; vm_compute; reflexivity. }
  split.
  { exists $"size". split; [apply converted_iff; vm_compute; split; reflexivity|]. left.
    split; [intros I; apply inlined_iff in I; vm_compute in I; discriminate I|]. split; [reflexivity|]. split; [reflexivity | intros (_ & X); discriminate X]. }
  split; [vm_compute; reflexivity|].
  intros k sub H. cbn [mget] in H. destruct (str_eqb k $"text of Name"); [injection H as <-; vm_compute; reflexivity | discriminate H].
Qed.
Print Assumptions C110_key_refuted.
(** A null field is not left out, nor kept: the conversion panics. *)
Theorem C110_nil_refuted : exists tname f e, f_value f = Ok GNil /\ converted f $"Next" /\ marshal_struct tname [f] = Panic e.
Proof.
  exists $"T", (plain_field $"Next" [] GNil), $"reflect: call of reflect.Value.Interface on zero Value". split; [reflexivity|].
  split; [apply converted_iff; vm_compute; split; reflexivity | vm_compute; reflexivity].
Qed.
Print Assumptions C110_nil_refuted.

(** The last field wins, the first tag counts, a hyphen hides, inline spreads. *)
Example C110_struct_example :
  marshal_struct $"T" [
    plain_field $"A" [] (GOther $"1");
    plain_field $"B" [($"json", $"b2,omitempty"); ($"yaml", $"b3")] (GMap []);
    plain_field $"C" [($"json", $""); ($"yaml", $"c3,inline")] (GMap [($"A", GOther $"9"); ($"z", GOther $"5")]);
    plain_field $"D" [($"toml", $"-")] (GOther $"4");
    plain_field $"E" [($"json", $"e"); ($"hcl", $"h")] (GOther $"6")] =
  Ok (GMap [($"A", GOther $"9"); ($"z", GOther $"5"); ($"h", GOther $"6")]).
Proof. vm_compute. reflexivity. Qed.
Example C110_two_keys_example :
  marshal_struct $"T" [plain_field $"A" [($"hcl", $"a,key")] (GOther $"1"); plain_field $"B" [($"hcl", $",key")] (GOther $"1")] =
  Err $"multiple keys defined on struct 'T' ('A' and 'B')".
Proof. vm_compute. reflexivity. Qed.
Example C110_last_keys_example :
  marshal_struct $"T" [plain_field $"A" [($"hcl", $"a,key")] (GOther $"1"); plain_field $"B" [($"xml", $",key,inline")] (GOther $"1");
    plain_field $"C" [] (GOther $"1"); plain_field $"D" [($"json", $",omitempty,key")] (GOther $"1")] =
  Err $"multiple keys defined on struct 'T' ('B' and 'D')".
Proof. vm_compute. reflexivity. Qed.
Example C110_error_example :
  marshal_struct $"T" [plain_field $"A" [($"hcl", $",squash")] (GOther $"1")] = Err $"cannot apply inline or squash to non struct on field 'A'".
Proof. vm_compute. reflexivity. Qed.
