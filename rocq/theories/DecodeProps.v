(** C36: the choice of the data format. *)
From Coq Require Import String Ascii List ZArith NArith Bool Permutation Sorted.
From Verif Require Import GoStr ValueModel CollSpec DecodeModel DecodeSpec DecodeProofs ExampleEnv.
Import ListNotations.

(** The result does not depend on the order of registration. *)
Theorem C36_order : forall {E : Env} ds ds', NoDup (map fst ds) -> Permutation ds ds' ->
  forall fuel itf data out, convert_data fuel itf ds data out = convert_data fuel itf ds' data out.
Proof. exact @convert_order. Qed.
Print Assumptions C36_order.

(** The first decoder, by name, that accepts the text decides, unless it gives back the text. *)
Theorem C36_first : forall {E : Env} fuel itf ds ds' data out errs out', NoDup (map fst ds) -> by_name ds ds' ->
  runs data ds' out errs true out' -> ~ unchanged itf data out' -> convert_data fuel itf ds data out = (None, out').
Proof. exact @convert_accept. Qed.
Print Assumptions C36_first.

(** When no decoder accepts the text, the errors of all of them are reported, in order. *)
Theorem C36_errors : forall {E : Env} fuel itf ds ds' data out errs out', NoDup (map fst ds) -> by_name ds ds' ->
  runs data ds' out errs false out' -> ds <> [] -> ~ nil_or_list out' \/ ~ In "="%char data ->
  convert_data fuel itf ds data out = (Some errs, out').
Proof. exact @convert_errors. Qed.
Print Assumptions C36_errors.
Theorem C36_errors_all : forall data ds out errs out', runs data ds out errs false out' -> map fst errs = map fst ds.
Proof. exact @runs_fail_errs. Qed.
Print Assumptions C36_errors_all.

(** If the target then holds nothing or a list and the text has an equal sign, the simplified text is
    tried; its errors are not reported. *)
Theorem C36_fallback : forall {E : Env} fuel itf ds ds' data out errs out1 r, NoDup (map fst ds) -> by_name ds ds' ->
  runs data ds' out errs false out1 -> ds <> [] -> nil_or_list out1 -> In "="%char data ->
  convert_data fuel itf ds (simplified data) out1 = r ->
  convert_data (S fuel) itf ds data out = (match fst r with None => None | Some _ => Some errs end, snd r).
Proof. exact @convert_fallback. Qed.
Print Assumptions C36_fallback.

(** A text given back by a decoder is an error, even though the decoder accepted it, unless the
    simplified text is accepted and prints differently. *)
Theorem C36_plain : forall {E : Env} fuel ds ds' data out errs out', NoDup (map fst ds) -> by_name ds ds' ->
  runs data ds' out errs true out' -> unchanged true data out' -> ~ In "="%char data ->
  convert_data fuel true ds data out = (Some errs, VNil).
Proof. exact @convert_plain. Qed.
Print Assumptions C36_plain.
Theorem C36_plain_fallback : forall {E : Env} fuel ds ds' data out errs out1 r, NoDup (map fst ds) -> by_name ds ds' ->
  runs data ds' out errs true out1 -> unchanged true data out1 -> In "="%char data ->
  convert_data fuel true ds (simplified data) out1 = r ->
  convert_data (S fuel) true ds data out =
    match fst r with
    | None => if list_eq_dec ascii_dec data (sprint (snd r)) then (Some errs, VNil) else r
    | Some _ => (Some errs, VNil)
    end.
Proof. exact @convert_plain_fallback. Qed.
Print Assumptions C36_plain_fallback.

(** Without decoders nothing changes. *)
Theorem C36_without : forall {E : Env} fuel itf data out, ~ unchanged itf data out -> convert_data fuel itf [] data out = (None, out).
Proof. exact @convert_without. Qed.
Print Assumptions C36_without.

(** One recursive call at most: the bound of the model is not a restriction. *)
Theorem C36_once : forall {E : Env} fuel itf ds data out, convert_data (S fuel) itf ds data out = convert_data 1 itf ds data out.
Proof. exact @convert_fuel. Qed.
Print Assumptions C36_once.

(** The simplified text of "k = v ..." is the YAML document with these entries. *)
Theorem C36_simplified : forall s kvs, settings s kvs -> simplified s = yaml_lines kvs.
Proof. exact @settings_simplified. Qed.
Print Assumptions C36_simplified.

(** Toy decoders: JSON accepts only "1"; HCL nothing; YAML knows one document and takes other texts for
    strings if they have no newline. *)
Definition toy_json (data : str) (out : value) : option str * value := if str_eqb data $"1" then (None, vint 1) else (Some $"bad json", out).
Definition toy_hcl (data : str) (out : value) : option str * value := (Some $"bad hcl", out).
Definition toy_yaml (data : str) (out : value) : option str * value :=
  if str_eqb data ($"a: 1" ++ NL :: $"b: x" ++ [NL]) then (None, nm_ [("a"%string, vint 1); ("b"%string, s_ "x")])
  else if contains [NL] data then (Some $"bad yaml", out) else (None, vstr data).
Definition toys : decoders := [($"yaml", toy_yaml); ($"!json", toy_json); ($"hcl", toy_hcl)].

Example C36_ex :
  let E := env0 in
  (convert_data 5 true toys $"1" VNil, convert_data 5 true toys $"a =1  b= x" VNil, convert_data 5 true toys $"plain" VNil,
   convert_data 5 true toys ($"x" ++ [NL]) VNil, convert_data 5 true toys $"a = 2" VNil)
  = ((None, vint 1), (None, nm_ [("a"%string, vint 1); ("b"%string, s_ "x")]), (None, vstr $"plain"),
     (Some [($"!json", $"bad json"); ($"hcl", $"bad hcl"); ($"yaml", $"bad yaml")], VNil),
     (Some [($"!json", $"bad json"); ($"hcl", $"bad hcl")], VNil)).
Proof. vm_compute. reflexivity. Qed.

Example C36_ex_runs : exists ds', by_name toys ds' /\ runs $"plain" ds' VNil [($"!json", $"bad json"); ($"hcl", $"bad hcl")] true (vstr $"plain").
Proof.
  exists [($"!json", toy_json); ($"hcl", toy_hcl); ($"yaml", toy_yaml)]. split; [split|].
  - unfold toys. eapply Permutation_trans; [apply perm_swap|]. apply perm_skip, perm_swap.
  - repeat constructor.
  - repeat (eapply runs_reject; [reflexivity|]). apply runs_accept. reflexivity.
Qed.

(** The accepting decoder does not always decide: an address is rejected because of its colon. *)
Theorem C36_first_refuted : exists E ds ds' data out errs out', NoDup (map fst ds) /\ by_name ds ds' /\ runs data ds' out errs true out' /\
  out' = vstr data /\ @convert_data E 1 true ds data out = (Some errs, VNil).
Proof.
  exists env0, [($"yaml", toy_yaml)], [($"yaml", toy_yaml)], $"http://x", VNil, [], (vstr $"http://x").
  split; [repeat constructor; intros []|]. split; [split; [apply Permutation_refl|repeat constructor]|].
  split; [apply runs_accept; reflexivity|]. split; [reflexivity|]. vm_compute. reflexivity.
Qed.
Print Assumptions C36_first_refuted.

(** The fallback depends on what the target holds: with a map in it, the same text is an error. *)
Theorem C36_target_refuted : exists E ds data, fst (@convert_data E 1 false ds data VNil) = None /\ fst (@convert_data E 1 false ds data (VMap 0 [])) <> None.
Proof.
  exists env0, [($"yaml", fun data out => if contains [NL] data then (None, VMap 0 []) else (Some $"bad", out))], $"a = 1". vm_compute. split; [reflexivity|discriminate].
Qed.
Print Assumptions C36_target_refuted.
