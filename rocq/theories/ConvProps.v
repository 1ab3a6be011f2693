(** C18 and C19: native data and decoded documents. *)
From Coq Require Import String Ascii List ZArith NArith Bool Lia Permutation.
From Coq Require Import SpecFloat.
From Verif Require Import GoStr ValueModel ValueFacts CollSpec ListModel DictModel ExampleEnv FloatModel FloatFacts MathModel MathProps ConvModel ConvSpec ConvProofs.
Import ListNotations.

(** ** C18 *)

Theorem C18_native : forall {E : Env} v, data v -> native (native_of v).
Proof. exact @marshal_native. Qed.
Print Assumptions C18_native.

(** Native data is left as it is, so the conversion is idempotent. *)
Theorem C18_fixed : forall {E : Env} v, native v -> native_of v = v.
Proof. exact @marshal_fixed. Qed.
Print Assumptions C18_fixed.

Theorem C18_idempotent : forall {E : Env} v, data v -> native_of (native_of v) = native_of v.
Proof. intros E v D. exact (marshal_fixed _ (marshal_native v D)). Qed.
Print Assumptions C18_idempotent.

(** The content is the same, and still the same when converted back. *)
Theorem C18_content : forall {E : Env} v, data v -> same_content v (native_of v).
Proof. exact @marshal_same. Qed.
Print Assumptions C18_content.

Theorem C18_back : forall {E : Env} i v, data v -> same_content v (conv i (native_of v)) /\ converted (conv i (native_of v)).
Proof. intros E i v D. exact (conj (back_same i v D) (conv_converted i (native_of v))). Qed.
Print Assumptions C18_back.

(** Converting before does not matter. *)
Theorem C18_conv : forall {E : Env} i v, data v -> native_of (conv i v) = native_of v.
Proof. exact @marshal_conv. Qed.
Print Assumptions C18_conv.

Example C18_ex :
  let E := env0 in
  let v := VDict Json [($"a", VList Yaml [vnstr $"x"; VScal (SInt KUint8 7); VNil]); ($"b", VMapK 0 [(SInt KInt 1, n_ 2); (SStr false $"1", nl_ [n_ 3])])] in
  (native_of v, conv Hcl (native_of v))
  = (nm_ [("a"%string, nl_ [s_ "x"; VScal (SInt KUint 7); VNil]); ("b"%string, nm_ [("1"%string, nl_ [n_ 3])])],
     VDict Hcl [($"a", VList Hcl [s_ "x"; VScal (SInt KUint 7); VNil]); ($"b", VDict Hcl [($"1", VList Hcl [n_ 3])])]).
Proof. vm_compute. reflexivity. Qed.

(** ** C19 *)

Theorem C19_json : forall {E : Env} {NE : NumEnv} v, document true v -> processed true Json v (transform Json false v).
Proof. exact (fun E NE v => transform_spec true Json v (conj (fun _ => eq_refl) (fun _ => eq_refl)) ltac:(discriminate)). Qed.
Print Assumptions C19_json.

Theorem C19_yaml : forall {E : Env} {NE : NumEnv} v, document false v -> processed false Yaml v (transform Yaml false v).
Proof. exact (fun E NE v => transform_spec false Yaml v ltac:(split; discriminate) ltac:(discriminate)). Qed.
Print Assumptions C19_yaml.

(** HCL: lists of one map are unwrapped first. *)
Theorem C19_hcl : forall {E : Env} {NE : NumEnv} v, hcl_document v -> exists u, unwrapped v u /\ processed false Hcl u (transform Hcl false v).
Proof. exact @transform_hcl. Qed.
Print Assumptions C19_hcl.

(** A map[string]interface{} target receives the same content as native data. *)
Theorem C19_map : forall {E : Env} {NE : NumEnv} json i v, i <> Hcl -> document json v -> data v ->
  native (transform i true v) /\ same_content (transform i false v) (transform i true v).
Proof. exact @transform_map_spec. Qed.
Print Assumptions C19_map.

Example C19_ex :
  let E := env1 in let N := num1 in
  let half := vfloat (S754_finite false 4503599627370496 (-53)) in
  let v := nm_ [("a"%string, nl_ [VNil; vfloat (of_int 12); half]); ("b"%string, nm_ [("c"%string, VNil)])] in
  (transform Json false v, transform Yaml false VNil, transform Json true v)
  = (VDict Json [($"a", VList Json [VDict Json []; n_ 12; half]); ($"b", VDict Json [($"c", VDict Json [])])],
     VDict Yaml [],
     nm_ [("a"%string, nl_ [nm_ []; n_ 12; half]); ("b"%string, nm_ [("c"%string, nm_ [])])]).
Proof. vm_compute. reflexivity. Qed.
Example C19_ex_hcl :
  let E := env1 in let N := num1 in
  let m k v := nm_ [(k, v)] in
  (transform Hcl false (m "a"%string (VSlice 1 [m "b"%string (VSlice 1 [m "c"%string (n_ 1)])])), transform Hcl false (m "a"%string (VSlice 1 [m "x"%string (n_ 1); m "y"%string (n_ 2)])))
  = (VDict Hcl [($"a", VDict Hcl [($"b", VDict Hcl [($"c", n_ 1)])])],
     VDict Hcl [($"a", VList Hcl [VDict Hcl [($"x", n_ 1)]; VDict Hcl [($"y", n_ 2)]])]).
Proof. vm_compute. reflexivity. Qed.

(** Beyond the range of int64 an integral JSON number becomes another number: 2^63 is read as -2^63
    (on amd64). *)
Theorem C19_range_refuted : exists (E : Env) (NE : NumEnv) f z, is_int f z /\ transform Json false (VScal (SFloat f)) = vint (- z).
Proof.
  exists env1, num1, (S754_finite false 4503599627370496 11), (2 ^ 63)%Z. split; [|vm_compute; reflexivity].
  split; [split; [vm_compute; reflexivity|discriminate]|]. vm_compute. reflexivity.
Qed.
Print Assumptions C19_range_refuted.

(** null and {} become the same value: the two documents cannot be told apart. *)
Theorem C19_null_refuted : exists (E : Env) (NE : NumEnv) v w, v <> w /\ document true v /\ document true w /\ transform Json false v = transform Json false w.
Proof.
  exists env1, num1, VNil, (VMap 0 []). split; [discriminate|]. split; [constructor|]. split; [constructor; constructor|]. reflexivity.
Qed.
Print Assumptions C19_null_refuted.
