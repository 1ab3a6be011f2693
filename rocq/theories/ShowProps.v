(** C106: the list of templates; C107: decoding of HCL texts. *)
From Coq Require Import String Ascii List ZArith NArith Bool PeanoNat Sorted Permutation.
From Verif Require Import GoStr GoStrFacts Utf8 ValueModel MathModel HclModel ConvModel PathModel PathSpec CliModel CliSpec HelpSpec ShowModel ShowSpec ShowProofs ExampleEnv MathSpec.
Import ListNotations.

(** One line for every listed template and no other, in the order of the names; the names are in a column
    just wide enough for the longest of them, so that the places are aligned. *)
Theorem C106_lines : forall faint all folder tpls, NoDup (map fst tpls) -> absolute folder ->
  exists width es lines, print_templates faint all folder tpls = Ok lines /\ widest tpls width /\
  Forall2 (line_of faint all folder width) es lines /\ ascending (map fst es) /\
  (forall n p, In (n, p) es <-> In (n, p) tpls /\ exists name f, listed all folder n p name f).
Proof. exact templates_ok. Qed.
Print Assumptions C106_lines.
(** Without a rooted folder the list of templates can fail. *)
Theorem C106_folder_refuted : exists folder tpls, NoDup (map fst tpls) /\ forall faint all, exists e, print_templates faint all folder tpls = Panic e.
Proof.
  exists $"here", [($"a", $"/b")]. split; [repeat constructor; intros []|]. intros faint all. eexists. destruct all; vm_compute; reflexivity.
Qed.
Print Assumptions C106_folder_refuted.
Definition colour (s : str) : str := $"<" ++ s ++ $">".
Definition some_templates : list (str * str) :=
  [($"zoo", $"/w/sub/lib.template"); ($"/w/sub/lib.template", $"/w/sub/lib.template"); ($"format", $"/etc/lib"); ($"/w", $"/w"); ($".", $"/w/x"); ($"inline", $"inline")].
Example C106_example : print_templates colour false $"/w" some_templates = Ok [$".      <x>"; $"format <../etc/lib>"; $"zoo    <sub/lib.template>"].
Proof. vm_compute. reflexivity. Qed.
Example C106_example_all : print_templates colour true $"/w" some_templates = Ok
  [$".      <x>"; $"       <sub/lib.template>"; $"format <../etc/lib>"; $"       <inline>"; $"zoo    <sub/lib.template>"].
Proof. vm_compute. reflexivity. Qed.

Section C107.
Context {E : Env} {NE : NumEnv}.
Variable decode : str -> res value.
Variable decode_dict : str -> res (list (str * value)).
(** White space around a text does not matter. *)
Theorem C107_blank : forall m s t, trimmed s t -> hcl_unmarshal decode decode_dict m s = hcl_unmarshal decode decode_dict m t.
Proof. exact (hcl_blank decode decode_dict). Qed.
(** What is a document is decoded as such ... *)
Theorem C107_document : forall m t v, trimmed t t -> decode (t ++ [NL]) = Ok v -> hcl_unmarshal decode decode_dict m t = Ok (transform Hcl m v).
Proof. exact (hcl_document decode decode_dict). Qed.
(** ... anything else as the value of an assignment, and the same value is given to the target ... *)
Theorem C107_value : forall m t e d v, trimmed t t -> decode (t ++ [NL]) = Err e -> decode_dict ($"_=" ++ t ++ [NL]) = Ok d -> mget d $"_" = Some v -> v <> VNil ->
  hcl_unmarshal decode decode_dict m t = Ok (transform Hcl m v).
Proof. exact (hcl_value decode decode_dict). Qed.
(** ... and the error of a text that is neither is that of the document. *)
Theorem C107_error : forall m t e e', trimmed t t -> decode (t ++ [NL]) = Err e -> decode_dict ($"_=" ++ t ++ [NL]) = Err e' -> hcl_unmarshal decode decode_dict m t = Err e.
Proof. exact (hcl_error decode decode_dict). Qed.
(** An assignment without value has nothing to give to the target. *)
Theorem C107_nothing : forall m t e d, trimmed t t -> decode (t ++ [NL]) = Err e -> decode_dict ($"_=" ++ t ++ [NL]) = Ok d -> (mget d $"_" = None \/ mget d $"_" = Some VNil) ->
  hcl_unmarshal decode decode_dict m t = Err $"reflect: call of reflect.Value.Set on zero Value".
Proof. exact (hcl_nothing decode decode_dict). Qed.
(** A panic is turned into an error. *)
Theorem C107_no_panic : forall m t p, hcl_unmarshal decode decode_dict m t <> Panic p.
Proof. exact (hcl_no_panic decode decode_dict). Qed.
End C107.
Print Assumptions C107_blank.
Print Assumptions C107_document.
Print Assumptions C107_value.
Print Assumptions C107_error.
Print Assumptions C107_nothing.
Print Assumptions C107_no_panic.

(** A decoder for the texts of the example: assignments of numbers and lists of one number. *)
Definition toy_value (t : str) : res value :=
  if str_eqb t $"1" then Ok (n_ 1) else if str_eqb t $"[1]" then Ok (VSlice 0 [n_ 1]) else Err $"bad value".
Definition toy_dict (t : str) : res (list (str * value)) :=
  match split $"=" t with
  | [k; v] => do x <- toy_value (trim_space v); Ok [(trim_space k, x)]
  | _ => Err $"key expected"
  end.
Definition toy (t : str) : res value := do d <- toy_dict t; Ok (VMap 0 d).
Definition toy_unmarshal (t : str) : res value :=
  @hcl_unmarshal env0 {| int64_oob := fun _ => (- 2 ^ 63)%Z; parse_other := fun _ => None; max_cap := 2 ^ 44 |} toy toy_dict false t.
Example C107_example : toy_unmarshal $" a = 1 " = Ok (VDict Hcl [($"a", n_ 1)]) /\ toy_unmarshal $"  [1]" = Ok (VList Hcl [n_ 1]) /\
  toy_unmarshal $"1" = Ok (n_ 1) /\ toy_unmarshal $"2" = Err $"key expected" /\ toy_unmarshal $"a=2" = Err $"bad value".
Proof. vm_compute. repeat split; reflexivity. Qed.
