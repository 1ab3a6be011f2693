(** What the map of a structure should be. *)
From Coq Require Import String Ascii List ZArith NArith Bool PeanoNat.
From Verif Require Import GoStr ValueModel CliSpec StructModel.
Import ListNotations.

(** The first of the five tags that is not empty. *)
Definition tag_of (f : field) (t : str) : Prop :=
  (t = [] /\ forall c v, In c [$"hcl"; $"json"; $"yaml"; $"xml"; $"toml"] -> mget (f_tags f) c = Some v -> v = []) \/
  (exists before c after, [$"hcl"; $"json"; $"yaml"; $"xml"; $"toml"] = before ++ c :: after /\ t <> [] /\ mget (f_tags f) c = Some t /\
     forall b v, In b before -> mget (f_tags f) b = Some v -> v = []).
(** A name, then options. *)
Definition tagged (f : field) (name : str) (options : list str) : Prop := exists t, tag_of f t /\ pieces t (name :: options).
Definition option_in (o : str) (f : field) : Prop := exists n os, tagged f n os /\ In o os.
(** A field is converted if it is visible and exported, its name is not a hyphen and it is not to be omitted. *)
Definition converted (f : field) (name : str) : Prop :=
  f_visible f = true /\ f_exported f = true /\ ~ (option_in $"omitempty" f /\ f_zero f = true) /\
  exists n os, tagged f n os /\ n <> $"-" /\ ((n = [] /\ name = f_name f) \/ (n <> [] /\ name = n)).
Definition inlined (f : field) : Prop := option_in $"inline" f \/ option_in $"squash" f.
(** The entries that a field gives. *)
Definition gives (f : field) (k : str) (v : gv) : Prop :=
  exists name, converted f name /\
  ((~ inlined f /\ k = name /\ f_value f = Ok v /\ ~ (option_in $"omitempty" f /\ v = GMap [])) \/
   (inlined f /\ exists sub, f_value f = Ok (GMap sub) /\ mget sub k = Some v)).
(** Nothing goes wrong with a field. *)
Definition sane (f : field) : Prop :=
  forall name, converted f name -> exists v, f_value f = Ok v /\ v <> GNil /\ (inlined f -> exists sub, v = GMap sub /\ NoDup (map fst sub)).
