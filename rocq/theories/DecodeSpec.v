(** How the decoders of a text are tried. *)
From Coq Require Import String Ascii List ZArith NArith Bool Permutation Sorted.
From Verif Require Import GoStr ValueModel CollSpec.
Import ListNotations.

Notation decoders := (list (str * (str -> value -> option str * value))).

(** The same decoders in the order of their names. *)
Definition by_name (ds ds' : decoders) : Prop := Permutation ds ds' /\ Sorted (fun a b => str_leb a b = true) (map fst ds').

(** Trying decoders one after the other on a target: the errors met, whether one accepted the text, and
    what the target holds then.  A decoder gets the target as the ones before left it. *)
Inductive runs (data : str) : decoders -> value -> list (str * str) -> bool -> value -> Prop :=
| runs_none out : runs data [] out [] false out
| runs_accept n d ds out out' : d data out = (None, out') -> runs data ((n, d) :: ds) out [] true out'
| runs_reject n d ds out e out1 errs ok out' : d data out = (Some e, out1) -> runs data ds out1 errs ok out' ->
    runs data ((n, d) :: ds) out ((n, e) :: errs) ok out'.

(** The text came back as it was although it does not look like a plain text; only seen when the target
    may hold anything. *)
Definition unchanged (anything : bool) (data : str) (out : value) : Prop :=
  anything = true /\ out = vstr data /\ exists c, In c data /\ In c $"=:{}".

Definition nil_or_list (v : value) : Prop := v = VNil \/ (exists t l, v = VSlice t l) \/ (exists i l, v = VList i l).

(** Texts such as "a = 1  b=2": the words and the blanks around them. *)
Definition blanks (s : str) : Prop := Forall (fun c => c = SP \/ c = TAB) s.
Definition word (s : str) : Prop := s <> [] /\ Forall (fun c => c <> SP /\ c <> TAB /\ c <> "="%char /\ c <> ":"%char) s.
Inductive settings : str -> list (str * str) -> Prop :=
| one_setting k b1 b2 v : word k -> blanks b1 -> blanks b2 -> word v -> settings (k ++ b1 ++ $"=" ++ b2 ++ v) [(k, v)]
| more_settings k b1 b2 v b s kvs : word k -> blanks b1 -> blanks b2 -> word v -> blanks b -> b <> [] -> settings s kvs ->
    settings (k ++ b1 ++ $"=" ++ b2 ++ v ++ b ++ s) ((k, v) :: kvs).
(** The YAML document with these entries. *)
Definition yaml_lines (kvs : list (str * str)) : str := concat (map (fun kv => fst kv ++ $": " ++ snd kv ++ [NL]) kvs).
