(** A concrete environment used by the examples: floats and foreign values print as "?", the default
    implementation is the base one. *)
From Coq Require Import String Ascii List ZArith NArith Bool.
From Verif Require Import GoStr ValueModel.
Import ListNotations.

Definition env0 : Env := {| fmtx := fun _ => $"?"; dflt := Base |}.

(** Short hands for values in examples. *)
Definition s_ (x : string) : value := vstr (lit x).
Definition n_ (z : Z) : value := vint z.
Definition l_ (l : list value) : value := VList Base l.
Definition d_ (m : list (string * value)) : value := VDict Base (map (fun kv => (lit (fst kv), snd kv)) m).
Definition nl_ (l : list value) : value := VSlice 0 l.
Definition nm_ (m : list (string * value)) : value := VMap 0 (map (fun kv => (lit (fst kv), snd kv)) m).
