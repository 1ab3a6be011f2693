(** Vocabulary for the properties of templates. *)
From Coq Require Import String Ascii List ZArith NArith Bool Arith.
From Verif Require Import GoStr ValueModel TemplateModel.
Import ListNotations.

(** The text holds s somewhere. *)
Definition holds (t s : str) : Prop := exists a b, t = a ++ s ++ b.

(** The text ends with e. *)
Definition ends (s e : str) : Prop := exists a, s = a ++ e.

(** An empty text stands for the default. *)
Definition or_default (s d : str) : str := match s with [] => d | _ => s end.

(** e is the extension of the path: from the last dot of the last element. *)
Definition extension (p e : str) : Prop :=
  (exists a x, p = a ++ $"." ++ x /\ e = $"." ++ x /\ ~ In "."%char x /\ ~ In "/"%char x) \/
  (exists a x, p = a ++ x /\ e = [] /\ ~ In "."%char x /\ ~ In "/"%char x /\ (a = [] \/ exists a', a = a' ++ $"/")).

(** Operations on templates: a new context, or a change of option. *)
Inductive op := NewContext (t : nat) (folder : str) (use_cache : bool) | SetOption (t k : nat) (v : bool).
Definition run_op (abs : str -> str) (h : heap) (o : op) : heap :=
  match o with
  | NewContext t folder c => fst (get_new_context abs h t folder c)
  | SetOption t k v => set_option h t k v
  end.
Definition run_ops (abs : str -> str) (h : heap) (ops : list op) : heap := fold_left (run_op abs) ops h.

(** A first template with these options. *)
Definition start (o : list (nat * bool)) (folder : str) : heap :=
  {| h_sets := [o]; h_tpls := [{| t_options := 0; t_folder := folder; t_children := [] |}] |}.
(** The template t exists. *)
Definition exists_in (h : heap) (t : nat) : Prop := t < List.length (h_tpls h).
(** The operations are on existing templates. *)
Fixpoint ops_ok (abs : str -> str) (h : heap) (ops : list op) : Prop :=
  match ops with
  | [] => True
  | o :: ops' => match o with NewContext t _ _ | SetOption t _ _ => exists_in h t end /\ ops_ok abs (run_op abs h o) ops'
  end.

(** The predefined constants. *)
Definition constant (k : str) (v : value) : Prop :=
  (v = vstr [NL] /\ In k [$"NL"; $"CR"; $"NEWLINE"]) \/ (v = vbool true /\ k = $"true") \/ (v = vbool false /\ k = $"false") \/ (v = VNil /\ k = $"null").
