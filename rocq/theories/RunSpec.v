(** Vocabulary for commands run from a template. *)
From Coq Require Import String Ascii List ZArith NArith Bool.
From Verif Require Import GoStr ValueModel HeapModel PathModel IncludeModel ScriptModel RunModel.
Import ListNotations.

(** A single argument that is a dictionary, or nil, is for the template and not for the command. *)
Inductive for_command : list hval -> list hval -> Prop :=
| fc_dict i p : for_command [HDict i p] []
| fc_nil : for_command [HNil] []
| fc_other args : (forall i p, args <> [HDict i p]) -> args <> [HNil] -> for_command args args.

(** Neither the name of a template nor of a file, and without templating. *)
Definition plain_text {G : Engine} (folder s : str) (st : state) : Prop :=
  s <> [] /\ mget (s_templates st) s = None /\ razor s = s /\
  (contains [NL] s = true \/ read_file (if is_abs s then s else join2 folder s) = Missing) /\
  exists t defs, parse s = Some (t, defs) /\ forall data, execute t data = Done s None.

(** A command is launched at most once, in the folder of the template; what it prints is the result. *)
Inductive performed (process : list str -> str -> str + str) (folder : str) (l : launch) : ending -> Prop :=
| p_nothing : l_command l = None -> l_error l = false -> performed process folder l (Ending (Some l) None RNone None)
| p_unknown e : l_command l = None -> l_error l = true -> performed process folder l (Ending (Some l) None RNone (Some e))
| p_success argv out : l_command l = Some argv -> process argv folder = inl out -> performed process folder l (Ending (Some l) (Some (argv, folder)) (RText out) None)
| p_failure argv e m : l_command l = Some argv -> process argv folder = inr e -> (exists u, m = u ++ e) -> performed process folder l (Ending (Some l) (Some (argv, folder)) RNone (Some m)).

(** A template that includes no other one. *)
Inductive includes_nothing : prog -> Prop :=
| in_done out err : includes_nothing (Done out err)
| in_crash : includes_nothing Crash
| in_act f k : includes_nothing k -> includes_nothing (Act f k)
| in_look k : (forall h v b, includes_nothing (k h v b)) -> includes_nothing (Look k).
