(** Vocabulary for calls with an expanded last argument. *)
From Coq Require Import String Ascii List ZArith NArith Bool.
From Verif Require Import GoStr ValueModel TextSpec EllModel.
Import ListNotations.

Section WithRunner.
Context {R : Runner} {E : Env}.

(** A call of the function with these variables of the context, in a template. *)
Definition call_text (function : str) (names : list str) (t : str) : Prop :=
  exists b, b <> [] /\ Forall (fun c => c = " "%char) b /\
  t = left_delim ++ $" " ++ function ++ flat_map (fun n => $" ." ++ n) names ++ b ++ right_delim.
(** A name of the template language, in small or capital letters and digits. *)
Definition letter (c : ascii) : Prop := (65 <= N_of_ascii c <= 90 \/ 97 <= N_of_ascii c <= 122)%N.
Definition digit (c : ascii) : Prop := (48 <= N_of_ascii c <= 57)%N.
Definition a_name (n : str) : Prop := exists c r, n = c :: r /\ letter c /\ Forall (fun c => letter c \/ digit c) r.
Definition maps (ctx : list (str * value)) (names : list str) (vals : list value) : Prop :=
  NoDup (map fst ctx) /\ Forall2 (fun n v => In (n, v) ctx) names vals.

(** The engine calls the function: whatever the names of the variables are, the text printed and the error are those of
    [g] on their values. *)
Definition applies (function : str) (g : state -> list value -> state * (str * option str)) : Prop :=
  forall s names vals ctx t, Forall a_name names -> maps ctx names vals -> call_text function names t -> run_text s t (Some ctx) = g s vals.

(** The list a last argument stands for. *)
Inductive list_of : value -> list value -> Prop :=
| lo_nil : list_of VNil []
| lo_slice t l : list_of (VSlice t l) l
| lo_list i l : list_of (VList i l) l.

(** A text read as data: it is run as a template, and what it gives is data but neither nil nor a text; or it stays a text. *)
Definition data_of (s : state) (text : str) (s' : state) (d : value) : Prop :=
  exists content, run_text s text None = (s', (content, None)) /\ as_data content = Some d.
Inductive taken (s : state) (text : str) : state -> value -> Prop :=
| tk_data s' d : data_of s text s' d -> d <> VNil -> (forall n t, d <> VScal (SStr n t)) -> taken s text s' d
| tk_string s' n t : data_of s text s' (VScal (SStr n t)) -> taken s text s' (VScal (SStr false text))
| tk_error s' content e : run_text s text None = (s', (content, Some e)) -> taken s text s' (VScal (SStr false text))
| tk_other s' content : run_text s text None = (s', (content, None)) -> as_data content = None -> taken s text s' (VScal (SStr false text)).

(** What remains of an error: what follows the first [>: ]. *)
Definition shortened (e e' : str) : Prop :=
  (exists a, e = a ++ $">: " ++ e' /\ forall k, occurs_at $">: " e k -> (List.length a <= k)%nat) \/
  ((forall k, ~ occurs_at $">: " e k) /\ e' = e).

(** The lines of a text; a newline at the end is no line of its own. *)
Definition pieces_nl (content : str) (lines : list str) : Prop :=
  lines <> [] /\ Forall (fun l => ~ In NL l) lines /\
  (content = join [NL] lines ++ [NL] \/ (content = join [NL] lines /\ forall a, content <> a ++ [NL])).
(** The lines with their numbers, on four columns. *)
Inductive numbered : Z -> list str -> str -> Prop :=
| nb_nil k : numbered k [] []
| nb_cons k l lines pad rest : Forall (fun c => c = " "%char) pad -> (pad = [] \/ List.length (pad ++ itoa k) = 4) -> (4 <= List.length (pad ++ itoa k))%nat ->
    numbered (k + 1) lines rest -> numbered k (l :: lines) (pad ++ itoa k ++ $" " ++ l ++ [NL] ++ rest).
End WithRunner.
