(** Vocabulary for scripts: what a script with a shebang line is. *)
From Coq Require Import String Ascii List ZArith NArith Bool.
From Verif Require Import GoStr.
Import ListNotations.

(** White space: blank, tab, newline, form feed, carriage return. *)
Definition newline : ascii := "010"%char.
Definition wspace (c : ascii) : Prop := In c [" "; "009"; newline; "012"; "013"]%char.
Definition spaces (w : str) : Prop := Forall wspace w.
Definition blanks (w : str) : Prop := Forall (fun c => c = " "%char \/ c = "009"%char) w.
(** A word has no white space in it (it can be empty). *)
Definition word (w : str) : Prop := Forall (fun c => ~ wspace c) w.
(** A text that does not start with white space. *)
Definition flush (s : str) : Prop := match s with [] => True | c :: _ => ~ wspace c end.
(** Nothing but white space up to the end of the line, or the end of some later line, or the end. *)
Definition line_end (s : str) : Prop := exists b r, s = b ++ r /\ spaces b /\ (r = [] \/ exists r', r = newline :: r').

(** t is a script: #!, one word or two, the end of the line and the source. *)
Definition script_text (t program app source : str) : Prop :=
  exists w b e, t = $"#!" ++ w ++ program ++ b ++ app ++ e ++ source /\
    spaces w /\ word program /\ program <> [] /\ blanks b /\ (b = [] -> app = []) /\ word app /\ spaces e /\ flush source /\ line_end (e ++ source).

(** t starts with #! alone on its line. *)
Definition bare_shebang (t source : str) : Prop :=
  exists w, t = $"#!" ++ w ++ source /\ spaces w /\ flush source /\ (In newline w \/ source = []).

(** A word of visible ASCII characters. *)
Definition printable (w : str) : Prop := Forall (fun c => (33 <= N_of_ascii c <= 126)%N) w.

(** The arguments as they are added to the text of a script. *)
Definition added (args : list str) : str := match args with [] => [] | _ => $" " ++ join $" " args ++ [newline] end.
(** An optional word of a command. *)
Definition opt_word (w : str) : list str := match w with [] => [] | _ => [w] end.
