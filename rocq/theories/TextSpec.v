(** Vocabulary of the text properties, independent of the model functions. *)
From Coq Require Import String Ascii List ZArith NArith Bool.
From Verif Require Import GoStr Utf8.
Import ListNotations.

(** [sub] is in [s] at position [k]. *)
Definition occurs_at (sub s : str) (k : nat) : Prop := exists a b, s = a ++ sub ++ b /\ List.length a = k.

(** A text made of white space only. *)
Definition white (s : str) : Prop := forall r b, In (r, b) (chunks s) -> is_space_rune r = true.

(** A text that starts with a character which is not white space. *)
Definition starts_solid (s : str) : Prop :=
  exists r b rest, chunks s = (r, b) :: rest /\ is_space_rune r = false.

(** How the words of a line are cut into groups: a group of at least two words, preceded by [base]
    columns, fits in the width plus one; a group is not empty, or only because of [base]; the first word
    of the following group did not fit. *)
Fixpoint wrap_groups (width base : Z) (groups : list (list str)) : Prop :=
  match groups with
  | [] => False
  | g :: rest =>
      let used := (base + Z.of_nat (List.length (join [SP] g)))%Z in
      ((2 <= List.length g)%nat -> (used <= width + 1)%Z) /\
      match rest with
      | [] => True
      | [] :: _ => False
      | (w :: _) :: _ =>
          (0 < used)%Z /\ (width < used + Z.of_nat (List.length w))%Z /\ wrap_groups width 0 rest
      end
  end.

(** The inside of a string between double quotes: ordinary bytes and escaped bytes. *)
Inductive dq_body : str -> Prop :=
| dq_nil : dq_body []
| dq_char : forall c r, c <> DQ -> c <> BSL -> dq_body r -> dq_body (c :: r)
| dq_esc : forall c r, dq_body r -> dq_body (BSL :: c :: r).

(** A closed string literal. *)
Definition literal (s : str) : Prop :=
  (exists body, s = BQ :: body ++ [BQ] /\ ~ In BQ body) \/
  (exists body, s = DQ :: body ++ [DQ] /\ dq_body body).

(** A text without any quote. *)
Definition no_quote (s : str) : Prop := ~ In DQ s /\ ~ In BQ s.

(** Something that looks like a protection token. *)
Definition looks_like_token (s : str) : Prop :=
  exists ds, ds <> [] /\ (forall c, In c ds -> (48 <= N_of_ascii c <= 57)%N) /\
             s = DQ :: [ascii_of_N 226; ascii_of_N 153; ascii_of_N 160] ++ ds ++ [DQ].

(** [heads] and [mids] alternating. *)
Fixpoint interleave (heads mids : list str) : str :=
  match heads, mids with
  | h :: hs, m :: ms => h ++ m ++ interleave hs ms
  | _, _ => []
  end.

(** Number of occurrences of a byte before position k. *)
Definition count_before (c : ascii) (s : str) (k : nat) : nat := count_occ ascii_dec (firstn k s) c.

(** What remains after the last closed string: a text without quote, or a string that is not closed. *)
Definition open_tail (tail : str) : Prop :=
  no_quote tail \/
  exists h q after, tail = h ++ q :: after /\ no_quote h /\
    ((q = BQ /\ ~ In BQ after) \/ (q = DQ /\ forall body b, dq_body body -> after <> body ++ DQ :: b)).
