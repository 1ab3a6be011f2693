(** Specification of the messages of errors of templates. *)
From Coq Require Import String Ascii List ZArith NArith Bool.
From Verif Require Import GoStr TemplateSpec.
Import ListNotations.
Local Open Scope char_scope.

Definition ascii_text (s : str) : Prop := Forall (fun c => (N_of_ascii c < 128)%N) s.
Definition number_text (s : str) : Prop := s <> [] /\ Forall (fun c => (48 <= N_of_ascii c <= 57)%N) s.
(** Where an error is: file:line: or file:line:column: *)
Definition location (file line : str) (column : option str) : str :=
  file ++ $":" ++ line ++ (match column with Some c => $":" ++ c | None => [] end) ++ $": ".
(** The messages of package text/template *)
Definition parse_message (file line text : str) : str := $"template: " ++ location file line None ++ text.
Definition exec_message (file line column name code text : str) : str :=
  $"template: " ++ location file line (Some column) ++ $"executing """ ++ name ++ $""" at <" ++ code ++ $">: " ++ text.

(** A file name that can be told from the rest *)
Definition file_ok (file : str) : Prop := ascii_text file /\ ~ In ":" file /\ ~ In "010" file.
(** A message that says where it is, and says so once *)
Definition told (file line : str) (column : option str) (rest : str) : Prop :=
  file_ok file /\ number_text line /\ match column with Some c => number_text c | None => True end /\ ~ holds (location file line column ++ rest) $"template: ".
(** The marks of a message of a failed run are where the message puts them *)
Definition exec_ok (file line column name code text : str) : Prop :=
  told file line (Some column) ($"executing """ ++ name ++ $""" at <" ++ code ++ $">: " ++ text) /\
  ascii_text name /\ ascii_text code /\ ascii_text text /\ code <> [] /\
  ~ holds (code ++ $">: " ++ text) $""" at <" /\
  ~ holds ($"template: " ++ location file line (Some column) ++ $"executing """ ++ name ++ $""" at <" ++ code) $">: " /\ ~ holds text $">: ".
(** A message of a failed reading *)
Definition parse_ok (file line text : str) : Prop :=
  told file line None text /\ ascii_text text /\ ~ In "010" text /\ ~ holds ($"template: " ++ location file line None ++ text) $"executing """.
(** What surrounds a message: the messages of the templates that include *)
Definition outer := list (str * str * option str * str).
Definition outer_text (o : outer) : str := concat (map (fun '(file, line, column, text) => $"template: " ++ location file line column ++ text) o).
Definition outer_ok (o : outer) : Prop := Forall (fun '(file, line, column, text) => told file line column text) o.
(** The letters of a path of keys *)
Definition word_char (c : ascii) : Prop :=
  let n := N_of_ascii c in (48 <= n <= 57 \/ 65 <= n <= 90 \/ 97 <= n <= 122)%N \/ c = "." \/ c = "_".
(** The functions that accept undefined values *)
Definition lenient : list str := [$"undef"; $"ifUndef"; $"default"; $"isZero"; $"isNil"; $"isNull"; $"isEmpty"; $"isSet"; $"assert"].
(** A value written without blank *)
Definition one_word (s : str) : Prop := s <> [] /\ ascii_text s /\ Forall (fun c => ~ In c [" "; "009"; "010"; "012"; "013"]) s.
(** Text without delimiter and without parenthesis *)
Definition no_marks (s : str) : Prop := ~ In "{" s /\ ~ In "}" s /\ ~ In "(" s.
(** A line with one action: a text u and a blank, then a path, then the text v *)
Definition action_line (a u path v b : str) : str := a ++ ($"{{" ++ (u ++ $" " ++ path ++ v) ++ $"}}") ++ b.
Definition path_column (a u : str) : nat := List.length a + List.length u + 3.
Definition one_action (a u path v b : str) : Prop :=
  no_marks a /\ no_marks u /\ no_marks v /\ no_marks b /\ path <> [] /\ Forall word_char path /\ match v with [] => True | c :: _ => c = " " end /\
  (forall x y, u ++ $" " ++ path ++ v = x ++ path ++ y -> List.length x = List.length u + 1).
(** The functions that give another value *)
Definition defaults : list str := [$"undef"; $"ifUndef"; $"default"].
Definition conditions : list str := [$"isZero"; $"isNil"; $"isNull"; $"isEmpty"; $"isSet"].
Definition small (n : nat) : Prop := (Z.of_nat n < 9223372036854775808)%Z.
Definition good_lines (l : list str) : Prop := Forall (fun x => ~ In NL x) l.
(** The errors of missing keys and of raise and assert *)
Definition raised (text : str) : Prop := has_prefix $"error calling raise: " text = true \/ has_prefix $"error calling assert: " text = true.
Definition keyed (text : str) : Prop := has_prefix $"map has no entry for key """ text = true.
