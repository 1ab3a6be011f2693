(** C74: an error of a template is attributed to its line and its action; only this line is changed before the rendering
    goes on.  C75: the ways in which this fails. *)
From Coq Require Import String Ascii List ZArith NArith Bool Lia.
From Verif Require Import GoStr GoStrFacts NumFacts TemplateModel TemplateSpec TemplateProofs ProcessModel ProcessSpec ProcessProofs TextModel TextSpec ErrorModel ErrorSpec ErrorMatch4 ErrorProofs ErrorProofs2 ErrorProofs3 ErrorProofs4 ErrorProofs5.
Import ListNotations.
Local Open Scope char_scope.

(** Whatever the message is, a new attempt differs in one line, which is reported with the line of the source. *)
Theorem C74_one_line : forall beyond red white black yellow read_file d file source code e code' err,
  handle beyond red white black yellow read_file d file source code e = Ok (Again code' err) ->
  exists pre line post new original, code = join [NL] (pre ++ line :: post) /\ good_lines (pre ++ line :: post) /\ code' = join [NL] (pre ++ new :: post) /\ nth_error source (List.length pre) = Some original /\
    (err <> None \/ new <> line) /\ (forall x, err = Some x -> exists where_ text, x = white where_ ++ text ++ $" in: " ++ black original).
Proof. exact one_line. Qed.
Print Assumptions C74_one_line.
(** A message that is not one of a template is reported as it is. *)
Theorem C74_other_errors : forall beyond red white black yellow read_file d file source code e,
  ~ holds e $"template: " -> handle beyond red white black yellow read_file d file source code e = Ok (Stop e).
Proof. exact not_ours. Qed.
Print Assumptions C74_other_errors.

(** An action that fails is replaced, and reported with its text, its code and its line.  The message may be inside of
    others, those of the templates that include this one. *)
Theorem C74_running : forall beyond red white black yellow read_file d file source (pre post : list str) (a action b : str) original o column name code text,
  let line := a ++ (left_delim d ++ action ++ right_delim d) ++ b in
  let n := itoa (Z.of_nat (S (List.length pre))) in let col := itoa (Z.of_nat column) in
  left_delim d <> [] -> right_delim d <> [] ->
  good_lines (pre ++ line :: post) -> small (S (List.length pre)) -> small (List.length line) -> nth_error source (List.length pre) = Some original -> outer_ok o ->
  exec_ok file n col name code text -> ~ keyed text -> ~ raised text ->
  List.length a + List.length (left_delim d) < column <= List.length a + List.length (left_delim d) + List.length action ->
  (forall k, occurs_at (right_delim d) line k -> column <= S k -> List.length a + List.length (left_delim d) + List.length action <= k) ->
  (forall k, occurs_at (left_delim d) (a ++ left_delim d ++ action) k -> k <= List.length a) ->
  (forall k, occurs_at (left_delim d ++ action ++ right_delim d) line k -> k = List.length a) ->
  ~ holds line $"""<RUN_ERROR>""" -> ~ holds code $"""<no value>""" ->
  handle beyond red white black yellow read_file d file source (join [NL] (pre ++ line :: post)) (outer_text o ++ exec_message file n col name code text) =
    Ok (Again (join [NL] (pre ++ (a ++ $"""<RUN_ERROR>""" ++ b) :: post))
              (Some (white (location file n (Some col)) ++ red (text ++ $" (" ++ code ++ $")") ++ $" in: " ++ black original))).
Proof. exact running. Qed.
Print Assumptions C74_running.
(** The errors a template raises itself replace the line and are reported with their message only. *)
Theorem C74_raising : forall beyond red white black yellow read_file d file source (pre post : list str) (line : str) original o column name code word message,
  let n := itoa (Z.of_nat (S (List.length pre))) in let col := itoa (Z.of_nat column) in
  let text := $"error calling " ++ word ++ $": " ++ message in
  word = $"raise" \/ word = $"assert" -> message <> [] ->
  good_lines (pre ++ line :: post) -> small (S (List.length pre)) -> small (List.length line) -> nth_error source (List.length pre) = Some original -> outer_ok o ->
  exec_ok file n col name code text -> 1 <= column <= List.length line -> line <> $"ERROR " -> ~ holds line $"""<RUN_ERROR>""" -> ~ holds code $"""<no value>""" ->
  handle beyond red white black yellow read_file d file source (join [NL] (pre ++ line :: post)) (outer_text o ++ exec_message file n col name code text) =
    Ok (Again (join [NL] (pre ++ $"ERROR " :: post)) (Some (white (location file n (Some col)) ++ red message ++ $" in: " ++ black original))).
Proof. exact raising. Qed.
Print Assumptions C74_raising.
(** A line that cannot be read is replaced by its error ... *)
Theorem C74_parsing : forall beyond red white black yellow read_file d file source (pre post : list str) (line : str) original o text,
  let n := itoa (Z.of_nat (S (List.length pre))) in let e := parse_message file n text in
  good_lines (pre ++ line :: post) -> small (S (List.length pre)) -> nth_error source (List.length pre) = Some original -> outer_ok o ->
  parse_ok file n text -> ~ holds e $"undefined variable """ -> ~ holds e $"unclosed action started at " -> line <> $"ERROR " ++ text -> ~ holds line $"""<RUN_ERROR>""" ->
  handle beyond red white black yellow read_file d file source (join [NL] (pre ++ line :: post)) (outer_text o ++ e) =
    Ok (Again (join [NL] (pre ++ ($"ERROR " ++ text) :: post)) (Some (white (location file n None) ++ red text ++ $" in: " ++ black original))).
Proof. exact parsing. Qed.
Print Assumptions C74_parsing.
(** ... the line where it starts when an action is not closed ... *)
Theorem C74_unclosed : forall beyond red white black yellow read_file d file source (pre post : list str) (line : str) original o reported place,
  let n := itoa (Z.of_nat (S reported)) in let text := $"unclosed action started at " ++ place ++ $":" ++ itoa (Z.of_nat (S (List.length pre))) in let e := parse_message file n text in
  good_lines (pre ++ line :: post) -> small (S (List.length pre)) -> small (S reported) -> nth_error source (List.length pre) = Some original -> outer_ok o ->
  parse_ok file n text -> ~ holds e $"undefined variable """ -> line <> $"ERROR " ++ text -> ~ holds line $"""<RUN_ERROR>""" ->
  handle beyond red white black yellow read_file d file source (join [NL] (pre ++ line :: post)) (outer_text o ++ e) =
    Ok (Again (join [NL] (pre ++ ($"ERROR " ++ text) :: post)) (Some (white (location file n None) ++ red text ++ $" in: " ++ black original))).
Proof. exact unclosed. Qed.
Print Assumptions C74_unclosed.
(** ... and the variable only when it does not exist. *)
Theorem C74_variable : forall beyond red white black yellow read_file d file source (pre post : list str) (a b : str) original o value,
  let line := a ++ value ++ b in let n := itoa (Z.of_nat (S (List.length pre))) in let text := $"undefined variable """ ++ value ++ $"""" in
  value <> [] -> good_lines (pre ++ line :: post) -> small (S (List.length pre)) -> nth_error source (List.length pre) = Some original -> outer_ok o ->
  parse_ok file n text -> (forall k, occurs_at value line k -> k = List.length a) -> ~ holds line $"""<RUN_ERROR>""" ->
  handle beyond red white black yellow read_file d file source (join [NL] (pre ++ line :: post)) (outer_text o ++ parse_message file n text) =
    Ok (Again (join [NL] (pre ++ (a ++ $"""<UNDEF " ++ value ++ $">""" ++ b) :: post)) (Some (white (location file n None) ++ red text ++ $" in: " ++ black original))).
Proof. exact undefined. Qed.
Print Assumptions C74_variable.
(** An error in another file stops the rendering; the line of that file is reported. *)
Theorem C74_elsewhere : forall beyond red white black yellow read_file d file source code other n column name at_ text o content before_ l after_,
  other <> file -> n = List.length before_ -> small (S n) -> small column -> outer_ok o ->
  exec_ok other (itoa (Z.of_nat (S n))) (itoa (Z.of_nat column)) name at_ text -> ~ keyed text -> ~ raised text ->
  read_file other = Ok content -> content = join [NL] (before_ ++ l :: after_) -> good_lines (before_ ++ l :: after_) ->
  let e := outer_text o ++ exec_message other (itoa (Z.of_nat (S n))) (itoa (Z.of_nat column)) name at_ text in
  handle beyond red white black yellow read_file d file source code e = Ok (Stop (white file ++ $" " ++ e ++ $" in: " ++ black l)).
Proof. exact other_file. Qed.
Print Assumptions C74_elsewhere.

(** A missing key is replaced and reported where nothing accepts it ... *)
Theorem C74_missing : forall beyond red white black yellow read_file file source (pre post : list str) (a u path v b : str) original o name code key,
  let line := action_line a u path v b in let n := itoa (Z.of_nat (S (List.length pre))) in let column := itoa (Z.of_nat (path_column a u)) in
  let text := $"map has no entry for key """ ++ key ++ $"""" in
  key <> [] -> one_action a u path v b ->
  good_lines (pre ++ line :: post) -> small (S (List.length pre)) -> small (List.length line) -> nth_error source (List.length pre) = Some original -> outer_ok o ->
  exec_ok file n column name code text -> ~ holds line $"""<RUN_ERROR>""" -> ~ holds code $"""<no value>""" ->
  (forall w, In w lenient -> ~ holds ($"{{" ++ (u ++ $" " ++ $"""<no value>""" ++ v) ++ $"}}") w) ->
  handle beyond red white black yellow read_file default_delims file source (join [NL] (pre ++ line :: post)) (outer_text o ++ exec_message file n column name code text) =
    Ok (Again (join [NL] (pre ++ action_line a u $"""<no value>""" v b :: post)) (Some (white (location file n (Some column)) ++ (red $"Undefined value " ++ yellow key) ++ $" in: " ++ black original))).
Proof. intros. apply missing; try assumption. apply one_located. assumption. Qed.
Print Assumptions C74_missing.
(** ... and not reported where there is a value by default ... *)
Theorem C74_default : forall beyond red white black yellow read_file file source (pre post : list str) (a w x path b : str) original o name code key,
  let u := $" " ++ w ++ $" " ++ x in let line := action_line a u path $" " b in let n := itoa (Z.of_nat (S (List.length pre))) in let column := itoa (Z.of_nat (path_column a u)) in
  let text := $"map has no entry for key """ ++ key ++ $"""" in
  In w defaults -> one_word x -> key <> [] -> one_action a u path $" " b ->
  good_lines (pre ++ line :: post) -> small (S (List.length pre)) -> small (List.length line) -> nth_error source (List.length pre) = Some original -> outer_ok o ->
  exec_ok file n column name code text -> ~ holds line $"""<RUN_ERROR>""" -> ~ holds code $"""<no value>""" ->
  handle beyond red white black yellow read_file default_delims file source (join [NL] (pre ++ line :: post)) (outer_text o ++ exec_message file n column name code text) =
    Ok (Again (join [NL] (pre ++ (a ++ $"{{ " ++ x ++ $" }}" ++ b) :: post)) None).
Proof. exact defaulted. Qed.
Print Assumptions C74_default.
(** ... or a condition on values that may not exist. *)
Theorem C74_condition : forall beyond red white black yellow read_file file source (pre post : list str) (a kw w path b : str) original o name code key,
  let u := $" " ++ kw ++ $" " ++ w in let line := action_line a u path $" " b in let n := itoa (Z.of_nat (S (List.length pre))) in let column := itoa (Z.of_nat (path_column a u)) in
  let text := $"map has no entry for key """ ++ key ++ $"""" in
  In kw [$"if"; $"with"; $"range"] -> In w conditions -> key <> [] -> one_action a u path $" " b ->
  good_lines (pre ++ line :: post) -> small (S (List.length pre)) -> small (List.length line) -> nth_error source (List.length pre) = Some original -> outer_ok o ->
  exec_ok file n column name code text -> ~ holds line $"""<RUN_ERROR>""" -> ~ holds code $"""<no value>""" ->
  handle beyond red white black yellow read_file default_delims file source (join [NL] (pre ++ line :: post)) (outer_text o ++ exec_message file n column name code text) =
    Ok (Again (join [NL] (pre ++ (a ++ $"{{ " ++ kw ++ $" " ++ (if str_eqb w $"isSet" then $"false" else $"true") ++ $" }}" ++ b) :: post)) None).
Proof. exact conditional. Qed.
Print Assumptions C74_condition.

(** With the whole rendering: the error of the first attempt is in the report of a strict file, with its place and its line. *)
Theorem C74_reported : forall {G : Engine} beyond red white black yellow read_file stack opt d st st1 file source (pre post : list str) (a action b : str) original o column name code text prepared script o' st' result changed err,
  (forall f l c e, diagnose f l c e = diagnosis beyond red white black yellow read_file d f l c e) ->
  let line := a ++ (left_delim d ++ action ++ right_delim d) ++ b in
  let n := itoa (Z.of_nat (S (List.length pre))) in let col := itoa (Z.of_nat column) in
  prepare opt d source = (prepared, script) -> oget opt o_rendering_disabled = false -> is_code d prepared = true -> strict opt file source ->
  (if oget opt o_accept_no_value then prepared else protect_values prepared) = join [NL] (pre ++ line :: post) ->
  run_engine st 0 file (join [NL] (pre ++ line :: post)) = (st1, Err (outer_text o ++ exec_message file n col name code text)) ->
  left_delim d <> [] -> right_delim d <> [] ->
  good_lines (pre ++ line :: post) -> small (S (List.length pre)) -> small (List.length line) -> nth_error (split [NL] source) (List.length pre) = Some original -> outer_ok o ->
  exec_ok file n col name code text -> ~ keyed text -> ~ raised text ->
  List.length a + List.length (left_delim d) < column <= List.length a + List.length (left_delim d) + List.length action ->
  (forall k, occurs_at (right_delim d) line k -> column <= S k -> List.length a + List.length (left_delim d) + List.length action <= k) ->
  (forall k, occurs_at (left_delim d) (a ++ left_delim d ++ action) k -> k <= List.length a) ->
  (forall k, occurs_at (left_delim d ++ action ++ right_delim d) line k -> k = List.length a) ->
  ~ holds line $"""<RUN_ERROR>""" -> ~ holds code $"""<no value>""" ->
  process_content stack opt d st file source = (o', st', Ok (result, changed, err)) ->
  exists x, err = Some x /\ holds x (white (location file n (Some col)) ++ red (text ++ $" (" ++ code ++ $")") ++ $" in: " ++ black original).
Proof. exact @reported_run. Qed.
Print Assumptions C74_reported.

(** ** Samples *)
Definition mark (m s : str) : str := $"<" ++ m ++ $":" ++ s ++ $">".
Definition sample (source : list str) (code : list str) (e : str) : res diag :=
  handle (fun _ => false) (mark $"R") (mark $"W") (mark $"B") (mark $"Y") (fun f => if str_eqb f $"g" then Ok ($"1" ++ [NL] ++ $"{{ h }}") else Err $"not found") default_delims $"f" source (join [NL] code) e.
Ltac absent := apply holds_not; vm_compute; reflexivity.
Ltac absent_in := intros X; cbn in X; repeat (destruct X as [X|X]; [discriminate|]); exact X.
Ltac told_ok := split; [split; [repeat constructor | split; absent_in]|]; split; [split; [discriminate | repeat constructor; discriminate]|]; split; [split; [discriminate | repeat constructor; discriminate] || exact I | absent].
Ltac sent := split; [told_ok|]; split; [repeat constructor|]; split; [repeat constructor|]; split; [repeat constructor|]; split; [discriminate|]; split; [absent|]; split; absent.
Lemma C74_sample_message : exec_ok $"f" $"2" $"5" $"f" $"fail ""x""" $"error calling fail: x".
Proof. sent. Qed.
Lemma C74_sample_key : exec_ok $"f" $"2" $"14" $"f" $".a.b" $"map has no entry for key ""b""".
Proof. sent. Qed.
Lemma C74_sample_parse : parse_ok $"f" $"2" $"unexpected ""}"" in operand".
Proof. split; [told_ok|]. split; [repeat constructor|]. split; [absent_in | absent]. Qed.
Lemma C74_sample_outer : outer_ok [($"main", $"12", Some $"4", $"executing ""main"" at <include ""f"" .>: error calling include: ")].
Proof. constructor; [told_ok | constructor]. Qed.
Lemma C74_sample_action : one_action $"v: " $" default 1" $".a.b" $" " $" end".
Proof.
  split; [split; [absent_in | split; absent_in]|]. split; [split; [absent_in | split; absent_in]|]. split; [split; [absent_in | split; absent_in]|]. split; [split; [absent_in | split; absent_in]|].
  split; [discriminate|]. split; [repeat constructor; cbn; try lia; try (right; left; reflexivity); left; lia|]. split; [reflexivity|].
  intros x y E. change ($" default 1 .a.b " = x ++ $".a.b" ++ y) in E. do 17 (destruct x as [|? x]; [try discriminate E; try reflexivity | try (injection E as <- E)]); try discriminate.
Qed.
Example C74_running_example : sample [$"a"; $"b {{ fail ""x"" }} c"] [$"a"; $"b {{ fail ""x"" }} c"]
  ($"template: main:12:4: executing ""main"" at <include ""f"" .>: error calling include: template: f:2:5: executing ""f"" at <fail ""x"">: error calling fail: x") =
  Ok (Again ($"a" ++ [NL] ++ $"b ""<RUN_ERROR>"" c") (Some $"<W:f:2:5: ><R:error calling fail: x (fail ""x"")> in: <B:b {{ fail ""x"" }} c>")).
Proof. vm_compute. reflexivity. Qed.
Example C74_raising_example : sample [$"{{ raise ""no"" }}"] [$"{{ raise ""no"" }}"] $"template: f:1:3: executing ""f"" at <raise ""no"">: error calling raise: no" =
  Ok (Again $"ERROR " (Some $"<W:f:1:3: ><R:no> in: <B:{{ raise ""no"" }}>")).
Proof. vm_compute. reflexivity. Qed.
Example C74_parsing_example : sample [$"a"; $"{{ } }}"] [$"a"; $"{{ } }}"] $"template: f:2: unexpected ""}"" in operand" =
  Ok (Again ($"a" ++ [NL] ++ $"ERROR unexpected ""}"" in operand") (Some $"<W:f:2: ><R:unexpected ""}"" in operand> in: <B:{{ } }}>")).
Proof. vm_compute. reflexivity. Qed.
Example C74_unclosed_example : sample [$"{{ a"; $"b"] [$"{{ a"; $"b"] $"template: f:2: unclosed action started at f:1" =
  Ok (Again ($"ERROR unclosed action started at f:1" ++ [NL] ++ $"b") (Some $"<W:f:2: ><R:unclosed action started at f:1> in: <B:{{ a>")).
Proof. vm_compute. reflexivity. Qed.
Example C74_variable_example : sample [$"{{ $a }}{{ $x }}"] [$"{{ $a }}{{ $x }}"] $"template: f:1: undefined variable ""$x""" =
  Ok (Again $"{{ $a }}{{ ""<UNDEF $x>"" }}" (Some $"<W:f:1: ><R:undefined variable ""$x""> in: <B:{{ $a }}{{ $x }}>")).
Proof. vm_compute. reflexivity. Qed.
Example C74_elsewhere_example : sample [$"{{ include ""g"" . }}"] [$"{{ include ""g"" . }}"] $"template: g:2:3: executing ""g"" at <h>: error calling h: no" =
  Ok (Stop $"<W:f> template: g:2:3: executing ""g"" at <h>: error calling h: no in: <B:{{ h }}>").
Proof. vm_compute. reflexivity. Qed.
Example C74_missing_example : sample [$"v: {{ add 1 .a.b }} end"] [$"v: {{ add 1 .a.b }} end"] $"template: f:1:12: executing ""f"" at <.a.b>: map has no entry for key ""b""" =
  Ok (Again $"v: {{ add 1 ""<no value>"" }} end" (Some $"<W:f:1:12: ><R:Undefined value ><Y:b> in: <B:v: {{ add 1 .a.b }} end>")).
Proof. vm_compute. reflexivity. Qed.
Example C74_default_example : sample [$"a"; $"v: {{ default 1 .a.b }} end"] [$"a"; $"v: {{ default 1 .a.b }} end"] $"template: f:2:16: executing ""f"" at <.a.b>: map has no entry for key ""b""" =
  Ok (Again ($"a" ++ [NL] ++ $"v: {{ 1 }} end") None).
Proof. vm_compute. reflexivity. Qed.
Example C74_condition_example : sample [$"{{ if isSet .a }}"; $"x{{ end }}"] [$"{{ if isSet .a }}"; $"x{{ end }}"] $"template: f:1:12: executing ""f"" at <.a>: map has no entry for key ""a""" =
  Ok (Again ($"{{ if false }}" ++ [NL] ++ $"x{{ end }}") None).
Proof. vm_compute. reflexivity. Qed.

(** * C75 *)
(** The second action that fails in a line is not reported: its error is dropped. *)
Theorem C75_second_refuted : exists source code1 code2 e1 e2 x,
  sample source source e1 = Ok (Again code1 (Some x)) /\ sample source [code1] e2 = Ok (Again code2 None) /\ holds (join [NL] source) $"{{ fail ""y"" }}" /\ ~ holds code2 $"{{ fail ""y"" }}".
Proof.
  exists [$"{{ fail ""x"" }} {{ fail ""y"" }}"], $"""<RUN_ERROR>"" {{ fail ""y"" }}", $"""<RUN_ERROR>"" ""<RUN_ERROR>""",
    $"template: f:1:3: executing ""f"" at <fail ""x"">: error calling fail: x", $"template: f:1:17: executing ""f"" at <fail ""y"">: error calling fail: y".
  eexists. split; [vm_compute; reflexivity|]. split; [vm_compute; reflexivity|]. split; [apply holds_iff; vm_compute; reflexivity | absent].
Qed.
Print Assumptions C75_second_refuted.
(** A test outside of a condition loses the start of its action: the template cannot be read any more. *)
Theorem C75_test_refuted : exists line e, sample [line] [line] e = Ok (Again $"true }}" None) /\ line = $"{{ isNil .x }}".
Proof. exists $"{{ isNil .x }}", $"template: f:1:9: executing ""f"" at <.x>: map has no entry for key ""x""". split; [vm_compute; reflexivity | reflexivity]. Qed.
Print Assumptions C75_test_refuted.
(** Without a blank after the delimiter the action is not found: the mark is inserted before each character of the line. *)
Theorem C75_blank_refuted : exists line e x, line = $"{{.x}}" /\
  sample [line] [line] e = Ok (Again $"""<no value>""{""<no value>""{""<no value>"".""<no value>""x""<no value>""}""<no value>""}""<no value>""" (Some x)).
Proof. exists $"{{.x}}", $"template: f:1:2: executing ""f"" at <.x>: map has no entry for key ""x""". eexists. split; [reflexivity|]. vm_compute. reflexivity. Qed.
Print Assumptions C75_blank_refuted.
(** An error at the start of a line (an action written on two lines) ends the rendering by a panic. *)
Theorem C75_column_refuted : exists source e m, sample source source e = Panic m.
Proof. exists [$"{{"; $".x }}"], $"template: f:2:0: executing ""f"" at <.x>: map has no entry for key ""x""". eexists. vm_compute. reflexivity. Qed.
Print Assumptions C75_column_refuted.
(** A message of two lines moves the lines that follow: the next errors are reported with the wrong line, or end the rendering
    by a panic when the source is not long enough. *)
Theorem C75_lines_refuted : exists source code e1 e2 x m,
  sample source source e1 = Ok (Again code (Some x)) /\ List.length (split [NL] code) = 3 /\ List.length source = 2 /\
  nth_error (split [NL] code) 2 = nth_error source 1 /\ sample source (split [NL] code) e2 = Panic m.
Proof.
  exists [$"{{h}}"; $"{{ fail ""y"" }}"]. eexists. exists ($"template: f:1:2: executing ""f"" at <h>: error calling h: one" ++ [NL] ++ $"two"), $"template: f:3:3: executing ""f"" at <fail ""y"">: error calling fail: y".
  eexists. eexists. split; [vm_compute; reflexivity|]. split; [vm_compute; reflexivity|]. split; [reflexivity|]. split; vm_compute; reflexivity.
Qed.
Print Assumptions C75_lines_refuted.
(** A message that speaks of another template is attributed to it, although the file is known to be f: the rendering stops. *)
Theorem C75_text_refuted : exists source e x, sample source source e = Ok (Stop x) /\ holds e $"template: f:1:3: executing ""f""" /\ holds x $"Unable to read file".
Proof.
  exists [$"{{ fail ""template: z:1: bad"" }}"], $"template: f:1:3: executing ""f"" at <fail ""template: z:1: bad"">: error calling fail: template: z:1: bad". eexists. split; [vm_compute; reflexivity|].
  split; apply holds_iff; vm_compute; reflexivity.
Qed.
Print Assumptions C75_text_refuted.
(** A variable that does not exist damages the others whose name starts with its name. *)
Theorem C75_variable_refuted : exists line e x, line = $"{{ $x }}{{ $xy }}" /\ sample [line] [line] e = Ok (Again $"{{ ""<UNDEF $x>"" }}{{ ""<UNDEF $x>""y }}" (Some x)).
Proof. exists $"{{ $x }}{{ $xy }}", $"template: f:1: undefined variable ""$x""". eexists. split; [reflexivity|]. vm_compute. reflexivity. Qed.
Print Assumptions C75_variable_refuted.
(** The error put in the place of a line can hold the action that failed: it fails again, and the rendering stops there. *)
Theorem C75_end_refuted : exists line1 line2 e x y, sample [line1] [line1] e = Ok (Again line2 (Some x)) /\ sample [line1] [line2] e = Ok (Stop y) /\ holds line2 $"{{end}}".
Proof.
  exists $"{{ end }}", $"ERROR unexpected {{end}}", $"template: f:1: unexpected {{end}}". eexists. eexists. split; [vm_compute; reflexivity|]. split; [vm_compute; reflexivity|]. apply holds_iff. vm_compute. reflexivity.
Qed.
Print Assumptions C75_end_refuted.
(** Scripts of gotemplate: the first line is removed before the rendering, but not from the lines reported; the line
    shown is the one before the one that fails. *)
Theorem C75_script_refuted : exists (G : Engine) source st result x,
  snd (process_content 5 (oset default_options o_strict_error_check true) default_delims st $"f" source) = Ok (result, false, Some x) /\
  nth_error (split [NL] source) 0 = Some $"#! /usr/bin/env gotemplate" /\ nth_error (split [NL] source) 1 = Some $"{{ fail ""x"" }}" /\ holds x $"#! /usr/bin/env gotemplate" /\ ~ holds x $"{{ fail ""x"" }}".
Proof.
  exists {| state := unit; substitute := fun s => s; rewrite_razor := fun s => s;
    run_engine := fun st _ _ code => if contains $"fail" code then (st, Err $"template: f:1:3: executing ""f"" at <fail ""x"">: error calling fail: x") else (st, Ok code);
    diagnose := fun file l code e => diagnosis (fun _ => false) (fun s => s) (fun s => s) (fun s => s) (fun s => s) (fun _ => Err []) default_delims file l code e; highlight := fun s => s; numbered := fun s => s; unable_text := [] |}.
  exists ($"#! /usr/bin/env gotemplate" ++ [NL] ++ $"{{ fail ""x"" }}"), tt. eexists. eexists. split; [vm_compute; reflexivity|]. split; [vm_compute; reflexivity|]. split; [vm_compute; reflexivity|]. split; [apply holds_iff; vm_compute; reflexivity | absent].
Qed.
Print Assumptions C75_script_refuted.
