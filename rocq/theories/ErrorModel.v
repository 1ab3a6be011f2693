(** The error handler of renderings: template/template_error_handler.go.  The colours, the reading of files and the
    letters beyond ASCII of regular expressions are parameters; the traces are not modelled. *)
From Coq Require Import String Ascii List ZArith NArith Bool.
From Verif Require Import GoStr Utf8 TemplateModel ProcessModel TextModel RazorWordsModel ReModel ReSyntaxModel RazorTableModel RazorAssignModel.
Import ListNotations.

(** template/template_process.go:17-33 *)
Definition undef_error : str := $"""<no value>""".
Definition no_value_error : str := $"contains undefined value(s)".
Definition run_error : str := $"""<RUN_ERROR>""".

(** p: template/template_process.go:15 *)
Definition p_group (name expr : str) : str := $"(?P<" ++ name ++ $">" ++ expr ++ $")".
(** linePrefix, execPrefix and the expressions of init: template/template_error_handler.go:185-206 *)
Definition line_prefix : str :=
  $"template: " ++ p_group $"location" (p_group $"file" $".*?" ++ $":" ++ p_group $"line" $"\d+" ++ $"(:" ++ p_group $"column" $"\d+" ++ $")?: ").
Definition exec_prefix : str := $"(?s)^" ++ line_prefix ++ $"executing "".*"" at <" ++ p_group $"code" $".*" ++ $">: ".
Definition template_errors : list str :=
  [exec_prefix ++ $"map has no entry for key """ ++ p_group $"key" $".*" ++ $"""";
   exec_prefix ++ $"(?s)error calling (raise|assert): " ++ p_group $"message" $".*";
   exec_prefix ++ p_group $"error" $".*";
   line_prefix ++ p_group $"error" ($"undefined variable """ ++ p_group $"value" $".*" ++ $"""");
   line_prefix ++ p_group $"error" ($"unclosed action" ++ $" started at .*:" ++ p_group $"actual_line" $"\d+");
   line_prefix ++ p_group $"error" $".*"].

(** strings.Replace(s, old, new, 1) *)
Definition replace_once (old new s : str) : str :=
  match index old s with
  | Some i => firstn i s ++ new ++ skipn (i + List.length old) s
  | None => s
  end.
(** strings.Replace(s, old, new, -1); an empty old is found before and after each rune *)
Fixpoint insert_all (fuel : nat) (new s : str) : str :=
  match fuel, s with
  | S fuel, _ :: _ => let w := snd (decode s) in firstn w s ++ new ++ insert_all fuel new (skipn w s)
  | _, _ => []
  end.
Definition replace_str (old new s : str) : str :=
  match old with
  | [] => new ++ insert_all (List.length s) new s
  | _ => replace_all old new s
  end.
(** toInt on digits: template/math_utilities.go:11-14 *)
Definition to_int (s : str) : res Z :=
  if N.ltb (digits_value s) 9223372036854775808 then Ok (Z.of_N (digits_value s)) else Panic $"value out of range".
(** An index of a list *)
Definition get_line (l : list str) (n : Z) : res str :=
  if Z.ltb n 0 then Panic $"index out of range"
  else match nth_error l (Z.to_nat n) with Some x => Ok x | None => Panic $"index out of range" end.
Fixpoint set_line (l : list str) (n : nat) (x : str) : list str :=
  match l, n with
  | [], _ => []
  | _ :: l, O => x :: l
  | y :: l, S n => y :: set_line l n x
  end.

Section Handler.
(** \p{L} beyond ASCII; not used by the expressions here *)
Variable beyond : N -> bool.
(** color.RedString and so on *)
Variables red white black yellow : str -> str.
(** os.ReadFile: the content, or the text of the error *)
Variable read_file : str -> res str.

Definition compiled_of (s : str) : compiled := must_compile beyond s.
(** The text of the last match of reError and what follows it, or the whole: template_error_handler.go:31-36 *)
Fixpoint last_error (fuel : nat) (r : re) (found : str) (p : place) : str :=
  match fuel with
  | O => found
  | S fuel => match search (List.length (snd p)) r p with
              | Some (_, a, b, _) => last_error fuel r (snd a) b
              | None => found
              end
  end.
Definition error_text (e : str) : str := last_error (S (List.length e)) (c_re (compiled_of line_prefix)) e (None, e).

(** reutils.MultiMatch: the first expression that matches, its number and its named groups *)
Fixpoint multi (i : nat) (l : list compiled) (s : str) : option (nat * (str -> str)) :=
  match l with
  | [] => None
  | c :: l =>
      match search (List.length s) (c_re c) (None, s) with
      | Some (_, a, b, g) => Some (i, named_group (c_names c) (taken a b) g)
      | None => multi (S i) l s
      end
  end.

(** The expressions of managed undefined values: template_error_handler.go:89-110 *)
Definition undef_expressions (d : delims) : list str :=
  let left := $"(?P<begin>(" ++ quote_meta (left_delim d) ++ $"-?\s*(if|range|with)\s.*|\()\s*)?" in
  let right := $"(?P<end>\s*(-?" ++ quote_meta (right_delim d) ++ $"|\)))" in
  [left ++ $"(undef|ifUndef|default)\s+(?P<ifUndef>.*?)\s+" ++ undef_error ++ right;
   left ++ $"(?P<isZero>isZero|isNil|isNull|isEmpty|isSet)\s+" ++ undef_error ++ right;
   left ++ $"assert\s+(?P<assert>" ++ undef_error ++ $").*?" ++ right].

(** SelectContext, SelectWord: collections/string.go:337-340, 400-404 *)
Definition select_context (s : str) (pos : Z) (left right : str) : str := match context_at s pos left right with Some (x, _) => x | None => [] end.
Definition select_word (s : str) (pos : Z) : str := fst (word_at s pos [$"."; $"_"]).

(** The new line and whether the undefined value is managed: template_error_handler.go:79-131 *)
Definition undefined_line (d : delims) (line : str) (column : Z) : str * bool :=
  let context := select_context line column (left_delim d) (right_delim d) in
  let inner := select_context line column $"(" $")" in
  let context := match inner with [] => context | _ => inner end in
  let current := select_word line column in
  let new_context := replace_str current undef_error context in
  let new_line := replace_str context new_context line in
  let exprs := map compiled_of (undef_expressions d) in
  let '(n, undef) := match multi 0 exprs new_context with Some (n, f) => (n, f) | None => (O, fun _ => []) end in
  if negb (str_eqb (undef $"ifUndef") []) then
    (replace_all new_context (replace_all_string (nth n exprs {| c_re := RNil; c_names := [] |}) $"${begin}${ifUndef}${end}" new_context) new_line, true)
  else if negb (str_eqb (undef $"isZero") []) then
    (replace_all new_context (undef $"begin" ++ (if str_eqb (undef $"isZero") $"isSet" then $"false" else $"true") ++ undef $"end") new_line, true)
  else if negb (str_eqb (undef $"assert") []) then
    (replace_all new_context (replace_once undef_error $"0" new_context) new_line, true)
  else (new_line, false).

(** What becomes of the line and the text of the error, None where the error is dropped:
    template_error_handler.go:78-151 *)
Definition repair (d : delims) (m : str -> str) (line : str) (column : Z) : str * option str :=
  let err_text := m $"error" in
  match m $"key", m $"message", m $"code", m $"value" with
  | (_ :: _) as key, _, _, _ =>
      let '(new, managed) := undefined_line d line column in
      (new, if managed then None else Some (red $"Undefined value " ++ yellow key))
  | [], (_ :: _) as message, _, _ => ($"ERROR " ++ err_text, Some (red message))
  | [], [], (_ :: _) as code, _ =>
      let context := select_context line column (left_delim d) (right_delim d) in
      (match context with [] => $"ERROR " ++ err_text | _ => replace_all context run_error line end, Some (red (err_text ++ $" (" ++ code ++ $")")))
  | [], [], [], (_ :: _) as value => (replace_all value ($"""<UNDEF " ++ value ++ $">""") line, Some (red err_text))
  | [], [], [], [] => ($"ERROR " ++ err_text, Some (red err_text))
  end.

(** Handler: template_error_handler.go:25-183, without the new attempt (see [attempt] in ProcessModel) *)
Definition handle (d : delims) (file : str) (source : list str) (code : str) (e : str) : res diag :=
  match multi 0 (map compiled_of template_errors) (error_text e) with
  | None => Ok (Stop e)
  | Some (_, m) =>
      let lines := split [NL] code in
      do n <- to_int (m $"line");
      do n <- (match m $"actual_line" with [] => Ok n | a => to_int a end);
      do column <- (match m $"column" with [] => Ok 0%Z | c => do c <- to_int c; Ok (c - 1)%Z end);
      if negb (str_eqb (m $"file") file) then
        do line <- (match read_file (m $"file") with
                    | Ok content => do n <- to_int (m $"line"); get_line (split [NL] content) (n - 1)
                    | Err text | Panic text => Ok ($"Unable to read file: " ++ text)
                    end);
        Ok (Stop (white file ++ $" " ++ e ++ $" in: " ++ black line))
      else
        do line <- get_line lines (n - 1);
        do column <- (if Z.eqb column 0 then Ok column
                      else if Z.ltb column 0 then Panic $"slice bounds out of range"
                      else match nth_error line (Z.to_nat column) with
                           | None => Panic $"slice bounds out of range"
                           | Some c => Ok (if contains_byte c $" (" then (column + 1)%Z else column)
                           end);
        do original <- get_line source (n - 1);
        let '(new, text) := repair d m line column in
        let text := if contains run_error line || contains undef_error (m $"code") then None else text in
        let err := match text with Some t => Some (white (m $"location") ++ t ++ $" in: " ++ black original) | None => None end in
        let again := Ok (Again (join [NL] (set_line lines (Z.to_nat (n - 1)) new)) err) in
        if negb (str_eqb new line) then again
        else match err with
             | None => Panic $"nil pointer dereference"
             | Some x => if contains no_value_error x then again else Ok (Stop x)
             end
  end.
(** The decision of ProcessModel *)
Definition diagnosis (d : delims) (file : str) (source : list str) (code : str) (e : str) : diag :=
  match handle d file source code e with
  | Ok x => x
  | Err m | Panic m => Boom m
  end.
End Handler.
