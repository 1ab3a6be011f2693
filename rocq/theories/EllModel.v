(** Calls with an expanded last argument, and texts taken as data: ellipsis and tryConvert (template/extra_runtime.go:405-413,
    542-579), and the function data (template/extra_data.go:440-504). *)
From Coq Require Import String Ascii List ZArith NArith Bool.
From Verif Require Import GoStr ValueModel TextModel.
Import ListNotations.

(** The rest of the program.  [run_text] is t.runTemplate (IncludeModel.v) with a dictionary or without argument: the
    text and the error.  [as_data] is ConvertData to a *interface{} (C36); None is an error. *)
Class Runner := {
  state : Type;
  run_text : state -> str -> option (list (str * value)) -> state * (str * option str);
  as_data : str -> option value;
  data_error : str -> str;
  left_delim : str;
  right_delim : str }.

Section WithRunner.
Context {R : Runner} {E : Env}.

(** converter: extra_data.go:440-449 with sourceWithError *)
Definition listing (content : str) : str :=
  [NL] ++ List.concat (map (fun l => l ++ [NL]) (number_lines 4 1 (map sprint (split_lines (vstr content))))).
Definition converter (content : str) : res value :=
  match as_data content with
  | Some v => Ok v
  | None => Err (listing content ++ [NL] ++ data_error content)
  end.
(** dataConverter: extra_data.go:452-485, 499-504; without warning, and without context.  A text of the package
    (collections.String) is of kind string but no string: line 466 panics. *)
Definition data_function (s : state) (source : value) : state * res value :=
  match source with
  | VNil => (s, Ok VNil)
  | VScal (SStr true _) => (s, Panic $"interface conversion")
  | _ => match run_text s (sprint source) None with
         | (s', (content, None)) => (s', converter content)
         | (s', (_, Some e)) => (s', Err e)
         end
  end.
(** reflect.TypeOf(v).Kind() == reflect.String; the opaque values are not strings. *)
Definition is_text (v : value) : bool := match v with VScal (SStr _ _) => true | _ => false end.
(** tryConvert: extra_runtime.go:405-413; reflect.TypeOf(nil) has no kind *)
Definition try_convert (s : state) (text : str) : state * res value :=
  match data_function s (vstr text) with
  | (s', Ok VNil) => (s', Panic $"nil pointer dereference")
  | (s', Ok d) => (s', Ok (if is_text d then vstr text else d))
  | (s', Err _) => (s', Ok (vstr text))
  | (s', Panic m) => (s', Panic m)
  end.

(** The elements of the last argument: extra_runtime.go:544-551; opaque values are no slices. *)
Definition expanded (v : value) : option (list value) :=
  match v with VNil => Some [] | VSlice _ l => Some l | VList _ l => Some l | _ => None end.
Definition arg_name (i : nat) : str := $"ARG" ++ itoa (Z.of_nat i).
(** extra_runtime.go:571-576 *)
Definition short_error (e : str) : str := match split_n2 $">: " e with [_; b] => b | _ => e end.
(** ellipsis: extra_runtime.go:543-579: the value and the error *)
Definition ellipsis (s : state) (function : str) (args : list value) : state * res (value * option str) :=
  match rev args with
  | [] => (s, Ok (VNil, Some $"the last argument must be a slice"))
  | last :: init =>
      match expanded last with
      | None => (s, Ok (VNil, Some $"the last argument must be a slice"))
      | Some l =>
          let all := rev init ++ l in
          let names := map (fun i => arg_name (S i)) (seq 0 (List.length all)) in
          let template := left_delim ++ $" " ++ function ++ $" " ++ join $" " (map (fun n => $"." ++ n) names) ++ $" " ++ right_delim in
          let '(s, (result, err)) := run_text s template (Some (combine names all)) in
          let '(s, r) := try_convert s result in
          (s, match r with
              | Ok v => Ok (v, option_map short_error err)
              | Err e => Err e
              | Panic m => Panic m
              end)
      end
  end.
End WithRunner.
