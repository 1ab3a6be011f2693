(** ConvertData: collections/convert_data.go. *)
From Coq Require Import String Ascii List ZArith NArith Bool.
From Verif Require Import GoStr ValueModel ListModel DictModel.
Import ListNotations.

(** A registered decoder, convert_data.go:16: the text and what the target holds give an error or none
    and what the target holds afterwards. *)
Notation decoder := (str -> value -> option str * value).

(** The result of ConvertData: None for no error, else the errors of the decoders with their names. *)
Notation failure := (list (str * str)).

(** regexp [ \t]*=[ \t]* replaced with a colon: convert_data.go:26.  Blanks are kept back until
    the next character is known. *)
Definition is_blank (c : ascii) : bool := Ascii.eqb c SP || Ascii.eqb c TAB.
Fixpoint colons (blanks : str) (after : bool) (s : str) : str :=
  match s with
  | [] => blanks
  | c :: r =>
      if is_blank c then (if after then colons [] true r else colons (blanks ++ [c]) false r)
      else if Ascii.eqb c "=" then ":"%char :: colons [] true r
      else blanks ++ c :: colons [] false r
  end.
(** regexp [ \t]+ replaced with a newline: convert_data.go:27 *)
Fixpoint break_lines (inside : bool) (s : str) : str :=
  match s with
  | [] => []
  | c :: r => if is_blank c then (if inside then break_lines true r else NL :: break_lines true r) else c :: break_lines false r
  end.
(** convert_data.go:26-28 *)
Definition simplified (data : str) : str := replace_all $":" $": " (break_lines false (colons [] false data)) ++ [NL].

Section WithEnv.
Context {E : Env}.

(** The loop on the decoders: convert_data.go:54-60; the errors, whether one succeeded, the target. *)
Fixpoint try_decoders (ds : list (str * decoder)) (data : str) (names : list str) (out : value) (errs : failure) : failure * bool * value :=
  match names with
  | [] => (errs, false, out)
  | n :: names =>
      match mget ds n with
      | Some d =>
          match d data out with
          | (None, out) => (errs, true, out)
          | (Some e, out) => try_decoders ds data names out (errs ++ [(n, e)])
          end
      | None => (errs, false, out)
      end
  end.

(** errs.AsError of an errors.Array (multilogger/errors): nil for no error. *)
Definition as_error (errs : failure) : option failure := match errs with [] => None | _ => Some errs end.

Definition special (c : ascii) : bool := contains_byte c $"=:{}".

(** ConvertData: convert_data.go:19-63.  [itf] tells whether the target is a *interface{}; [out] is
    what it holds.  One unit of fuel for each recursive call. *)
Fixpoint convert_data (fuel : nat) (itf : bool) (ds : list (str * decoder)) (data : str) (out : value) : option failure * value :=
  let try_simplified out :=
    if negb (contains_byte "=" data) then (Some [], out)
    else match fuel with
         | O => (Some [], out)
         | S fuel => convert_data fuel itf ds (simplified data) out
         end in
  let '(errs, done, out) := try_decoders ds data (sort_strings (mkeys ds)) out [] in
  match (if done : bool then None else as_error errs) with
  | None =>
      match itf, out with
      | true, VScal (SStr false s) =>
          if str_eqb data s && existsb special data then
            let '(err, out) := try_simplified out in
            match err with
            | None => if str_eqb data (sprint out) then (Some errs, VNil) else (None, out)
            | Some _ => (Some errs, VNil)
            end
          else (None, out)
      | _, _ => (None, out)
      end
  | Some errs =>
      match c_try_as_list out with
      | Some _ => let '(err, out) := try_simplified out in (match err with None => None | Some _ => Some errs end, out)
      | None => (Some errs, out)
      end
  end.

(** LoadData: convert_data.go:66-72; [content] is what reading the file gives. *)
Definition load_data (fuel : nat) (itf : bool) (ds : list (str * decoder)) (content : res str) (out : value) : res (option failure * value) :=
  do data <- content; Ok (convert_data fuel itf ds data out).

End WithEnv.
