(** The part of Go's path/filepath (Unix) used by gotemplate, and the place of result files.

    The functions of the standard library are modelled from their documentation; they are called in
    main.go:287, utils/io.go:40,59,82,133, template/utils.go:24, template/template_handler.go:86,114,222. *)
From Coq Require Import String Ascii List ZArith NArith Bool.
From Verif Require Import GoStr.
Import ListNotations.

Definition SLASH : ascii := "/"%char.

(** filepath.IsAbs *)
Definition is_abs (p : str) : bool := has_prefix [SLASH] p.

(** One element of a path, on the reversed list of the elements kept so far. *)
Definition push (rooted : bool) (st : list str) (e : str) : list str :=
  if str_eqb e [] || str_eqb e $"." then st
  else if str_eqb e $".." then
    match st with
    | [] => if rooted then [] else [e]
    | t :: st' => if str_eqb t $".." then e :: st else st'
    end
  else e :: st.
Definition norm (p : str) : list str := rev (fold_left (push (is_abs p)) (split [SLASH] p) []).

(** filepath.Clean *)
Definition clean (p : str) : str :=
  if is_abs p then SLASH :: join [SLASH] (norm p)
  else match norm p with [] => $"." | es => join [SLASH] es end.

(** filepath.Join(a, b) *)
Definition join2 (a b : str) : str :=
  match a, b with
  | [], [] => []
  | [], _ => clean b
  | _, _ => clean (a ++ [SLASH] ++ b)
  end.

(** filepath.Rel(base, target), element by element *)
Fixpoint strip_common (a b : list str) : list str * list str :=
  match a, b with
  | x :: a', y :: b' => if str_eqb x y then strip_common a' b' else (a, b)
  | _, _ => (a, b)
  end.
Definition rel (base targ : str) : res str :=
  if str_eqb (clean targ) (clean base) then Ok $"."
  else if Bool.eqb (is_abs base) (is_abs targ) then
    let '(b, t) := strip_common (norm base) (norm targ) in
    match b with
    | e :: _ => if str_eqb e $".." then Err $"Rel: can't make relative" else Ok (join [SLASH] (map (fun _ => $"..") b ++ t))
    | [] => Ok (join [SLASH] t)
    end
  else Err $"Rel: can't make relative".

(** path.Ext and filepath.Ext: the suffix from the last dot of the last element. *)
Fixpoint ext_rev (r : str) (acc : str) : str :=
  match r with
  | [] => []
  | c :: r' => if Ascii.eqb c "." then c :: acc else if Ascii.eqb c SLASH then [] else ext_rev r' (c :: acc)
  end.
Definition path_ext (p : str) : str := ext_rev (rev p) [].

(** Relative: utils/io.go:129-134, must panics. *)
Definition relative (folder file : str) : res str :=
  if is_abs file then match rel folder file with Err e => Panic e | r => r end else Ok file.

(** getTargetFile: template/utils.go:22-27 *)
Definition get_target_file (target_file source_path target_path : str) : res str :=
  match target_path with
  | [] => Ok target_file
  | _ => do r <- relative source_path target_file; Ok (join2 target_path r)
  end.
