(** Small functions around the command line: utilities.go, utils/substitute.go, utils/io.go (globFunc). *)
From Coq Require Import String Ascii List ZArith NArith Bool.
From Verif Require Import GoStr ValueModel Utf8.
Import ListNotations.

(** strings.TrimSpace *)
Definition trim_space (s : str) : str := trim_right_space (trim_left_space s).

(** extend: utilities.go:76-87 *)
Definition extend (values : list str) : list str :=
  filter (fun sv => negb (str_eqb sv [])) (map trim_space (flat_map (split $",") values)).

Section Exclude.
(** filepath.Abs and doublestar.PathMatch pattern file *)
Variable abs : str -> res str.
Variable path_match : str -> str -> res bool.

(** The loop on the patterns: utilities.go:58-69 *)
Fixpoint excluded (file : str) (patterns : list str) : res bool :=
  match patterns with
  | [] => Ok false
  | p :: ps =>
      do p <- abs p;
      do m <- path_match p file;
      if m : bool then Ok true else excluded file ps
  end.

(** The loop on the files: utilities.go:51-73.  On an error the files kept so far are returned too, and
    processed by the caller (main.go:293); this model returns the error alone, [exclude_until] in MainModel.v both. *)
Fixpoint keep_files (patterns files : list str) : res (list str) :=
  match files with
  | [] => Ok []
  | f :: fs =>
      do file <- abs f;
      do e <- excluded file patterns;
      do r <- keep_files patterns fs;
      Ok (if e : bool then r else f :: r)
  end.

(** exclude: utilities.go:43-74 *)
Definition exclude (files patterns : list str) : res (list str) :=
  match extend patterns with
  | [] => Ok files
  | ps => keep_files ps files
  end.
End Exclude.

Section Substitute.
(** regexp.Compile and Regexp.ReplaceAllString regex content replacement *)
Context {RE : Type}.
Variable compile : str -> option RE.
Variable replace : RE -> str -> str -> str.

(** string(b) for a byte b: the UTF-8 encoding of the code point b. *)
Definition byte_string (c : ascii) : str :=
  let n := N_of_ascii c in
  if (n <? 128)%N then [c] else [ascii_of_N (192 + n / 64); ascii_of_N (128 + n mod 64)].

(** One replacer: utils/substitute.go:19-45.  errors.Raise and regexp.MustCompile panic. *)
Definition bad_replacer : str := $"Bad replacer".
Definition init_replacer (replacer : str) : res (RE * str) :=
  match trim_space replacer with
  | [] => Panic bad_replacer
  | c :: r =>
      match split (byte_string c) (c :: r) with
      | [_; expression; replacement] =>
          if str_eqb expression [] then Panic bad_replacer
          else
            let '(expression, replacement) :=
              if str_eqb replacement $"d" then
                (if has_suffix $"$" expression then
                   let expression := expression ++ $"\n" in
                   if has_prefix $"(?m)" expression then expression else $"(?m)" ++ expression
                 else expression, [])
              else (expression, replacement) in
            match compile expression with
            | Some re => Ok (re, replacement)
            | None => Panic $"regexp: Compile"
            end
      | _ => Panic bad_replacer
      end
  end.

(** InitReplacers: utils/substitute.go:17-48.  The texts are also trimmed in the slice of the caller,
    which is not modelled. *)
Fixpoint init_replacers (replacers : list str) : res (list (RE * str)) :=
  match replacers with
  | [] => Ok []
  | r :: rs => do x <- init_replacer r; do xs <- init_replacers rs; Ok (x :: xs)
  end.

(** Substitute: utils/substitute.go:51-56 *)
Fixpoint substitute (content : str) (replacers : list (RE * str)) : str :=
  match replacers with
  | [] => content
  | (re, r) :: rs => substitute (replace re content r) rs
  end.
End Substitute.

(** globFunc: utils/io.go:101-115, GlobFunc and GlobFuncTrim: 118-121, on texts; [glob] is
    filepath.Glob, None when it finds nothing or fails. *)
Definition has_wildcard (s : str) : bool := existsb (fun c => contains_byte c $"*?[]") s.
Fixpoint glob_func (glob : str -> option (list str)) (trim_unmatch : bool) (args : list str) : list str :=
  match args with
  | [] => []
  | a :: r =>
      (if has_wildcard a then
         match glob a with
         | Some expanded => expanded
         | None => if trim_unmatch then [] else [a]
         end
       else [a]) ++ glob_func glob trim_unmatch r
  end.
