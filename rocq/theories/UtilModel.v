(** Looking for an element from a template, assertions, kinds of placeholder text, the default shell. *)
From Coq Require Import String Ascii List ZArith NArith Bool PeanoNat.
From Verif Require Import GoStr ValueModel ListModel TextModel DataModel AliasModel.
Import ListNotations.

Section WithEnv.
Context {E : Env}.
(** find, findStrict, findInternal: template/extra_data.go:612-637.  AsList of the []int that IndexAll returns
    holds the same numbers. *)
Definition tpl_find (strict : bool) (l element : value) : res (list value) :=
  match l with
  | VScal (SStr _ s) => Ok (map (fun n => vint (Z.of_nat n)) (index_all s (sprint element)))
  | _ => if strict then list_find_strict (snd (c_as_list l)) element else Ok (list_find (snd (c_as_list l)) element)
  end.
End WithEnv.

(** isZero: extra_data.go:662-664.  The default function of sprig returns its first argument for an empty
    value; its notion of an empty value is that of IsEmptyValue (collections/utils.go:6-24).  [nilp] tells
    which opaque values are nil pointers. *)
Definition sprig_default (nilp : value -> bool) (d v : value) : value := if is_empty_value nilp v then d else v.
Definition is_zero (nilp : value -> bool) (v : value) : bool :=
  match iface_eq (sprig_default nilp (vint 0) v) (vint 0) with Ok b => b | _ => false end.

(** raise, assertError and assertWarning: extra_runtime.go:632-654.  [message] is FormatMessage of the package
    multicolor; the log holds the warnings, latest first. *)
Definition raise {A} (message : list value -> str) (args : list value) : res A := Err (message args).
Definition assertion_args (args : list value) : list value :=
  match args with [] => [vstr $"Assertion failed"] | _ => args end.
Definition assert_error (nilp : value -> bool) (message : list value -> str) (test : value) (args : list value) : res str :=
  if is_zero nilp test then raise message (assertion_args args) else Ok [].
Definition assert_warning (nilp : value -> bool) (message : list value -> str) (log : list str) (test : value) (args : list value) : list str * str :=
  if is_zero nilp test then (message (assertion_args args) :: log, []) else (log, []).

(** LoremKind and GetLoremKind: utils/lorem.go:11-43 *)
Inductive lorem_kind := Word | Sentence | Paragraph | Host | EMail | URL.
Definition get_lorem_kind (name : str) : res lorem_kind :=
  let k := lower name in
  if mem_str k [$"1"; $"word"] then Ok Word
  else if mem_str k [$"2"; $""; $"words"; $"sentence"] then Ok Sentence
  else if mem_str k [$"3"; $"para"; $"paragraph"; $"sentences"] then Ok Paragraph
  else if mem_str k [$"4"; $"host"] then Ok Host
  else if mem_str k [$"5"; $"email"] then Ok EMail
  else if mem_str k [$"6"; $"url"] then Ok URL
  else Err ($"undefined Lorem kind " ++ name).
(** Lorem: utils/lorem.go:46-71 with lorem of extra_utils.go:134-140; the generators of goLorem take the least
    and the greatest number of letters, words or sentences, the others nothing. *)
Inductive generator := Sized (k : lorem_kind) (least most : Z) | Unsized (k : lorem_kind).
Definition lorem (name : str) (params : list Z) : res generator :=
  do k <- get_lorem_kind name;
  let least := nth 0 params 3%Z in
  let most := nth 1 params 10%Z in
  Ok match k with
     | Sentence | Paragraph | Word => Sized k least most
     | Host | EMail | URL => Unsized k
     end.

(** getDefaultShell: utils/exec.go:112-129.  [look] is exec.LookPath, [cached] the variable defaultShell; the
    result is the new value of the variable, which is also what is returned. *)
Fixpoint first_found (look : str -> option str) (names : list str) : str :=
  match names with
  | [] => []
  | n :: r => match look n with Some p => p | None => first_found look r end
  end.
Definition default_shell (windows : bool) (look : str -> option str) (cached : str) : str :=
  match cached with
  | [] => first_found look (if windows then [$"powershell"; $"pwsh"; $"cmd"] else [$"bash"; $"sh"; $"zsh"; $"ksh"])
  | _ => cached
  end.
(** Successive calls: the value returned by each. *)
Fixpoint shells (windows : bool) (cached : str) (looks : list (str -> option str)) : list str :=
  match looks with
  | [] => []
  | look :: r => let s := default_shell windows look cached in s :: shells windows s r
  end.
(** GetEnv: utils/exec.go:132-137 *)
Definition get_env (environment : list (str * str)) (name default : str) : str :=
  match mget environment name with Some v => v | None => default end.
