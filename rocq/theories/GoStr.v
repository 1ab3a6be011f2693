(** Go strings as byte lists, and the part of Go's [strings] package used by gotemplate.

    This file contains definitions only.  The functions are those of the Go standard library; they
    are modelled from the documentation of package strings, for non-empty separators (the code in
    /repo never splits on an empty separator unless the user asks for it). *)
From Coq Require Import String Ascii List ZArith NArith Bool.
From Coq Require DecimalString.
Import ListNotations.

(** A Go string is a sequence of bytes. *)
Definition str := list ascii.

(** Literals: a Coq string literal denotes its UTF-8 bytes. *)
Definition lit (s : string) : str := list_ascii_of_string s.
Notation "$ s" := (lit s%string) (at level 1, format "$ s").

(** Outcome of a Go function that can return an error or panic. *)
Inductive res (A : Type) : Type :=
| Ok (a : A)
| Err (msg : str)
| Panic (msg : str).
Arguments Ok {A} a.
Arguments Err {A} msg.
Arguments Panic {A} msg.

Definition bind {A B} (r : res A) (f : A -> res B) : res B :=
  match r with Ok a => f a | Err e => Err e | Panic e => Panic e end.
Notation "'do' x <- e ; k" := (bind e (fun x => k))
  (at level 200, x name, e at level 100, k at level 200, right associativity).

(** ** Comparison *)

(** Go [==] on strings. *)
Fixpoint str_eqb (a b : str) : bool :=
  match a, b with
  | [], [] => true
  | x :: a', y :: b' => Ascii.eqb x y && str_eqb a' b'
  | _, _ => false
  end.

(** Go [<=] on strings (bytewise lexicographic order). *)
Fixpoint str_leb (a b : str) : bool :=
  match a, b with
  | [], _ => true
  | _ :: _, [] => false
  | x :: a', y :: b' =>
      if N.ltb (N_of_ascii x) (N_of_ascii y) then true
      else if N.ltb (N_of_ascii y) (N_of_ascii x) then false
      else str_leb a' b'
  end.

(** Go [<] on strings. *)
Definition str_ltb (a b : str) : bool := negb (str_leb b a).

(** ** Searching *)

(** strings.HasPrefix(s, p) *)
Fixpoint has_prefix (p s : str) : bool :=
  match p, s with
  | [], _ => true
  | x :: p', y :: s' => Ascii.eqb x y && has_prefix p' s'
  | _ :: _, [] => false
  end.

(** strings.HasSuffix(s, p) *)
Definition has_suffix (p s : str) : bool := has_prefix (rev p) (rev s).

(** strings.Index(s, sub); None stands for -1 *)
Fixpoint index (sub s : str) : option nat :=
  if has_prefix sub s then Some 0
  else match s with
       | [] => None
       | _ :: s' => option_map S (index sub s')
       end.

(** strings.Contains(s, sub) *)
Definition contains (sub s : str) : bool :=
  match index sub s with Some _ => true | None => false end.

(** strings.LastIndex(s, sub); None stands for -1 *)
Fixpoint last_index (sub s : str) : option nat :=
  match s with
  | [] => if has_prefix sub [] then Some 0 else None
  | _ :: s' =>
      match last_index sub s' with
      | Some n => Some (S n)
      | None => if has_prefix sub s then Some 0 else None
      end
  end.

(** strings.IndexByte *)
Fixpoint index_byte (c : ascii) (s : str) : option nat :=
  match s with
  | [] => None
  | x :: s' => if Ascii.eqb x c then Some 0 else option_map S (index_byte c s')
  end.

Definition contains_byte (c : ascii) (s : str) : bool :=
  match index_byte c s with Some _ => true | None => false end.

(** ** Splitting and joining *)

(** strings.Split(s, sep) for a non-empty sep.  [skip] counts the bytes of a separator that has
    just been recognised and still has to be passed over; [cur] is the current field reversed. *)
Fixpoint split_go (sep s : str) (skip : nat) (cur : str) : list str :=
  match s with
  | [] => [rev cur]
  | c :: s' =>
      match skip with
      | S k => split_go sep s' k cur
      | O => if has_prefix sep s
             then rev cur :: split_go sep s' (List.length sep - 1) []
             else split_go sep s' 0 (c :: cur)
      end
  end.
Definition split (sep s : str) : list str := split_go sep s 0 [].

(** strings.SplitN(s, sep, 2) for a non-empty sep. *)
Definition split_n2 (sep s : str) : list str :=
  match index sep s with
  | None => [s]
  | Some n => [firstn n s; skipn (n + List.length sep) s]
  end.

(** strings.Join(l, sep) *)
Fixpoint join (sep : str) (l : list str) : str :=
  match l with
  | [] => []
  | [x] => x
  | x :: l' => x ++ sep ++ join sep l'
  end.

(** strings.ReplaceAll(s, old, new) for a non-empty old. *)
Definition replace_all (old new s : str) : str := join new (split old s).

(** strings.Replace(s, old, new, 1) for a non-empty old. *)
Definition replace_first (old new s : str) : str :=
  match index old s with
  | None => s
  | Some n => firstn n s ++ new ++ skipn (n + List.length old) s
  end.

(** strings.Count(s, sub) for a non-empty sub. *)
Definition count_sub (sub s : str) : nat := List.length (split sub s) - 1.

(** strings.Repeat(s, n) for n >= 0 *)
Fixpoint repeat_str (s : str) (n : nat) : str :=
  match n with O => [] | S k => s ++ repeat_str s k end.

(** ** Trimming *)

(** strings.TrimLeft with a byte predicate *)
Fixpoint drop_while (p : ascii -> bool) (s : str) : str :=
  match s with
  | [] => []
  | c :: s' => if p c then drop_while p s' else s
  end.
Fixpoint take_while (p : ascii -> bool) (s : str) : str :=
  match s with
  | [] => []
  | c :: s' => if p c then c :: take_while p s' else []
  end.
Definition drop_while_end (p : ascii -> bool) (s : str) : str := rev (drop_while p (rev s)).

(** strings.TrimPrefix(s, p) *)
Definition trim_prefix (p s : str) : str :=
  if has_prefix p s then skipn (List.length p) s else s.
(** strings.TrimSuffix(s, p) *)
Definition trim_suffix (p s : str) : str :=
  if has_suffix p s then firstn (List.length s - List.length p) s else s.

(** The ASCII white space recognised by unicode.IsSpace: \t \n \v \f \r and space. *)
Definition is_ascii_space (c : ascii) : bool :=
  let n := N_of_ascii c in
  (N.leb 9 n && N.leb n 13) || N.eqb n 32.

(** ** Numbers *)

(** strconv.Itoa / fmt %d *)
Definition itoa (z : Z) : str := lit (DecimalString.NilZero.string_of_int (Z.to_int z)).

(** ** Bytes *)
Definition byte_n (n : N) : ascii := ascii_of_N n.
Definition NL : ascii := ascii_of_N 10.
Definition CR : ascii := ascii_of_N 13.
Definition TAB : ascii := ascii_of_N 9.
Definition SP : ascii := ascii_of_N 32.
Definition DQ : ascii := ascii_of_N 34.
Definition BSL : ascii := ascii_of_N 92.
Definition BQ : ascii := ascii_of_N 96.
Definition spaces (n : nat) : str := repeat SP n.

(** sort.Strings (any sort gives the same result on strings): insertion sort. *)
Fixpoint insert_by {A} (leb : A -> A -> bool) (x : A) (l : list A) : list A :=
  match l with
  | [] => [x]
  | y :: l' => if leb x y then x :: l else y :: insert_by leb x l'
  end.
Fixpoint isort {A} (leb : A -> A -> bool) (l : list A) : list A :=
  match l with
  | [] => []
  | x :: l' => insert_by leb x (isort leb l')
  end.
Definition sort_strings : list str -> list str := isort str_leb.

Fixpoint mem_str (x : str) (l : list str) : bool :=
  match l with [] => false | y :: l' => str_eqb x y || mem_str x l' end.
