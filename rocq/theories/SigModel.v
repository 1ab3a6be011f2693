(** What the help shows of a function (template/func_table.go:64-164, template_help.go:173-191) and the
    categories (func_category.go:19-44).  A Go function is what reflection tells about it: the types of its
    parameters and results as fmt.Sprint prints them, and whether it is variadic, in which case the last
    parameter is printed with [] in front.  The colours are parameters. *)
From Coq Require Import String Ascii List ZArith NArith Bool PeanoNat.
From Verif Require Import GoStr ValueModel FuncsModel.
Import ListNotations.

Record gofun := Gofun { g_in : list str; g_out : list str; g_variadic : bool }.
(** FuncInfo: func_table.go:15-25, the fields used here; d_fn is None for a nil function. *)
Record described := Described { d_name : str; d_fn : option gofun; d_args : list str; d_in : str; d_out : str }.
(** A FuncInfo that is not an alias, or the one that addFunctions makes for an alias (240): its in, out and
    arguments are empty. *)
Inductive sig_entry := SOwn (d : described) | SAlias (n : str) (d : described).

Section Colours.
Variable cyan black blue : str -> str.

(** func_table.go:116-117 and 155-156 *)
Definition plain_type (t : str) : str := replace_all $"collections." [] (replace_all $"interface {}" $"interface{}" t).
(** One round of the loop: func_table.go:116-138.  The slice arg[2:] is never out of range, the last type of a
    variadic function being printed with two brackets. *)
Definition parameter (is_method : bool) (args : list str) (g : gofun) (i : nat) (t : str) : str :=
  let last := g_variadic g && Nat.eqb i (length (g_in g) - 1) in
  let name := match nth_error args i with
              | Some a => a
              | None => if last then $"args" else $"arg" ++ itoa (Z.of_nat (i + 1))
              end in
  let arg := plain_type t in
  let arg := if last then $"..." ++ skipn 2 arg else arg in
  if is_method then cyan arg else name ++ $" " ++ cyan arg.
Fixpoint parameters (is_method : bool) (args : list str) (g : gofun) (i : nat) (ts : list str) : list str :=
  match ts with
  | [] => []
  | t :: ts => parameter is_method args g i t :: parameters is_method args g (S i) ts
  end.
(** getArguments: func_table.go:107-141; the text [in] is that of the entry itself, the names of the arguments
    are those of the function an alias stands for. *)
Definition get_arguments (is_method : bool) (e : sig_entry) : str :=
  let (text, d) := match e with SOwn d => (d_in d, d) | SAlias _ d => ([], d) end in
  match text, d_fn d with
  | [], Some g => let first := if is_method then 1 else 0 in
                  join $", " (parameters is_method (d_args d) g first (skipn first (g_in g)))
  | _, _ => text
  end.
(** Result: func_table.go:144-164 *)
Fixpoint outputs (ts : list str) : list str :=
  match ts with
  | [] => []
  | [t] => if str_eqb t $"error" then [] else [plain_type t]
  | t :: ts => plain_type t :: outputs ts
  end.
Definition get_result (e : sig_entry) : str :=
  let (text, d) := match e with SOwn d => (d_out d, d) | SAlias _ d => ([], d) end in
  match text, d_fn d with
  | [], Some g => match outputs (g_out g) with [r] => r | l => $"(" ++ join $", " l ++ $")" end
  | _, _ => text
  end.
(** getSignature: func_table.go:96-105 *)
Definition get_signature (is_method : bool) (e : sig_entry) : str :=
  let '(shown, d) := match e with SOwn d => (blue (d_name d), d) | SAlias n d => (black n, d) end in
  shown ++ $"(" ++ get_arguments is_method (SOwn d) ++ $") " ++ black (get_result (SOwn d)).
(** The aliases listed below a function: template_help.go:181-190, for the entries found under the names of
    the aliases of the function d. *)
Definition listed_aliases (d : described) (entries : list sig_entry) : list str :=
  map (get_signature false) (filter (fun e => match e with
    | SOwn _ => false
    | SAlias _ _ => str_eqb (get_arguments false e) (get_arguments false (SOwn d)) && str_eqb (get_result e) (get_result (SOwn d))
    end) entries).
End Colours.

(** getCategories: func_category.go:19-44; the table is visited in any order. *)
Section Categories.
Context {F : Type}.
Definition add_category (m : list (str * list str)) (kv : str * entry F) : list (str * list str) :=
  let g := e_group (snd kv) in mset m g (sget [] m g ++ [fst kv]).
Definition get_categories (tf : table F) : list (str * list str) :=
  let m := fold_left add_category tf [] in map (fun k => (k, sort_strings (sget [] m k))) (sort_strings (mkeys m)).
End Categories.
