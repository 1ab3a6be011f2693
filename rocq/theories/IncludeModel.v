(** Running a template from a template: optimizedRunTemplate (template/extra_runtime.go:436-535), with
    the data in a heap.

    The template engine and the functions it calls are a program ([prog]) that may change the data, look
    at the state and run other templates; any such program is allowed.  Contexts and arguments are
    already converted (no native maps), as in HeapModel.v.  Logging is left out. *)
From Coq Require Import String Ascii List ZArith NArith Bool.
From Verif Require Import GoStr ValueModel ListModel DictModel HeapModel PathModel.
Import ListNotations.

(** What a call returns (result, filename, err), or a panic. *)
Inductive outcome := Ret (result filename : str) (err : option str) | Panics.

(** The execution of a template.  [Look] gives the heap, the context of the template (t.context) and
    whether a missing key is an error; [Call] runs another template and goes on with its outcome (the
    engine turns the panics of a function into errors: text/template safeCall). *)
Inductive prog :=
| Done (out : str) (err : option str)
| Crash
| Act (f : heap -> heap) (k : prog)
| Look (k : heap -> hval -> bool -> prog)
| Call (source : str) (args : list hval) (k : outcome -> prog).

(** os.ReadFile *)
Inductive reading := Content (text : str) | Missing | Failing (e : str).

(** Templates, files and razor.  [parse]: the body of the text and the templates it defines. *)
Class Engine := {
  tmpl : Type;
  is_empty : tmpl -> bool;
  parse : str -> option (tmpl * list (str * tmpl));
  execute : tmpl -> hval -> prog;
  read_file : str -> reading;
  razor : str -> str
}.

Section Include.
Context {E : Engine}.
(** The growth policy of lists (HeapModel.v), the implementation of new dictionaries, t.constantKeys,
    t.folder and the option AcceptNoValue. *)
Variable grow : nat -> nat -> nat.
Variable d : impl.
Variable constants : list str.
Variable folder : str.
Variable accept_no_value : bool.

(** t.context, the option missingkey and the templates known by name; the last two are shared by all
    the templates associated with t (text/template, type common). *)
Record state := State { s_heap : heap; s_context : hval; s_error : bool; s_templates : list (str * tmpl) }.
Definition with_heap (h : heap) (st : state) : state := State h (s_context st) (s_error st) (s_templates st).
Definition with_context (c : hval) (st : state) : state := State (s_heap st) c (s_error st) (s_templates st).
Definition with_error (b : bool) (st : state) : state := State (s_heap st) (s_context st) b (s_templates st).
Definition with_templates (l : list (str * tmpl)) (st : state) : state := State (s_heap st) (s_context st) (s_error st) l.

(** NeedConversion: collections/implementation/base_helper.go:224-254.  The data is converted, so that
    it looks at all of it; false: it is nested deeper than [fuel]. *)
Fixpoint walks (fuel : nat) (h : heap) (v : hval) : bool :=
  match fuel with
  | O => false
  | S f => match v with
           | HDict _ p => forallb (fun kv => walks f h (snd kv)) (map_at h p)
           | HList _ s => forallb (walks f h) (contents h s)
           | _ => true
           end
  end.
(** Set: dict_helper.go:181-187, with its Convert *)
Definition set_key (fuel : nat) (h : heap) (p : loc) (k : str) (v : hval) : option heap :=
  if walks fuel h v then Some (h_dict_set h p k v) else None.
(** t.Context().Get(k): template.go:354-359 *)
Definition context_get (fuel : nat) (h : heap) (c : hval) (k : str) : option hval :=
  match c with
  | HDict _ p => if walks fuel h c then Some (match mget (map_at h p) k with Some v => v | None => HNil end) else None
  | _ => Some HNil
  end.
(** extra_runtime.go:448-451 *)
Fixpoint copy_constants (fuel : nat) (h : heap) (c : hval) (p : loc) (ks : list str) : option heap :=
  match ks with
  | [] => Some h
  | k :: r => match context_get fuel h c k with
              | None => None
              | Some v => match set_key fuel h p k v with None => None | Some h' => copy_constants fuel h' c p r end
              end
  end.
(** The new context: extra_runtime.go:445-453 *)
Definition new_context (fuel : nat) (clone : bool) (h : heap) (parent : hval) : option (heap * impl * loc) :=
  match (if clone then
           match parent with
           | HDict i p => if walks fuel h parent then match h_clone grow fuel i h p with Some (h', n) => Some (h', i, n) | None => None end else None
           | _ => Some (h ++ [OMap []], d, List.length h)
           end
         else match copy_constants fuel (h ++ [OMap []]) parent (List.length h) constants with
              | Some h' => Some (h', d, List.length h)
              | None => None
              end) with
  | None => None
  | Some (h', i, n) => match set_key fuel h' n $"_" parent with Some h'' => Some (h'', i, n) | None => None end
  end.
(** The data given to the template: extra_runtime.go:456-466.  A nil argument is an empty dictionary
    (base_helper.go:115). *)
Definition as_arguments (h : heap) (args : list hval) : option (heap * impl * loc) :=
  match args with
  | [HDict i a] => Some (h, i, a)
  | [HNil] => Some (h ++ [OMap []], d, List.length h)
  | _ => None
  end.
Definition with_arguments (fuel : nat) (h : heap) (i : impl) (n : loc) (args : list hval) : option (heap * hval) :=
  match as_arguments h args with
  | Some (h', j, a) =>
      if walks fuel h' (HDict j a) then match h_merge fuel h' a [n] with Some h'' => Some (h'', HDict j a) | None => None end else None
  | None =>
      let (h', s) := new_args h args in
      match set_key fuel h' n $"ARGS" (HList d s) with Some h'' => Some (h'', HDict i n) | None => None end
  end.
(** extra_runtime.go:442-466 *)
Definition setup (fuel : nat) (clone : bool) (args : list hval) (st : state) : option (state * hval) :=
  match new_context fuel clone (s_heap st) (s_context st) with
  | None => None
  | Some (h, i, n) =>
      match with_arguments fuel h i n args with
      | None => None
      | Some (h', data) => Some (with_context (HDict i n) (with_heap h' st), data)
      end
  end.

(** Parse of a new template: text/template AddParseTree and associate; an empty body does not replace an
    existing one. *)
Definition register (l : list (str * tmpl)) (nt : str * tmpl) : list (str * tmpl) :=
  if is_empty (snd nt) && mhas l (fst nt) then l else mset l (fst nt) (snd nt).
Inductive found := Template (t : tmpl) (source filename : str) | NoTemplate (filename e : str).
Definition parse_error : str := $"parse error".
(** extra_runtime.go:469-496 *)
Definition find_template (st : state) (source : str) : state * found :=
  match mget (s_templates st) source with
  | Some t => (st, Template t source [])
  | None =>
      let try_file := if is_abs source then source else join2 folder source in
      let inline text filename :=
        let text := razor text in
        match parse text with
        | Some (t, defs) => (with_templates (fold_left register (defs ++ [($"inline", t)]) (s_templates st)) st, Template t text filename)
        | None => (st, NoTemplate filename parse_error)
        end in
      if contains [NL] source then inline source []
      else match read_file try_file with
           | Content text => inline text try_file
           | Missing => inline source []
           | Failing e => (st, NoTemplate [] e)
           end
  end.

(** extra_runtime.go:517-534; the message of the error has the whole text here, not only the line.  *)
Definition no_value : str := $"<no value>".
Definition no_value_error (result : str) : str := $"contains undefined value(s) in " ++ result.
Definition finish (source filename out : str) (err : option str) : outcome :=
  let result := if accept_no_value then out else replace_all $"<nil>" no_value out in
  if negb accept_no_value && contains no_value result then Ret result filename (Some (no_value_error result))
  else Ret result (if str_eqb result source then filename else []) err.

(** The engine, with [rec] for the templates it runs. *)
Fixpoint interpret (rec : str -> list hval -> state -> option (state * outcome)) (p : prog) (st : state) : option (state * option (str * option str)) :=
  match p with
  | Done out err => Some (st, Some (out, err))
  | Crash => Some (st, None)
  | Act f k => interpret rec k (with_heap (f (s_heap st)) st)
  | Look k => interpret rec (k (s_heap st) (s_context st) (s_error st)) st
  | Call source args k => match rec source args st with
                          | None => None
                          | Some (st', o) => interpret rec (k o) st'
                          end
  end.

(** optimizedRunTemplate: extra_runtime.go:436-535.  None: deeper than [fuel], a stack overflow in Go.
    The deferred functions (443, 504) run on return and on panic. *)
Fixpoint run (fuel : nat) (clone : bool) (source : str) (args : list hval) (st : state) : option (state * outcome) :=
  match fuel with
  | O => None
  | S f =>
      match source with
      | [] => Some (st, Ret [] [] None)
      | _ =>
          let parent := s_context st in
          match setup f clone args st with
          | None => None
          | Some (st1, data) =>
              match find_template st1 source with
              | (st2, NoTemplate filename e) => Some (with_context parent st2, Ret [] filename (Some e))
              | (st2, Template t source filename) =>
                  match interpret (run f false) (execute t data) (with_error (negb clone) st2) with
                  | None => None
                  | Some (st3, o) =>
                      let leave st := with_context parent (if clone then st else with_error false st) in
                      match o, clone with
                      | None, _ => Some (leave st3, Panics)
                      | Some (_, Some _), false =>
                          match run f true source args (with_context parent st3) with
                          | None => None
                          | Some (st4, o) => Some (leave st4, o)
                          end
                      | Some (out, err), _ => Some (leave st3, finish source filename out err)
                      end
                  end
              end
          end
      end
  end.
End Include.
