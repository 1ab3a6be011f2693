(** The table of the functions: template/func_table.go AddFunctions, addFunctions, convert,
    getFunctionsInternal and the accessors of FuncInfo; extra_sprig.go addSprigFuncs.

    The loops over a map take the order of the visits as an argument ([sched], or the order of the
    association list when nothing is inserted during the loop).  Examples, in and out (texts for the
    help) are left out; logging of unknown functions (extra_sprig.go:59) is left out. *)
From Coq Require Import String Ascii List ZArith NArith Bool.
From Verif Require Import GoStr ValueModel.
Import ListNotations.

Section WithFunctions.
(** The functions themselves, an interface{} in Go. *)
Context {F : Type}.

(** FuncInfo: func_table.go:15-25, of a function that is not an alias; None: a nil function. *)
Record info := Info { i_name : str; i_function : option F; i_group : str; i_aliases : list str; i_arguments : list str; i_description : str }.
(** A FuncInfo whose alias is nil, or &FuncInfo{alias: i, function: i.function, name: n} (240). *)
Inductive entry := Own (i : info) | Alias (n : str) (i : info).
Definition table := list (str * entry).

Definition e_function (e : entry) : option F := match e with Own i | Alias _ i => i_function i end.
(** Name: func_table.go:60, RealName: 69-74, IsAlias: 66 *)
Definition e_name (e : entry) : str := match e with Own i => i_name i | Alias n _ => n end.
Definition e_real_name (e : entry) : str := match e with Own i | Alias _ i => i_name i end.
Definition e_is_alias (e : entry) : bool := match e with Own _ => false | Alias _ _ => true end.
(** Aliases: func_table.go:48, Description: 54, Group: 57 *)
Definition e_aliases (e : entry) : list str := match e with Own i | Alias _ i => i_aliases i end.
Definition e_description (e : entry) : str := match e with Own i | Alias _ i => i_description i end.
Definition e_group (e : entry) : str := match e with Own i | Alias _ i => i_group i end.

(** value.name = key: func_table.go:236 *)
Definition rename (k : str) (i : info) : info := Info k (i_function i) (i_group i) (i_aliases i) (i_arguments i) (i_description i).
Definition named (k : str) (e : entry) : entry := match e with Own i => Own (rename k i) | Alias _ i => Alias k i end.

(** The body of the loop of addFunctions: func_table.go:235-242, on the map looped over and the table of
    the template.  The entries are pointers, so the name set in line 236 is seen in both maps; an alias
    has no aliases of its own (line 239). *)
Definition set_aliases (i : info) (m : table) : table := fold_left (fun m a => mset m a (Alias a i)) (i_aliases i) m.
Definition set_entry (k : str) (e : entry) (m : table) : table :=
  let m := mset m k (named k e) in
  match e with Own i => set_aliases (rename k i) m | Alias _ _ => m end.
Definition visit_key (k : str) (st : table * table) : option (table * table) :=
  let (fm, tf) := st in
  match mget fm k with
  | None => None
  | Some e => Some (set_entry k e fm, set_entry k e tf)
  end.
(** addFunctions: func_table.go:228-243; the keys visited are [sched] (see FuncsSpec.v for the orders
    Go allows); None: a key of [sched] is not in the map. *)
Fixpoint add_loop (sched : list str) (st : table * table) : option (table * table) :=
  match sched with
  | [] => Some st
  | k :: r => match visit_key k st with Some st' => add_loop r st' | None => None end
  end.
(** convert: func_table.go:168-177 *)
Fixpoint convert (m : table) : list (str * F) :=
  match m with
  | [] => []
  | (k, e) :: r => match e_function e with Some f => (k, f) :: convert r | None => convert r end
  end.
(** addFunctions: the table of the template, and the functions given to the engine (line 243). *)
Definition add_functions (sched : list str) (fm tf : table) : option (table * list (str * F)) :=
  match add_loop sched (fm, tf) with
  | Some (fm', tf') => Some (tf', convert fm')
  | None => None
  end.
(** addFunctions(t.functions) for a template whose table is the same map: template.go:198-200 *)
Fixpoint add_again (sched : list str) (tf : table) : option table :=
  match sched with
  | [] => Some tf
  | k :: r => match mget tf k with Some e => add_again r (set_entry k e tf) | None => None end
  end.

(** m[k] with the zero value *)
Definition sget {A} (zero : A) (m : list (str * A)) (k : str) : A := match mget m k with Some v => v | None => zero end.
(** AddFunctions: func_table.go:206-226; the options are maps, empty when they are not given (208-212). *)
Definition make_table (funcs : list (str * F)) (group : str) (help : list (str * str)) (aliases arguments : list (str * list str)) (groups : list (str * str)) : table :=
  map (fun '(k, f) => (k, Own (Info [] (Some f) (match group with [] => sget [] groups k | _ => group end) (sget [] aliases k) (sget [] arguments k) (sget [] help k)))) funcs.

(** getFunctionsInternal: func_table.go:268-280 *)
Definition get_functions (tf : table) (original alias : bool) : list str :=
  sort_strings (map fst (filter (fun kv => if e_is_alias (snd kv) then alias else original) tf)).

(** ** The functions of sprig *)

(** An element of sprigFuncRef: extra_sprig.go:72-75 *)
Record ref := Ref { r_arguments : list str; r_aliases : list str; r_group : str; r_description : str }.
Definition no_ref : ref := Ref [] [] [] [].
(** The aliases of the documented functions: extra_sprig.go:39-44 *)
Definition alias_map (refs : list (str * ref)) : list (str * str) :=
  fold_left (fun m '(key, r) => fold_left (fun m a => mset m a key) (r_aliases r) m) refs [].
(** addSprigFuncs: extra_sprig.go:46-66, the table built from the functions of the library. *)
Definition sprig_entry (refs : list (str * ref)) (aliases : list (str * str)) (key : str) (f : F) : option (str * entry) :=
  let r := sget no_ref refs key in
  let mk key r := Some (key, Own (Info [] (Some f) (r_group r) (r_aliases r) (r_arguments r) (r_description r))) in
  match r_group r with
  | [] => if has_prefix $"must" key then None
          else match sget [] aliases key with
               | [] => None
               | key' => mk key' (sget no_ref refs key')
               end
  | _ => mk key r
  end.
Definition sprig_table (refs : list (str * ref)) (lib : list (str * F)) : table :=
  fold_left (fun m '(key, f) => match sprig_entry refs (alias_map refs) key f with Some (k, e) => mset m k e | None => m end) lib [].

End WithFunctions.
Arguments info : clear implicits.
Arguments entry : clear implicits.
Arguments table : clear implicits.
