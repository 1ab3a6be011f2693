(** Aliases and functions defined in a template: addAlias (template/extra_runtime.go:203-355).

    What the alias runs (t.run, t.exec, t.runTemplateItf) is left out: [call] runs the source as a
    template (IncludeModel.v), which all of them do first. *)
From Coq Require Import String Ascii List ZArith NArith Bool.
From Verif Require Import GoStr Utf8 ValueModel ListModel DictModel DataModel HeapModel PathModel IncludeModel.
Import ListNotations.

(** ** The configuration *)

(** strings.ToLower, for the comparison with words in small ASCII letters: besides A to Z only U+0130 and
    U+212A have such a letter as lower case; other letters stay outside of ASCII and are left as they are. *)
Definition low (c : ascii) : ascii := if (N_of_ascii "A" <=? N_of_ascii c)%N && (N_of_ascii c <=? N_of_ascii "Z")%N then ascii_of_N (N_of_ascii c + 32) else c.
Fixpoint lower (s : str) : str :=
  match s with
  | [] => []
  | c :: r =>
      match r with
      | c' :: r' =>
          if Ascii.eqb c "196" && Ascii.eqb c' "176" then "i"%char :: lower r'
          else match r' with
               | c'' :: r'' => if Ascii.eqb c "226" && Ascii.eqb c' "132" && Ascii.eqb c'' "170" then "k"%char :: lower r'' else low c :: lower r
               | [] => low c :: lower r
               end
      | [] => [low c]
      end
  end.
(** What a value must be. *)
Inductive kind := Any | AList | ADict.
(** The name a setting is stored under: extra_runtime.go:257-291 *)
Definition setting (key : str) : option (str * kind) :=
  let k := lower key in
  if mem_str k [$"d"; $"desc"; $"description"] then Some ($"description", Any)
  else if mem_str k [$"g"; $"group"] then Some ($"group", Any)
  else if mem_str k [$"a"; $"args"; $"arguments"] then Some ($"args", AList)
  else if mem_str k [$"aliases"] then Some ($"aliases", AList)
  else if mem_str k [$"def"; $"default"; $"defaults"] then Some ($"def", ADict)
  else None.
Definition has_kind (k : kind) (v : value) : bool :=
  match k, v with
  | Any, _ => true
  | AList, VList _ _ => true
  | ADict, VDict _ _ => true
  | _, _ => false
  end.
(** One step of the loop; the texts of the errors are shortened. *)
Definition configure_key (cfg : list (str * value)) (key : str) : res (list (str * value)) :=
  match mget cfg key with
  | None => Ok cfg
  | Some v =>
      match setting key with
      | None => Err ($"unknown configuration " ++ key)
      | Some (name, k) => if has_kind k v then Ok (mset cfg name v) else Err (key ++ $" must be a list or a dictionary")
      end
  end.
(** The loop; config.AsMap() is the map that config.Set changes, so that [sched], the keys visited, may
    contain some of the names that were added. *)
Fixpoint configure (sched : list str) (cfg : list (str * value)) : res (list (str * value)) :=
  match sched with
  | [] => Ok cfg
  | k :: r => match configure_key cfg k with Ok cfg' => configure r cfg' | Err e => Err e | Panic e => Panic e end
  end.
Record finfo := FInfo { f_group : str; f_description : str; f_arguments : list str; f_in : str; f_aliases : list str; f_defaults : value }.
Section Config.
Context {V : Env}.
(** defval(config.Get(k), def): no opaque values here *)
Definition defval (cfg : list (str * value)) (k : str) (def : value) : value :=
  match mget cfg k with
  | Some v => if is_empty_value (fun _ => false) v then def else v
  | None => def
  end.
(** .(string) *)
Definition as_string (v : value) : res str := match v with VScal (SStr false s) => Ok s | _ => Panic $"interface conversion" end.
(** .(iList).Strings() *)
Definition as_strings (v : value) : res (list str) := match v with VList _ l => Ok (map sprint l) | _ => Panic $"interface conversion" end.
Definition as_dict (v : value) : res value := match v with VDict _ _ => Ok v | _ => Panic $"interface conversion" end.
Definition bind {A B} (x : res A) (f : A -> res B) : res B := match x with Ok a => f a | Err e => Err e | Panic e => Panic e end.
(** extra_runtime.go:305-308: the first word of each argument *)
Fixpoint first_words (l : list str) : res (list str) :=
  match l with
  | [] => Ok []
  | a :: r => match fields a with
              | [] => Panic $"index out of range"
              | w :: _ => bind (first_words r) (fun ws => Ok (w :: ws))
              end
  end.
(** extra_runtime.go:293-308 *)
Definition function_info (cfg : list (str * value)) : res finfo :=
  bind (as_string (defval cfg $"group" (vstr $"User defined functions"))) (fun g =>
  bind (as_string (defval cfg $"description" (vstr []))) (fun ds =>
  bind (as_strings (defval cfg $"args" (VList dflt []))) (fun args =>
  bind (as_strings (defval cfg $"aliases" (VList dflt []))) (fun al =>
  bind (as_dict (defval cfg $"def" (VDict dflt []))) (fun def =>
  bind (first_words args) (fun ws => Ok (FInfo g ds ws (join $", " args) al def))))))).
(** A definition: extra_runtime.go:256-308, [cfg] is the configuration, converted to a dictionary. *)
Definition define (sched : list str) (cfg : list (str * value)) : res finfo := bind (configure sched cfg) function_info.
End Config.

(** ** The call of a defined function *)
Section Call.
Context {E : Engine}.
(** See IncludeModel.v. *)
Variable grow : nat -> nat -> nat.
Variable d : impl.
Variable constants : list str.
Variable folder : str.
Variable accept_no_value : bool.
(** ConvertData on a text: the data it stands for, if any. *)
Variable convert : heap -> str -> option (heap * hval).
(** fi.arguments, defaultValues and source *)
Variable names : list str.
Variable defaults : loc.
Variable source : str.

(** TryAsDictionary; None: it has no end.  nil gives a new dictionary (base_helper.go:115). *)
Definition try_dictionary (fuel : nat) (h : heap) (v : hval) : option (heap * option loc) :=
  match v with
  | HDict _ p => if walks fuel h v then Some (h, Some p) else None
  | HNil => Some (h ++ [OMap []], Some (List.length h))
  | _ => Some (h, None)
  end.
(** t.Context(): template.go:354-359; a new dictionary if it is not one *)
Definition context_of (fuel : nat) (h : heap) (c : hval) : option (heap * loc) :=
  match try_dictionary fuel h c with
  | None => None
  | Some (h', Some p) => Some (h', p)
  | Some (h', None) => Some (h' ++ [OMap []], List.length h')
  end.
(** extra_runtime.go:343-349 *)
Fixpoint bind_arguments (fuel : nat) (h : heap) (n : loc) (names : list str) (args : list hval) : option heap :=
  match args, names with
  | [], _ => Some h
  | a :: r, [] => let (h', s) := new_args h (a :: r) in set_key fuel h' n $"ARGS" (HList d s)
  | a :: r, k :: ks => match set_key fuel h n k a with
                       | None => None
                       | Some h' => bind_arguments fuel h' n ks r
                       end
  end.
(** extra_runtime.go:319-330: the only argument, when not exactly one is declared *)
Definition only_argument (fuel : nat) (h : heap) (args : list hval) : option (heap * list hval * option loc) :=
  match args with
  | [a] =>
      if Nat.eqb (List.length names) 1 then Some (h, args, None)
      else
        let (h, a) := match a with
                      | HScal (SStr false s) => match convert h s with Some r => r | None => (h, a) end
                      | _ => (h, a)
                      end in
        match try_dictionary fuel h a with
        | None => None
        | Some (h', r) => Some (h', [a], r)
        end
  | _ => Some (h, args, None)
  end.
(** The context of a call: extra_runtime.go:310-350; the inner option: the context is not a dictionary. *)
Definition call_context (fuel : nat) (args : list hval) (h : heap) (context : hval) : option (heap * option loc) :=
  let n := List.length h in
  let h := h ++ [OMap []] in
  match context_of fuel h context with
  | None => None
  | Some (h, parent) =>
      match (match map_at h parent with [] => set_key fuel h n $"DEFAULT" context | _ => Some h end) with
      | None => None
      | Some h =>
          match only_argument fuel h args with
          | None => None
          | Some (h, _, Some a) => match h_merge fuel h n [a; defaults; parent] with Some h' => Some (h', Some n) | None => None end
          | Some (h, args, None) =>
              match try_dictionary fuel h context with
              | None => None
              | Some (h, None) => Some (h, None)
              | Some (h, Some p) =>
                  match h_merge fuel h n [defaults; p] with
                  | None => None
                  | Some h => match bind_arguments fuel h n names args with Some h' => Some (h', Some n) | None => None end
                  end
              end
          end
      end
  end.
(** The call: extra_runtime.go:310-352.  An error of TryAsDictionary is returned. *)
Definition call (fuel : nat) (args : list hval) (st : state) : option (state * outcome) :=
  match call_context fuel args (s_heap st) (s_context st) with
  | None => None
  | Some (h, None) => Some (with_heap h st, Ret [] [] (Some $"object cannot be converted to dictionary"))
  | Some (h, Some n) => run grow d constants folder accept_no_value fuel false source [HDict d n] (with_heap h st)
  end.

(** An alias: extra_runtime.go:223-231; the default arguments come first. *)
Definition call_alias (fuel : nat) (default_args args : list hval) (st : state) : option (state * outcome) :=
  run grow d constants folder accept_no_value fuel false source (default_args ++ args) st.
End Call.
