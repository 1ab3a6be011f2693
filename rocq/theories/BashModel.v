(** ToBash: collections/convert_data.go. *)
From Coq Require Import String Ascii List ZArith NArith Bool.
From Verif Require Import GoStr ValueModel ListModel DictModel QuoteModel ConvModel.
Import ListNotations.

(** strings.ContainsAny(s, chars) for ASCII chars. *)
Definition contains_any (s chars : str) : bool := existsb (fun c => contains_byte c chars) s.

Section WithEnv.
Context {E : Env} {P : PrintEnv}.

(** quote: convert_data.go:313-318 *)
Definition bash_quote (s : str) : str :=
  if contains_any s ([SP; TAB] ++ $",[]()") then go_quote s else s.

(** An entry of a dictionary at level 0: convert_data.go:104-115 *)
Definition bash_assign (k val : str) (v : value) : str :=
  match c_try_as_list v with
  | Some _ => $"declare -a " ++ k ++ [NL] ++ k ++ $"=" ++ val
  | None =>
      match c_try_as_dict v with
      | Some _ => $"declare -A " ++ k ++ [NL] ++ k ++ $"=" ++ val
      | None => k ++ $"=" ++ val
      end
  end.

(** toBash: convert_data.go:79-137; one unit of fuel for each level of dictionaries. *)
Fixpoint to_bash_go (fuel : nat) (v : value) (level : nat) : str :=
  match v with
  | VScal (SStr false s) => if contains_any s ([SP; TAB; NL] ++ $"[]()") then go_quote s else s
  | _ =>
      match c_try_as_list v with
      | Some (_, l) =>
          let results := map bash_quote (list_string_array l) in
          if Nat.eqb level 2 then join $"," results else $"(" ++ join $" " results ++ $")"
      | None =>
          match c_try_as_dict v, fuel with
          | Some (_, m), S fuel =>
              let entry f := map (fun k => f k (to_bash_go fuel (mget0 m k) (S level))) (dict_keys_as_string m) in
              match level with
              | O => join [NL] (entry (fun k val => bash_assign k val (mget0 m k)))
              | 1 => $"(" ++ join $" " (entry (fun k val => $"[" ++ k ++ $"]=" ++ replace_all $"$" $"\$" val)) ++ $")"
              | _ => join $"," (entry (fun k val => k ++ $"=" ++ bash_quote val))
              end
          | _, _ => sprint v
          end
      end
  end.

(** ToBash: convert_data.go:75-77; the nesting of the value bounds the recursion. *)
Definition to_bash (v : value) : str := let n := marshal_go v in to_bash_go (S (depth n)) n 0.

End WithEnv.
