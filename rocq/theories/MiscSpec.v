(** Base names, e-mail addresses, checked assignments and undefined values. *)
From Coq Require Import String Ascii List ZArith NArith Bool PeanoNat.
From Verif Require Import GoStr RazorAssignModel.
Import ListNotations.
Local Open Scope char_scope.

(** The last name of a path, whatever the number of slashes behind it. *)
Inductive base_of : str -> str -> Prop :=
| BaseEmpty : base_of [] $"."
| BaseRoot : forall n, base_of (repeat "/" (S n)) $"/"
| BaseName : forall a b n, b <> [] -> ~ In "/" b -> (a = [] \/ exists a', a = a' ++ ["/"]) -> base_of (a ++ b ++ repeat "/" n) b.
(** What is written before the assignment of a global variable. *)
Definition guard (mode : validation) (left right name : str) : str :=
  let call check := left ++ $"- " ++ check ++ $" (not (isNil $." ++ name ++ $")) ""$." ++ name ++ $" does not exist, use := to declare new variable"" " ++ right in
  match mode with NoValidation => [] | WarnValidation => call $"assertWarning" | StrictValidation => call $"assert" end.
