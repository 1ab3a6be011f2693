(** C83: the list of functions. *)
From Coq Require Import String Ascii List ZArith NArith Bool PeanoNat Permutation Sorted.
From Verif Require Import GoStr Utf8 ValueModel TextModel HclModel FuncsModel HelpModel HelpSpec HelpProofs.
Import ListNotations.

(** ** C83: exactly the functions asked for, each once, in order *)
Theorem C83_filter : forall (F : Type) lower (tf : table F) all category detailed filters, NoDup (map fst tf) -> spaced lower -> lower [] = [] ->
  Forall (fun f => ~ In " "%char (lower f)) filters ->
  forall k, In k (filter_functions lower tf all category detailed filters) <-> asked lower tf all category detailed filters k.
Proof. intros F lower tf all category detailed filters N SP L0 B k. split; [apply filter_only; assumption | apply filter_found; assumption]. Qed.
Print Assumptions C83_filter.
(** Questions with blanks find at least those. *)
Theorem C83_found : forall (F : Type) lower (tf : table F) all category detailed filters k, NoDup (map fst tf) -> spaced lower ->
  asked lower tf all category detailed filters k -> In k (filter_functions lower tf all category detailed filters).
Proof. intros F lower tf all category detailed filters k N SP. apply filter_found; assumption. Qed.
Print Assumptions C83_found.
Theorem C83_order : forall (F : Type) lower (tf : table F) all category detailed filters, NoDup (map fst tf) -> ascending (filter_functions lower tf all category detailed filters).
Proof. intros. apply filtered_ascending. assumption. Qed.
Print Assumptions C83_order.
(** The groups: in order, none empty, and each function in the one of its own. *)
Theorem C83_groups : forall (F : Type) (tf : table F) by_category functions, ascending (map fst (sections tf by_category functions)) /\
  forall k l, In (k, l) (sections tf by_category functions) <-> l = filter (fun f => str_eqb k (group_of tf by_category f)) functions /\ l <> [].
Proof. intros. apply sections_known. Qed.
Print Assumptions C83_groups.
(** The lines: every name once, five or less on a line, as few lines as possible, and the columns are read downward. *)
Theorem C83_lines : forall l, Permutation (concat (short_rows l)) l /\ length l <= 5 * length (short_rows l) < length l + 5 /\
  forall r row, nth_error (short_rows l) r = Some row -> forall c, nth_error row c = if c <? 5 then nth_error l (c * length (short_rows l) + r) else None.
Proof. intros l. split; [apply rows_all|]. split; [apply rows_count | apply rows_cells]. Qed.
Print Assumptions C83_lines.
(** Every name and the blanks that follow it take as many characters; the colours take none. *)
Theorem C83_columns : forall (F : Type) (tf : table F) pre post functions item, low pre -> low post -> In item functions -> exists shown n,
  short_cell pre post tf (max_length functions) item = shown ++ spaces n /\ shown = (match mget tf item with Some (Alias _ _) => pre ++ item ++ post | _ => item end) /\
  rune_count item + n = max_length functions + 2 /\ 2 <= n.
Proof. intros F tf pre post functions item LP LQ I. apply cell_ok; [exact LP | exact LQ | apply max_ok; exact I]. Qed.
Print Assumptions C83_columns.
(** The details are given once for a function and its aliases, with the description of the function if its name has not
    been taken by another. *)
Theorem C83_details : forall (F : Type) (tf : table F) functions, ascending (detailed_names tf functions) /\
  (forall n, In n (detailed_names tf functions) <-> exists f, In f functions /\ stands_for tf f n) /\
  (kept_names tf -> forall f own e, mget tf f = Some e -> stands_for tf f own -> detailed_description tf own = e_description e).
Proof.
  intros F tf functions. destruct (detailed_known tf functions) as (A & B). split; [exact A|]. split; [exact B|]. intros K f own e M ST. exact (described tf f own e K M ST).
Qed.
Print Assumptions C83_details.
(** A function whose name is an alias of another function added later: no description for its own aliases. *)
Definition first_table : table nat := [($"length", Own (Info [] (Some 0) $"g" [$"size"] [] $"Counts."))].
Definition second_table : table nat := [($"extent", Own (Info [] (Some 1) $"g" [$"length"] [] $"Measures."))].
Theorem C83_description_refuted : exists (t1 t2 : table nat) fs1 fs2 e, add_functions [$"length"] first_table [] = Some (t1, fs1) /\ add_functions [$"extent"] second_table t1 = Some (t2, fs2) /\
  mget t2 $"size" = Some e /\ e_description e = $"Counts." /\ detailed_names t2 [$"size"] = [$"length"] /\ detailed_description t2 $"length" = [].
Proof. do 5 eexists. split; [vm_compute; reflexivity|]. split; [vm_compute; reflexivity|]. split; [vm_compute; reflexivity|]. repeat split; reflexivity. Qed.
Print Assumptions C83_description_refuted.

(** Upper case letters of ASCII *)
Definition lower_ascii (s : str) : str := map (fun c => let n := nat_of_ascii c in if (65 <=? n) && (n <=? 90) then ascii_of_nat (n + 32) else c) s.
Lemma lower_ascii_spaced : spaced lower_ascii.
Proof. intros a b. unfold lower_ascii. rewrite map_app, map_app. reflexivity. Qed.
Definition sample : table nat :=
  let i n g a d := Info n (Some 0) g a [] d in
  let add := i $"add" $"Math" [$"sum"; $"plus"] $"Adds numbers." in
  let join := i $"joinLines" $"Strings" [] $"Joins the lines." in
  let abs := i $"abs" $"Math" [] $"Absolute value." in
  [($"sum", Alias $"sum" add); ($"joinLines", Own join); ($"add", Own add); ($"plus", Alias $"plus" add); ($"abs", Own abs)].
Example C83_filter_example :
  filter_functions lower_ascii sample false false false [$"SUM"; $"lin"] = [$"add"; $"joinLines"] /\ filter_functions lower_ascii sample true false false [] = [$"abs"; $"add"; $"joinLines"; $"plus"; $"sum"] /\
  filter_functions lower_ascii sample true true false [$"math"] = [$"abs"; $"add"; $"plus"; $"sum"] /\ filter_functions lower_ascii sample false false true [$"value"] = [$"abs"] /\
  filter_functions lower_ascii sample false false false [$"value"] = [].
Proof. vm_compute. repeat split; reflexivity. Qed.
Example C83_groups_example :
  sections sample true [$"abs"; $"add"; $"joinLines"; $"sum"] = [($"Math", [$"abs"; $"add"; $"sum"]); ($"Strings", [$"joinLines"])] /\
  sections sample false [$"abs"; $"joinLines"] = [([], [$"abs"; $"joinLines"])].
Proof. vm_compute. split; reflexivity. Qed.
Example C83_lines_example :
  short_rows [$"a"; $"b"; $"c"; $"d"; $"e"; $"f"; $"g"; $"h"] = [[$"a"; $"c"; $"e"; $"g"]; [$"b"; $"d"; $"f"; $"h"]] /\
  short_rows [$"a"; $"b"; $"c"; $"d"; $"e"; $"f"; $"g"] = [[$"a"; $"c"; $"e"; $"g"]; [$"b"; $"d"; $"f"]] /\
  short_line $"<" $">" sample 4 [$"abs"; $"sum"; $"plus"] = $"abs   <sum>   <plus>  ".
Proof. vm_compute. repeat split; reflexivity. Qed.
Example C83_details_example : detailed_names sample [$"sum"; $"abs"; $"plus"] = [$"abs"; $"add"] /\ detailed_description sample $"add" = $"Adds numbers.".
Proof. vm_compute. split; reflexivity. Qed.
