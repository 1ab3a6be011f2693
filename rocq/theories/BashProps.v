(** C37: the bash rendering of data. *)
From Coq Require Import String Ascii List ZArith NArith Bool Permutation Sorted.
From Verif Require Import GoStr ValueModel CollSpec QuoteModel QuoteSpec QuoteProofs ConvModel ConvSpec VeqFacts BashModel BashSpec BashProofs ExampleEnv.
Import ListNotations.

Definition print0 : PrintEnv := {| is_print_other := fun _ => true |}.

(** The rendering does not depend on the iteration order of any map. *)
Theorem C37_order : forall {E : Env} {P : PrintEnv} v w, (forall a b, veq a b -> fmtx a = fmtx b) -> keyed v -> veq v w -> to_bash v = to_bash w.
Proof. exact @to_bash_veq. Qed.
Print Assumptions C37_order.

(** Executing the rendering of a dictionary gives every key, in key order, its text, array or
    associative array, provided keys are names and texts readable. *)
Theorem C37_script : forall {E : Env} {P : PrintEnv} v m es bs,
  native_of v = VMap 0 m -> NoDup (map fst m) -> in_order m es ->
  Forall2 (fun e nb => fst nb = fst e /\ is_name (fst e) = true /\ holds (snd e) (snd nb)) es bs ->
  shell (to_bash v) = Some bs.
Proof. exact @bash_script. Qed.
Print Assumptions C37_script.

(** A text is rendered as it is unless it contains a blank, newline, bracket or parenthesis; then it
    is rendered as a Go literal. *)
Theorem C37_text : forall {E : Env} {P : PrintEnv} s,
  (Forall (fun c => ~ In c value_triggers) s -> to_bash (vstr s) = s) /\
  ((exists c, In c s /\ In c value_triggers) -> read_literal (to_bash (vstr s)) = Some (s, [])).
Proof. exact @bash_text. Qed.
Print Assumptions C37_text.

Example C37_ex :
  let E := env0 in let P := print0 in
  let v := d_ [("b"%string, l_ [s_ "x y"; n_ (-3); vbool true]); ("a"%string, s_ "f(1)"); ("c"%string, d_ [("k2"%string, s_ "u$v"); ("k1"%string, s_ "say ""$1""")]);
               ("d"%string, VNil)] in
  (to_bash v, shell (to_bash v))
  = ($"a=""f(1)""" ++ NL :: $"declare -a b" ++ NL :: $"b=(""x y"" -3 true)" ++ NL :: $"declare -A c" ++ NL ::
     $"c=([k1]=""say \""\$1\"""" [k2]=u\$v)" ++ NL :: $"declare -a d" ++ NL :: $"d=()",
     Some [($"a", Text $"f(1)"); ($"b", Array [$"x y"; $"-3"; $"true"]);
           ($"c", Table [($"k1", $"say ""$1"""); ($"k2", $"u$v")]); ($"d", Array [])]).
Proof. vm_compute. reflexivity. Qed.

(** A dictionary and a list inside of an associative array. *)
Example C37_inside_ex :
  let E := env0 in let P := print0 in
  let v := d_ [("c"%string, d_ [("k2"%string, d_ [("y"%string, n_ 2); ("x"%string, s_ "u$v")]); ("k1"%string, l_ [s_ "p"; n_ 7])])] in
  (to_bash v, shell (to_bash v)) = ($"declare -A c" ++ NL :: $"c=([k1]=p,7 [k2]=x=u\$v,y=2)", Some [($"c", Table [($"k1", $"p,7"); ($"k2", $"x=u$v,y=2")])])
  /\ holds (nm_ [("k"%string, nm_ [("y"%string, n_ 2); ("x"%string, s_ "u$v")])]) (Table [($"k", $"x=u$v,y=2")]).
Proof.
  split; [vm_compute; reflexivity|]. eapply holds_map with (es := [($"k", _)]); [repeat constructor; vm_compute; tauto|split; [apply Permutation_refl|repeat constructor]|].
  constructor; [|constructor]. cbn [fst snd]. split; [reflexivity|]. split; [discriminate|]. split; [reflexivity|]. split; [|vm_compute; repeat constructor; tauto].
  eapply inside_map with (es := [($"x", s_ "u$v"); ($"y", n_ 2)]) (ts := [$"x=u$v"; $"y=2"]).
  - repeat constructor; vm_compute; intuition discriminate.
  - split; [apply perm_swap|repeat constructor].
  - repeat match goal with |- Forall2 _ _ _ => constructor end; eexists; (split; [constructor|]); (split; [repeat constructor; vm_compute; intuition discriminate|split; [repeat constructor; vm_compute; intuition discriminate|reflexivity]]).
Qed.

Example C37_order_ex :
  let E := env0 in let P := print0 in
  to_bash (nm_ [("b"%string, nm_ [("y"%string, n_ 1); ("x"%string, n_ 2)]); ("a"%string, n_ 3)])
  = to_bash (nm_ [("a"%string, n_ 3); ("b"%string, nm_ [("x"%string, n_ 2); ("y"%string, n_ 1)])]).
Proof. vm_compute. reflexivity. Qed.

(** The hypotheses of [C37_script] hold for such data. *)
Example C37_holds_ex :
  holds (nl_ [s_ "x y"; n_ (-3); vbool true]) (Array [$"x y"; $"-3"; $"true"]).
Proof.
  constructor. repeat match goal with |- Forall2 _ _ _ => constructor end;
    (split; [constructor|split; [discriminate|vm_compute; repeat constructor; discriminate]]).
Qed.

(** Other texts do not come back: a tabulation becomes a backslash and a letter, ... *)
Theorem C37_tab_refuted : exists (E : Env) (P : PrintEnv) s t, s <> t /\ shell (to_bash (nm_ [("a"%string, vstr s)])) = Some [($"a", Text t)].
Proof.
  exists env0, print0, ($"x" ++ TAB :: $"y"), $"x\ty". split; [discriminate|vm_compute; reflexivity].
Qed.
Print Assumptions C37_tab_refuted.

(** ... a semicolon starts another command, so a text can set another variable, ... *)
Theorem C37_semicolon_refuted : exists (E : Env) (P : PrintEnv) s, to_bash (nm_ [("a"%string, vstr s)]) = $"a=1;b=2".
Proof. exists env0, print0, $"1;b=2". vm_compute. reflexivity. Qed.
Print Assumptions C37_semicolon_refuted.

(** ... dollar signs are expanded when the value is not in a nested dictionary, ... *)
Theorem C37_dollar_refuted : exists (E : Env) (P : PrintEnv) s,
  to_bash (nm_ [("a"%string, vstr s)]) = $"a=""x $(y)""" /\ s = $"x $(y)".
Proof. exists env0, print0, $"x $(y)". split; [vm_compute|]; reflexivity. Qed.
Print Assumptions C37_dollar_refuted.

(** ... empty items of lists disappear and items with a newline are split. *)
Theorem C37_items_refuted : exists (E : Env) (P : PrintEnv) l ts, List.length l <> List.length ts /\
  shell (to_bash (nm_ [("a"%string, nl_ l)])) = Some [($"a", Array ts)].
Proof. exists env0, print0, [s_ "x"; s_ ""; s_ "y"], [$"x"; $"y"]. split; [discriminate|vm_compute; reflexivity]. Qed.
Print Assumptions C37_items_refuted.
Theorem C37_newline_refuted : exists (E : Env) (P : PrintEnv) s ts, List.length ts = 2 /\
  shell (to_bash (nm_ [("a"%string, nl_ [vstr s])])) = Some [($"a", Array ts)].
Proof. exists env0, print0, ($"x" ++ NL :: $"y"), [$"x"; $"y"]. split; [reflexivity|vm_compute; reflexivity]. Qed.
Print Assumptions C37_newline_refuted.
