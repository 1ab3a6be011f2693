(** C38: the HCL rendering of data. *)
From Coq Require Import String Ascii List ZArith NArith Bool Permutation Sorted.
From Verif Require Import GoStr Utf8 TextModel ValueModel CollSpec QuoteModel QuoteSpec QuoteProofs ConvModel ConvSpec VeqFacts HclModel HclSpec HclProofs HclProofs2 BashSpec BashProps ExampleEnv.
Import ListNotations.

(** No rendering depends on the iteration order of any map. *)
Theorem C38_order : forall {E : Env} {P : PrintEnv} full head prefix ind v w, keyed v -> veq v w ->
  marshal_hcl full head prefix ind (marshal_go v) = marshal_hcl full head prefix ind (marshal_go w).
Proof. exact @marshal_hcl_order. Qed.
Print Assumptions C38_order.

(** Compact renderings can be read back: they denote the value that was rendered, with the entries of
    the maps in another order. *)
Theorem C38_read_back : forall {E : Env} {P : PrintEnv} v, faithful v ->
  exists w, veq v w /\ read_hcl (hcl_marshal_internal v) = Some w.
Proof. exact @hcl_read_back. Qed.
Print Assumptions C38_read_back.

Example C38_ex :
  let E := env0 in let P := print0 in
  let v := nm_ [("b"%string, nl_ [vstr $"x ""y"""; vint (-12); VNil]); ("a b"%string, nm_ [("k-1"%string, vbool true); ("1"%string, nl_ [])]);
                ("c"%string, nm_ []); ("m"%string, nl_ [nm_ [("u"%string, vint 0)]; nm_ [("v"%string, vint 1)]])] in
  (hcl_marshal_internal v, read_hcl (hcl_marshal_internal v))
  = ($"{""a b""={""1""=[] k-1=true} b=[""x \""y\"""",-12,null] c={} m=[{u=0},{v=1}]}",
     Some (nm_ [("a b"%string, nm_ [("1"%string, nl_ []); ("k-1"%string, vbool true)]); ("b"%string, nl_ [vstr $"x ""y"""; vint (-12); VNil]);
                ("c"%string, nm_ []); ("m"%string, nl_ [nm_ [("u"%string, vint 0)]; nm_ [("v"%string, vint 1)]])])).
Proof. vm_compute. reflexivity. Qed.

Example C38_ex_order :
  let E := env0 in let P := print0 in
  let v := nm_ [("a"%string, vint 1); ("bc"%string, nm_ [("x"%string, vstr $"s"); ("y"%string, vint 2)])] in
  let w := nm_ [("bc"%string, nm_ [("y"%string, vint 2); ("x"%string, vstr $"s")]); ("a"%string, vint 1)] in
  hcl_marshal_indent v [] $"  " = hcl_marshal_indent w [] $"  " /\
  hcl_marshal_indent v [] $"  " = $"a = 1" ++ NL :: NL :: $"bc {" ++ NL :: $"  x = ""s""" ++ NL :: $"  y = 2" ++ NL :: $"}".
Proof. vm_compute. split; reflexivity. Qed.

(** Faithful data with the same compact rendering are the same data. *)
Theorem C38_injective : forall {E : Env} {P : PrintEnv} v w, faithful v -> faithful w -> hcl_marshal_internal v = hcl_marshal_internal w ->
  exists u, veq v u /\ veq w u.
Proof. exact @hcl_injective. Qed.
Print Assumptions C38_injective.

(** Keys: a letter or underscore followed by letters, digits, underscores and hyphens stay bare, other
    keys become literals unless they start with one of five other characters. *)
Theorem C38_keys : forall {E : Env} {P : PrintEnv} k z, free_of_marker k -> proper_key k ->
  (bare_key k -> hcl_marshal_internal (VMap 0 [(k, vint z)]) = $"{" ++ k ++ $"=" ++ itoa z ++ $"}") /\
  (~ bare_key k -> exists q, hcl_marshal_internal (VMap 0 [(k, vint z)]) = $"{" ++ q ++ $"=" ++ itoa z ++ $"}" /\ read_literal q = Some (k, [])).
Proof. exact @hcl_keys. Qed.
Print Assumptions C38_keys.

Example C38_ex_keys :
  let E := env0 in let P := print0 in
  hcl_marshal_internal (nm_ [("_a-1"%string, vint 1); ("1a"%string, vint 2); (""%string, vint 3); ("a.b"%string, vint 4)]) = $"{""""=3 ""1a""=2 _a-1=1 ""a.b""=4}".
Proof. vm_compute. reflexivity. Qed.

(** A list of a single map is rendered as the map, in every mode, so the list is not read back. *)
Theorem C38_single : forall {E : Env} {P : PrintEnv} full head prefix ind m,
  marshal_hcl full head prefix ind (VSlice 0 [VMap 0 m]) = marshal_hcl full head prefix ind (VMap 0 m).
Proof. exact @hcl_single. Qed.
Print Assumptions C38_single.
Example C38_ex_single :
  let E := env0 in let P := print0 in
  hcl_marshal (nm_ [("r"%string, nl_ [nm_ [("a"%string, vint 1); ("b"%string, vint 2)]])]) = $"r={a=1 b=2}".
Proof. vm_compute. reflexivity. Qed.
Theorem C38_single_refuted : exists E P v, native v /\ read_hcl (@hcl_marshal_internal E P v) <> None /\
  forall w, read_hcl (@hcl_marshal_internal E P v) = Some w -> ~ veq v w.
Proof.
  exists env0, print0, (nl_ [nm_ [("a"%string, vint 1)]]). split; [|split].
  - repeat constructor; vm_compute; intuition.
  - vm_compute. discriminate.
  - intros w H. vm_compute in H. inversion H; subst. intro Q. inversion Q.
Qed.
Print Assumptions C38_single_refuted.

(** A key starting with a bracket stays bare: the rendering is not HCL. *)
Theorem C38_key_refuted : exists E P k, In k [$"[x"; $"\x"; $"]x"; $"^x"; $"`x"] /\
  @hcl_marshal_internal E P (VMap 0 [(k, vint 1)]) = $"{" ++ k ++ $"=1}" /\ read_hcl (@hcl_marshal_internal E P (VMap 0 [(k, vint 1)])) = None.
Proof. exists env0, print0, $"[x". vm_compute. auto. Qed.
Print Assumptions C38_key_refuted.

(** In a text that contains the internal marker, the marker is replaced with the key, and the key and
    the equal sign are lost. *)
Theorem C38_marker_refuted : exists E P s, @hcl_marshal_internal E P (VMap 0 [($"k", vstr s)]) = $"{""x k y""}" /\ s = $"x #HCL_ARRAY_MAP#! y" /\
  read_hcl (@hcl_marshal_internal E P (VMap 0 [($"k", vstr s)])) = None.
Proof. exists env0, print0, $"x #HCL_ARRAY_MAP#! y". vm_compute. auto. Qed.
Print Assumptions C38_marker_refuted.

(** Compact rendering of a document: a null value counts as a block, so it has no equal sign. *)
Theorem C38_null_refuted : exists E P, @hcl_marshal E P (VMap 0 [($"a", VNil); ($"b", vint 1)]) = $"a null b=1".
Proof. exists env0, print0. vm_compute. reflexivity. Qed.
Print Assumptions C38_null_refuted.

(** Quoted texts hold no control character ... *)
Theorem C38_quote_printable : forall {P : PrintEnv} s, Forall (fun c => (128 <= N_of_ascii c \/ 32 <= N_of_ascii c <= 126)%N) (go_quote s).
Proof. exact @quote_clear. Qed.
Print Assumptions C38_quote_printable.
(** ... and printable ASCII texts are left as they are, but for quotes and backslashes. *)
Theorem C38_quote_plain : forall {P : PrintEnv} s, Forall (fun c => (32 <= N_of_ascii c <= 126)%N /\ c <> DQ /\ c <> BSL) s -> go_quote s = DQ :: s ++ [DQ].
Proof. exact @quote_plain. Qed.
Print Assumptions C38_quote_plain.

Example C38_quote_example : let P := print0 in
  go_quote (ascii_of_N 127 :: NL :: $"a b") = DQ :: $"\x7f\na b" ++ [DQ] /\ go_quote $"plain ~ text" = DQ :: $"plain ~ text" ++ [DQ].
Proof. vm_compute. repeat split. Qed.

(** A text in an indented document is a literal or a heredoc whose marker stands on its own line. *)
Theorem C38_heredoc : forall {E : Env} {P : PrintEnv} full head prefix ind s,
  marshal_hcl full head prefix ind (vstr s) = go_quote s \/
  exists u, marshal_hcl full head prefix ind (vstr s) = $"<<HCLVALUE" ++ NL :: u ++ NL :: $"HCLVALUE".
Proof. exact @heredoc_text. Qed.
Print Assumptions C38_heredoc.
(** Lines of plain text that start at the margin and end are written as they are. *)
Theorem C38_heredoc_plain : forall {E : Env} {P : PrintEnv} full head prefix ind s, ind <> [] -> plain_lines s ->
  marshal_hcl full head prefix ind (vstr s) = $"<<HCLVALUE" ++ NL :: s ++ $"HCLVALUE".
Proof. exact @heredoc_lines. Qed.
Print Assumptions C38_heredoc_plain.
Example C38_ex_heredoc : let E := env0 in let P := print0 in
  let s := $"a ""b""" ++ NL :: TAB :: $"c" ++ [NL] in
  plain_lines s /\ hcl_marshal_indent (nm_ [("k"%string, vstr s)]) [] $"  " = $"k = <<HCLVALUE" ++ NL :: s ++ $"HCLVALUE".
Proof.
  split; [|vm_compute; reflexivity]. split; [|split].
  - cbv beta zeta. repeat (apply Forall_cons; [first [left; apply in_eq | left; apply in_cons, in_eq | right; split; [split; vm_compute; discriminate|discriminate]]|]). apply Forall_nil.
  - eexists _, _. split; [reflexivity|]. vm_compute. intuition discriminate.
  - eexists ($"a ""b""" ++ NL :: TAB :: $"c"). reflexivity.
Qed.
(** Otherwise the text may change: a backslash before an n gives a newline after a backslash, and a common indentation is lost. *)
Theorem C38_heredoc_refuted : exists E P s t, s <> t /\ @marshal_hcl E P true true [] $"  " (vstr s) = $"<<HCLVALUE" ++ NL :: t ++ $"HCLVALUE" /\
  (s = $"a\nb" ++ [NL] /\ t = $"a\" ++ NL :: $"b" ++ [NL]).
Proof. exists env0, print0, ($"a\nb" ++ [NL]), ($"a\" ++ NL :: $"b" ++ [NL]). split; [discriminate|]. vm_compute. auto. Qed.
Print Assumptions C38_heredoc_refuted.
Theorem C38_margin_refuted : exists E P s t, s <> t /\ @marshal_hcl E P true true [] $"  " (vstr s) = $"<<HCLVALUE" ++ NL :: t ++ $"HCLVALUE" /\
  (s = $"  a" ++ NL :: $"  b" ++ [NL] /\ t = $"a" ++ NL :: $"b" ++ [NL]).
Proof. exists env0, print0, ($"  a" ++ NL :: $"  b" ++ [NL]), ($"a" ++ NL :: $"b" ++ [NL]). split; [discriminate|]. vm_compute. auto. Qed.
Print Assumptions C38_margin_refuted.

(** An indented map is laid out in key order: values of one line with aligned equal signs, then the others after empty lines;
    a map inside of another value is put in braces and indented. *)
Theorem C38_document : forall {E : Env} {P : PrintEnv} full prefix ind m es, ind <> [] -> native (VMap 0 m) -> in_order m es -> (full = true -> forall k x, m <> [(k, VMap 0 x)]) ->
  (forall k v, In (k, v) m -> free_of_marker (marshal_hcl full false [] ind v)) ->
  let items := map (fun kv => {| i_key := hcl_id (fst kv); i_len := List.length (fst kv); i_text := marshal_hcl full false [] ind (snd kv); i_block := block_value (snd kv) |}) es in
  let lines := layout rune_count full items in
  marshal_hcl full true prefix ind (VMap 0 m) = join [NL] lines /\
  marshal_hcl full false prefix ind (VMap 0 m) = match lines with [] => $"{}" | _ => $"{" ++ NL :: indent (join [NL] lines) (prefix ++ ind) ++ NL :: $"}" end.
Proof. exact @hcl_document. Qed.
Print Assumptions C38_document.
Example C38_ex_document : let E := env0 in let P := print0 in
  hcl_marshal_indent (nm_ [("b"%string, nm_ [("y"%string, vint 1); ("long"%string, vint 2)]); ("z"%string, nl_ [vint 1]); ("abc"%string, vbool true)]) [] $"  "
  = $"abc = true" ++ NL :: $"z   = [1]" ++ NL :: NL :: $"b {" ++ NL :: $"  long = 2" ++ NL :: $"  y    = 1" ++ NL :: $"}".
Proof. vm_compute. reflexivity. Qed.
