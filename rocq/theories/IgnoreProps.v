(** * Razor names left alone (C89, C90, C91) *)
From Coq Require Import String Ascii List ZArith NArith Bool Lia Permutation.
From Verif Require Import GoStr RegexSpec RazorAssignModel CliSpec IgnoreModel IgnoreSpec IgnoreProofs IgnoreProofs2.
Import ListNotations.
Local Open Scope char_scope.

(** ** C89: a name of the list hides the delimiter exactly where this name follows *)
Theorem C89_name : forall beyond d a w b s, plain_delim d -> is_name w -> white a -> white b ->
  ignore_one beyond [d] (a ++ w ++ b) s = Some (hide d literal_at (fun x => str_eqb (name_of x) w) s).
Proof. exact @ignore_name. Qed.
Print Assumptions C89_name.

(** A name followed by .* hides all delimiters followed by a name that begins so, however many there are. *)
Theorem C89_prefix : forall beyond d a w b s, plain_delim d -> is_name w -> white a -> white b ->
  ignore_one beyond [d] (a ++ (w ++ $".*") ++ b) s = Some (hide d literal_at (begins w) s).
Proof. exact @ignore_prefix. Qed.
Print Assumptions C89_prefix.

(** All names of a list, whatever their order, in a text where no name between two delimiters stands alone. *)
Theorem C89_list : forall beyond d l s, plain_delim d -> d <> "=" -> d <> "!" -> Forall is_name l -> apart d s ->
  ignore_all beyond [d] l s = Some (hide d literal_at (named l) s).
Proof. exact @ignore_names. Qed.
Print Assumptions C89_list.

Example C89_name_example : forall beyond,
  ignore_one beyond $"@" $" media " $"@media @mediaX @med @media-x @media" =
    Some $"_=!AT!=_media @mediaX @med _=!AT!=_media-x _=!AT!=_media".
Proof. intros beyond. vm_compute. reflexivity. Qed.
Example C89_prefix_example : forall beyond,
  ignore_one beyond $"@" $"med.*" $"@media @mediaX @me @med @media" = Some $"_=!AT!=_media _=!AT!=_mediaX @me _=!AT!=_med _=!AT!=_media".
Proof. intros beyond. vm_compute. reflexivity. Qed.
Example C89_list_example : forall beyond,
  ignore_all beyond $"@" (append_ignored [$"import"; $"media"] [$"x"]) $"@import a; @media b; @user; @x@" = Some $"_=!AT!=_import a; _=!AT!=_media b; @user; _=!AT!=_x@"
  /\ hide "@" literal_at (named [$"import"; $"media"; $"x"]) $"@import a; @media b; @user; @x@" = $"_=!AT!=_import a; _=!AT!=_media b; @user; _=!AT!=_x@".
Proof. intros beyond. vm_compute. split; reflexivity. Qed.

(** ** C90: what is not so *)
(** The order of the list matters: a name directly followed by another one. *)
Theorem C90_order_refuted : forall beyond, exists l l' s, Forall is_name l /\ Permutation l l' /\
  ignore_all beyond $"@" l s = Some (hide "@" literal_at (named l) s) /\
  ignore_all beyond $"@" l' s <> Some (hide "@" literal_at (named l) s).
Proof.
  intros beyond. exists [$"foo"; $"bar"], [$"bar"; $"foo"], $"@foo@bar". split; [|split; [apply perm_swap|split; [vm_compute; reflexivity | vm_compute; discriminate]]].
  repeat constructor; discriminate.
Qed.
Print Assumptions C90_order_refuted.

(** An alternative: the second one is not left alone, and the first one does not stop at the end of a name. *)
Theorem C90_alternative_refuted : forall beyond, exists a b x, is_name a /\ is_name b /\ is_name x /\ x <> a /\ x <> b /\
  ignore_one beyond $"@" (a ++ $"|" ++ b) ($"@" ++ b) = Some ($"@" ++ b) /\
  ignore_one beyond $"@" (a ++ $"|" ++ b) ($"@" ++ x) = Some (literal_at ++ x).
Proof.
  intros beyond. exists $"foo", $"bar", $"fool". repeat (split; [first [discriminate | repeat constructor; discriminate]|]). split; vm_compute; reflexivity.
Qed.
Print Assumptions C90_alternative_refuted.

(** A delimiter that means something in a regular expression: nothing is left alone, or there is a panic. *)
Theorem C90_delimiter_refuted : forall beyond, exists d d' w, is_name w /\ d <> d' /\
  ignore_one beyond [d] w (d :: w) = Some (d :: w) /\ ignore_one beyond [d'] w (d' :: w) = None.
Proof. intros beyond. exists "$", "+", $"foo". split; [repeat constructor; discriminate|]. split; [discriminate|]. split; vm_compute; reflexivity. Qed.
Print Assumptions C90_delimiter_refuted.

(** A name that ends with a character beyond ASCII is never left alone before a blank (here U+00E9). *)
Theorem C90_letter_refuted : forall beyond, exists (n : N) (w : str), Utf8.decode w = (n, List.length w) /\ N.le 128 n /\ ignore_one beyond $"@" w ($"@" ++ w ++ $" ") = Some ($"@" ++ w ++ $" ").
Proof. intros beyond. exists 233%N, ["195"; "169"]. split; [vm_compute; reflexivity|]. split; [lia|]. vm_compute. reflexivity. Qed.
Print Assumptions C90_letter_refuted.

(** ** C91: the environment variable is a list of names separated by commas, blanks and line ends *)
Theorem C91_env : forall beyond convert c e q l, ascii_letter (N_of_ascii c) = true ->
  Forall (fun x => fst x <> [] /\ Forall entry_char (fst x)) ((c :: e, q) :: l) -> separated ((c :: e, q) :: l) ->
  exists found, env_ignored beyond convert (value_text ((c :: e, q) :: l)) = Some found /\
    filter (fun e => negb (str_eqb e [])) found = map fst ((c :: e, q) :: l) /\
    forall delim s, ignore_all beyond delim found s = ignore_all beyond delim (map fst ((c :: e, q) :: l)) s.
Proof.
  intros beyond convert c e q l C F S. destruct (env_list beyond convert c e q l C F S) as (found & E & M). exists found. split; [exact E|]. split; [exact M|].
  intros delim s. rewrite <- M. symmetry. apply ignore_empty.
Qed.
Print Assumptions C91_env.
Example C91_example : forall beyond convert,
  env_ignored beyond convert ($"media, import" ++ ["013"; "010"] ++ $"x.*" ++ ["010"]) = Some [$"media"; []; $"import"; $"x.*"; []] /\
  ($"media, import" ++ ["013"; "010"] ++ $"x.*" ++ ["010"] : str) = value_text [($"media", [Comma; Blank]); ($"import", [Return]); ($"x.*", [Newline])].
Proof. intros beyond convert. split; vm_compute; reflexivity. Qed.

(** A value that does not begin with a letter is read as data: a single name beginning with an underscore is not a list. *)
Theorem C91_underscore_refuted : forall beyond, exists name, is_name name /\ forall convert, env_ignored beyond convert name = convert name.
Proof. intros beyond. exists $"_media". split; [repeat constructor; discriminate|]. reflexivity. Qed.
Print Assumptions C91_underscore_refuted.
