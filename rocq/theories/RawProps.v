(** C92: raw texts in the result, and the substitutions of a template. *)
From Coq Require Import String Ascii List ZArith NArith Bool Lia.
From Verif Require Import GoStr Utf8 ValueModel ValueFacts DataModel DataProofs CliModel ReModel ReSyntaxModel RegexSpec RawModel RawSpec RawProofs RawProofs2 RawProofs3.
Import ListNotations.
Local Open Scope char_scope.

(** A raw text is shown without its marks, and without its quotes unless it contains white space; everything else is as
    it was. *)
Theorem C92_document : forall beyond l, document_ok l -> uncommented (document l) -> substituted beyond [] [] (document l) = Ok (shown l).
Proof. exact substituted_document. Qed.
Print Assumptions C92_document.
Definition C92_sample : list piece :=
  [Other $"{"; Quoted $"a"; Other $": ["; Raw $"x+1"; Other $","; Raw $"hello world"; Other $","; Raw (ascii_of_nat 195 :: ascii_of_nat 169 :: $"!Q!"); Other $"], "; Quoted $"!Q"; Other $": 1}"].
Example C92_document_example : document_ok C92_sample /\ uncommented (document C92_sample) /\
  substituted (fun _ => false) [] [] $"{""a"": [""!Q!x+1!Q!"",""!Q!hello world!Q!""], ""!Q"": 1}" = Ok $"{""a"": [x+1,""hello world""], ""!Q"": 1}" /\
  shown C92_sample = $"{""a"": [x+1,""hello world""," ++ [ascii_of_nat 195; ascii_of_nat 169] ++ $"!Q!], ""!Q"": 1}".
Proof.
  split; [|split; [|split; vm_compute; reflexivity]].
  - cbn. repeat split; try discriminate; try (intros J; repeat (destruct J as [J|J]; [discriminate J|]); exact J); intros (r & X); discriminate X.
  - intros u v X. assert (J : In "#" (document C92_sample)) by (rewrite X; apply in_or_app; right; left; reflexivity).
    vm_compute in J. repeat (destruct J as [J|J]; [discriminate J|]). exact J.
Qed.
(** The substitutions of the environment and then those of the caller are applied to that, one after the other. *)
Theorem C92_others : forall beyond env subs s r, substituted beyond [] [] s = Ok r ->
  substituted beyond env subs s =
  do a <- init_replacers (compile beyond) (match env with [] => [] | _ => split ["010"] env end);
  do b <- init_replacers (compile beyond) subs;
  Ok (substitute replace_all_string (substitute replace_all_string r a) b).
Proof.
  intros beyond env subs s r H. rewrite substituted_then. pose proof (substituted_then beyond [] [] s) as B. cbn [init_replacers bind substitute] in B.
  assert (X : substitute replace_all_string s base_compiled = r) by (rewrite B in H; injection H as H; exact H). rewrite X. reflexivity.
Qed.
Print Assumptions C92_others.
Example C92_others_example : substituted (fun _ => false) ($"/a/b" ++ ["010"] ++ $"|b+|[$0]") [$",x,y"] $"""!Q!aax!Q!"" abx" = Ok $"[bb]y [bb]y".
Proof. vm_compute. reflexivity. Qed.
(** The arguments of raw are marked when there are two of them or more, those of rawList always. *)
Theorem C92_arguments : forall (E : Env) print sprint_all a b vs, Forall converted (a :: b :: vs) ->
  raw_print print sprint_all (a :: b :: vs) = inr (dflt, map (fun v => vstr ($"!Q!" ++ print v ++ $"!Q!")) (a :: b :: vs)) /\
  raw_list print (a :: b :: vs) = (dflt, map (fun v => vstr ($"!Q!" ++ print v ++ $"!Q!")) (a :: b :: vs)).
Proof. intros E print sprint_all a b vs C. split; [exact (f_equal inr (format_list_many (raw_format print) a b vs C)) | exact (format_list_many (raw_format print) a b vs C)]. Qed.
Print Assumptions C92_arguments.
(** A list of raw texts, as JSON prints it *)
Theorem C92_list : forall beyond l, Forall (fun x => x <> [] /\ ~ In QUOTE x /\ ~ In "010" x /\ ~ In "#" x) l ->
  substituted beyond [] [] (document (list_document l)) = Ok ($"[" ++ join $"," (map (fun x => if existsb white_char x then [QUOTE] ++ x ++ [QUOTE] else x) l) ++ $"]").
Proof.
  intros beyond l F.
  assert (NQ : ~ In QUOTE $"," /\ ~ In QUOTE $"[" /\ ~ In QUOTE $"]") by (repeat split; intros [X|[]]; discriminate X).
  assert (OK : forall l, Forall (fun x => x <> [] /\ ~ In QUOTE x /\ ~ In "010" x /\ ~ In "#" x) l -> document_ok (flat_map comma_before (map Raw l) ++ [Other $"]"]) /\ separated_by (flat_map comma_before (map Raw l) ++ [Other $"]"])).
  { clear l F. induction l as [|x l IH]; intros F; [split; [split; [apply NQ | split; exact I] | discriminate]|]. inversion F as [|? ? X F']; subst. destruct (IH F') as (A & B). cbn [map flat_map comma_before app]. split; [|discriminate].
    split; [apply NQ|]. split; [exact I|]. split; [exact (conj (proj1 X) (conj (proj1 (proj2 X)) (proj1 (proj2 (proj2 X)))))|]. split; [exact B | exact A]. }
  assert (RH : forall x t, In "#" (piece_text (Raw x) ++ t) -> In "#" x \/ In "#" t).
  { intros x t J. cbn [piece_text] in J. rewrite <- !app_assoc in J. apply in_app_or in J. destruct J as [J|J]; [destruct J as [J|[]]; discriminate J|].
    apply in_app_or in J. destruct J as [J|J]; [repeat (destruct J as [J|J]; [discriminate J|]); destruct J|]. apply in_app_or in J. destruct J as [J|J]; [left; exact J|].
    apply in_app_or in J. destruct J as [J|J]; [repeat (destruct J as [J|J]; [discriminate J|]); destruct J|]. destruct J as [J|J]; [discriminate J | right; exact J]. }
  assert (NH : forall l, Forall (fun x => x <> [] /\ ~ In QUOTE x /\ ~ In "010" x /\ ~ In "#" x) l -> ~ In "#" (document (flat_map comma_before (map Raw l) ++ [Other $"]"]))).
  { clear l F. induction l as [|x l IH]; intros F J; [destruct J as [J|[]]; discriminate J|]. inversion F as [|? ? X F']; subst. cbn [map flat_map comma_before app] in J.
    change (In "#" ($"," ++ piece_text (Raw x) ++ document (flat_map comma_before (map Raw l) ++ [Other $"]"]))) in J. apply in_app_or in J. destruct J as [[J|[]]|J]; [discriminate J|]. apply RH in J. destruct J as [J|J]; [apply X; exact J | exact (IH F' J)]. }
  rewrite substituted_document.
  - f_equal. unfold shown, list_document. destruct l as [|x l]; [reflexivity|]. cbn [map flat_map app piece_shown join]. f_equal. clear. revert x. induction l as [|y l IH]; intros x; [cbn [map join flat_map app piece_shown]; rewrite !app_nil_r; reflexivity|].
    cbn [map flat_map app comma_before piece_shown]. rewrite IH. cbn [map join]. rewrite <- !app_assoc. reflexivity.
  - unfold list_document. destruct l as [|x l]; [split; [apply NQ|]; split; [exact I|]; split; [apply NQ | split; exact I]|]. inversion F as [|? ? X F']; subst. destruct (OK l F') as (A & B). cbn [map]. split; [apply NQ|]. split; [exact I|].
    split; [exact (conj (proj1 X) (conj (proj1 (proj2 X)) (proj1 (proj2 (proj2 X)))))|]. split; [exact B | exact A].
  - intros u v E. assert (J : In "#" (document (list_document l))) by (rewrite E; apply in_or_app; right; left; reflexivity). revert J. unfold list_document. destruct l as [|x l]; [intros [J|[J|[]]]; discriminate J|]. inversion F as [|? ? X F']; subst.
    intros J. change (In "#" ($"[" ++ piece_text (Raw x) ++ document (flat_map comma_before (map Raw l) ++ [Other $"]"]))) in J. apply in_app_or in J. destruct J as [[J|[]]|J]; [discriminate J|]. apply RH in J. destruct J as [J|J]; [apply X; exact J | exact (NH l F' J)].
Qed.
Print Assumptions C92_list.
Example C92_list_example : document (list_document [$"a"; $"b c"]) = $"[""!Q!a!Q!"",""!Q!b c!Q!""]" /\ substituted (fun _ => false) [] [] $"[""!Q!a!Q!"",""!Q!b c!Q!""]" = Ok $"[a,""b c""]".
Proof. split; vm_compute; reflexivity. Qed.
(** "Print the arguments outside of their enclosing quotes" (template/extra_utils.go:110-111): not when there is white
    space in them, and an empty text takes the next one and the marks with it. *)
Theorem C92_quotes_refuted : exists beyond l, l <> [] /\ Forall (fun x => ~ In QUOTE x) l /\
  substituted beyond [] [] (document (list_document l)) <> Ok ($"[" ++ join $"," l ++ $"]") /\ substituted beyond [] [] (document (list_document l)) = Ok $"[""a b""]".
Proof. exists (fun _ => false), [$"a b"]. split; [discriminate|]. split; [repeat constructor; intros J; repeat (destruct J as [J|J]; [discriminate J|]); exact J|]. split; [vm_compute; discriminate | vm_compute; reflexivity]. Qed.
Print Assumptions C92_quotes_refuted.
Theorem C92_empty_refuted : exists beyond l, Forall (fun x => ~ In QUOTE x /\ existsb white_char x = false) l /\
  substituted beyond [] [] (document (list_document l)) = Ok $"[!Q!"",""!Q!b]".
Proof. exists (fun _ => false), [[]; $"b"]. split; [repeat constructor; intros J; repeat (destruct J as [J|J]; [discriminate J|]); exact J | vm_compute; reflexivity]. Qed.
Print Assumptions C92_empty_refuted.
(** A newline at the end of GOTEMPLATE_SUBSTITUTES: NewTemplate fails. *)
Theorem C92_environment_refuted : exists beyond env, (exists c, compile beyond $"a" = Some c) /\ env = $"/a/b" ++ ["010"] /\ template_substitutes beyond $"/a/b" [] <> Panic $"Bad replacer" /\ template_substitutes beyond env [] = Panic $"Bad replacer".
Proof. exists (fun _ => false), ($"/a/b" ++ ["010"]). split; [eexists; vm_compute; reflexivity|]. split; [reflexivity|]. split; [vm_compute; discriminate | vm_compute; reflexivity]. Qed.
Print Assumptions C92_environment_refuted.
