(** C86: calls with an expanded last argument.  C87: what they return instead of the result.  C88: texts read as data. *)
From Coq Require Import String Ascii List ZArith NArith Bool.
From Verif Require Import GoStr GoStrFacts ValueModel TextModel TextSpec EllModel EllSpec EllProofs.
Import ListNotations.

(** ** C86 *)

(** The function is called once, with the arguments and the elements of the last one, in order; the text it prints is
    read as data, and the error is shortened. *)
Theorem C86_call : forall {R : Runner} {E : Env} function g, applies function g -> forall s init last l, list_of last l ->
  let (s1, out) := g s (init ++ l) in
  let (s2, r) := ellipsis s function (init ++ [last]) in
  (exists v e, r = Ok (v, e) /\ taken s1 (fst out) s2 v /\ match snd out, e with None, None => True | Some m, Some m' => shortened m m' | _, _ => False end) \/
  ((exists m, r = Panic m) /\ data_of s1 (fst out) s2 VNil).
Proof. intros R E. exact ellipsis_call. Qed.
Print Assumptions C86_call.

(** Without a list at the end nothing is called. *)
Theorem C86_error : forall {R : Runner} {E : Env} s function args, (forall init last l, args = init ++ [last] -> ~ list_of last l) ->
  ellipsis s function args = (s, Ok (VNil, Some $"the last argument must be a slice")).
Proof. intros R E. exact ellipsis_error. Qed.
Print Assumptions C86_error.

(** ** An engine that knows two functions *)

Fixpoint words (s cur : str) : list str :=
  let flush rest := match cur with [] => rest | _ => cur :: rest end in
  match s with
  | [] => flush []
  | c :: r => if Ascii.eqb c " " then flush (words r []) else words r (cur ++ [c])
  end.
Fixpoint lookup (ctx : list (str * value)) (n : str) : value :=
  match ctx with [] => VNil | (k, v) :: r => if str_eqb k n then v else lookup r n end.
Definition toy (read : str -> option value) (show : value -> str) : Runner :=
  {| state := nat;
     run_text := fun s t ctx =>
       match words t [] with
       | b :: f :: rest =>
           if str_eqb b $"{{" then
             if str_eqb f $"print" then (s, (List.concat (map (fun w => show (lookup match ctx with Some c => c | None => [] end (tl w))) (removelast rest)), None))
             else if str_eqb f $"count" then (S s, ([], None))
             else (s, ([], Some ($"template: inline:1: executing <" ++ f ++ $">: no function")))
           else (s, (t, None))
       | _ => (s, (t, None))
       end;
     as_data := read; data_error := fun _ => $"no data";
     left_delim := $"{{"; right_delim := $"}}" |}.

Lemma words_word w r cur : ~ In " "%char w -> words (w ++ r) cur = words r (cur ++ w).
Proof.
  revert cur. induction w as [|c w IH]; intros cur H; [rewrite app_nil_r; reflexivity|]. cbn [app words]. destruct (Ascii.eqb c " ") eqn:C.
  - apply Ascii.eqb_eq in C. subst. exfalso. apply H. left. reflexivity.
  - rewrite IH by (intro I; apply H; right; exact I). rewrite <- app_assoc. reflexivity.
Qed.
Lemma words_blank b r cur : Forall (fun c => c = " "%char) b -> b <> [] -> words (b ++ r) cur = match cur with [] => words r [] | _ => cur :: words r [] end.
Proof.
  revert cur. induction b as [|c b IH]; intros cur F N; [congruence|]. inversion F as [|? ? F1 F2]; subst. cbn [app words]. change (Ascii.eqb " " " ") with true. cbv iota.
  destruct b as [|d b]; [reflexivity|]. rewrite (IH [] F2) by discriminate. reflexivity.
Qed.
Lemma name_no_blank n : a_name n -> ~ In " "%char n.
Proof.
  intros (c & r & -> & L & F) [I|I]; [subst c; destruct L as [[A B]|[A B]]; vm_compute in A; apply A; reflexivity|].
  rewrite Forall_forall in F. destruct (F _ I) as [[[A B]|[A B]]|[A B]]; vm_compute in A; apply A; reflexivity.
Qed.
Lemma words_names names tail cur : Forall a_name names -> tail <> [] -> Forall (fun c => c = " "%char) tail -> cur <> [] -> forall r,
  words (flat_map (fun n => $" ." ++ n) names ++ tail ++ r) cur = cur :: map (fun n => $"." ++ n) names ++ words r [].
Proof.
  intros F T B N r. revert cur N. induction F as [|n names A F IH]; intros cur N.
  - cbn [flat_map app map]. rewrite words_blank by assumption. destruct cur; [congruence|reflexivity].
  - cbn [flat_map map]. rewrite <- app_assoc. change (($" ." ++ n) ++ flat_map (fun n0 => $" ." ++ n0) names ++ tail ++ r) with ($" " ++ ($"." ++ n) ++ flat_map (fun n0 => $" ." ++ n0) names ++ tail ++ r).
    rewrite words_blank by (repeat constructor || discriminate). destruct cur as [|c cur]; [congruence|]. f_equal.
    rewrite words_word.
    + rewrite IH by discriminate. reflexivity.
    + intros [I|I]; [discriminate I|]. apply (name_no_blank n A I).
Qed.
Lemma lookup_in ctx n v : NoDup (map fst ctx) -> In (n, v) ctx -> lookup ctx n = v.
Proof.
  induction ctx as [|(k, x) ctx IH]; intros D I; [destruct I|]. cbn [lookup]. inversion D as [|? ? D1 D2]; subst. destruct I as [Q|I].
  - inversion Q; subst. rewrite str_eqb_refl. reflexivity.
  - destruct (str_eqb k n) eqn:X; [|apply IH; assumption]. apply str_eqb_eq in X. subst k. exfalso. apply D1. apply in_map_iff. exists (n, v). split; [reflexivity|exact I].
Qed.
Lemma toy_prints (E : Env) read show : @applies (toy read show) $"print" (fun s vals => (s, (List.concat (map show vals), None))).
Proof.
  intros s names vals ctx t F (D & M) (b & N & B & ->). cbn [run_text toy left_delim right_delim].
  replace (words ($"{{" ++ $" " ++ $"print" ++ flat_map (fun n => $" ." ++ n) names ++ b ++ $"}}") []) with ($"{{" :: $"print" :: map (fun n => $"." ++ n) names ++ [$"}}"]).
  - rewrite removelast_last. cbn [str_eqb]. change (str_eqb $"{{" $"{{") with true. change (str_eqb $"print" $"print") with true. cbv iota.
    rewrite map_map. replace (map (fun x => show (lookup ctx (tl ($"." ++ x)))) names) with (map show vals); [reflexivity|].
    induction M as [|n v names vals I M IH]; [reflexivity|]. inversion F as [|? ? F1 F2]; subst. cbn [map]. rewrite (IH F2). f_equal. f_equal. symmetry. exact (lookup_in ctx n v D I).
  - symmetry. rewrite words_word by (intros [I|[I|[]]]; discriminate I). rewrite words_blank by (repeat constructor || discriminate).
    change ([] ++ $"{{") with $"{{". change (match $"{{" with [] => ?x | _ => ?y end) with y.
    f_equal. rewrite words_word by (intros [I|[I|[I|[I|[I|[]]]]]]; discriminate I). rewrite words_names by (assumption || discriminate). reflexivity.
Qed.

(** Digits are read as numbers, [null] as nil. *)
Definition digits_only (t : str) : bool := match t with [] => false | _ => forallb (fun c => N.leb 48 (N_of_ascii c) && N.leb (N_of_ascii c) 57) t end.
Definition read0 (t : str) : option value :=
  if str_eqb t $"null" then Some VNil
  else if digits_only t then Some (vint (fold_left (fun n c => n * 10 + (Z.of_N (N_of_ascii c) - 48))%Z t 0%Z))
  else if contains $"=" t then None else Some (vstr t).
Definition show0 (v : value) : str := match v with VScal (SStr _ s) => s | VScal (SInt _ z) => itoa z | _ => $"?" end.
#[local] Instance env0 : Env := {| fmtx := fun _ => $"?"; dflt := Base |}.
#[local] Instance toy0 : Runner := toy read0 show0.

Example C86_example :
  ellipsis (0 : state) $"print" [vstr $"a"; VList Base [vstr $"b="; vint 3]] = (0, Ok (vstr $"ab=3", None)) /\
  ellipsis (0 : state) $"print" [vstr $"ab"; VNil] = (0, Ok (vstr $"ab", None)) /\
  ellipsis (0 : state) $"print" [VSlice 3 [vint 1; vint 2; vint 3; vint 4; vint 5; vint 6; vint 7; vint 8; vint 9; vint 10; vint 11]] = (0, Ok (vint 1234567891011, None)) /\
  ellipsis (0 : state) $"none" [VList Base []] = (0, Ok (vstr [], Some $"no function")) /\
  ellipsis (0 : state) $"print" [vint 1; vstr $"a"] = (0, Ok (VNil, Some $"the last argument must be a slice")) /\
  ellipsis (0 : state) $"print" [] = (0, Ok (VNil, Some $"the last argument must be a slice")).
Proof. vm_compute. repeat split. Qed.

(** ** C87: "It's like calling function(arg1, arg2, otherArgs...)" *)

(** A text may come back as a number: 007 as 7. *)
Theorem C87_type_refuted : exists (R : Runner) (E : Env) g (s : state), applies $"print" g /\ g s [vstr $"007"] = (s, ($"007", None)) /\
  ellipsis s $"print" [VList Base [vstr $"007"]] = (s, Ok (vint 7, None)).
Proof. exists toy0, env0. eexists. exists 0. split; [apply toy_prints; exact env0|]. vm_compute. split; reflexivity. Qed.
Print Assumptions C87_type_refuted.

(** The code in a result is run. *)
Theorem C87_code_refuted : exists (R : Runner) (E : Env) g (s s' : state), applies $"print" g /\ s <> s' /\ g s [vstr $"{{ count }}"] = (s, ($"{{ count }}", None)) /\
  fst (ellipsis s $"print" [VList Base [vstr $"{{ count }}"]]) = s'.
Proof. exists toy0, env0. eexists. exists 0, 1. split; [apply toy_prints; exact env0|]. split; [discriminate|]. vm_compute. split; reflexivity. Qed.
Print Assumptions C87_code_refuted.

(** A result that reads as nil is a panic, for all engines. *)
Theorem C87_nil : forall {R : Runner} {E : Env} function g, applies function g -> forall s init last l s1 text err s2, list_of last l ->
  g s (init ++ l) = (s1, (text, err)) -> data_of s1 text s2 VNil -> exists m, ellipsis s function (init ++ [last]) = (s2, Panic m).
Proof. intros R E. exact ellipsis_nil. Qed.
Print Assumptions C87_nil.
Theorem C87_nil_refuted : exists (R : Runner) (E : Env) g (s : state) m, applies $"print" g /\ g s [vstr $"null"] = (s, ($"null", None)) /\
  ellipsis s $"print" [VList Base [vstr $"null"]] = (s, Panic m).
Proof. exists toy0, env0. eexists. exists 0. eexists. split; [apply toy_prints; exact env0|]. vm_compute. split; reflexivity. Qed.
Print Assumptions C87_nil_refuted.

(** ** C88 *)

(** The function data: a value is printed, run as a template and decoded; the error shows the lines with their numbers. *)
Theorem C88_data : forall {R : Runner} {E : Env} s,
  data_function s VNil = (s, Ok VNil) /\
  forall v, v <> VNil -> (forall t, v <> VScal (SStr true t)) ->
  let '(s1, (content, err)) := run_text s (sprint v) None in
  let (s2, r) := data_function s v in
  s2 = s1 /\
  match err with
  | Some e => r = Err e
  | None => (forall d, as_data content = Some d -> r = Ok d) /\
            (as_data content = None -> exists lines text, pieces_nl content lines /\ numbered 1 lines text /\ r = Err ([NL] ++ text ++ [NL] ++ data_error content))
  end.
Proof. intros R E. exact data_ok. Qed.
Print Assumptions C88_data.

(** A text of the package (of type String) is no text for data: it panics. *)
Theorem C88_string_refuted : forall {R : Runner} {E : Env} s t, exists m, data_function s (VScal (SStr true t)) = (s, Panic m).
Proof. intros. eexists. reflexivity. Qed.
Print Assumptions C88_string_refuted.

Example C88_example :
  data_function (0 : state) (vstr $"12") = (0, Ok (vint 12)) /\
  data_function (0 : state) (vstr ($"a=1" ++ [NL] ++ $"b")) = (0, Err ([NL] ++ $"   1 a=1" ++ [NL] ++ $"   2 b" ++ [NL; NL] ++ $"no data")) /\
  data_function (0 : state) (vstr $"{{ none }}") = (0, Err $"template: inline:1: executing <none>: no function") /\
  data_function (0 : state) (vint 5) = (0, Ok (vint 5)).
Proof. vm_compute. repeat split. Qed.
