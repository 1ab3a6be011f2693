(** C52: multi-line strings survive razor processing. *)
From Coq Require Import String Ascii List ZArith NArith Bool.
From Verif Require Import GoStr RazorWordsSpec LongStringModel LongStringSpec LongStringProofs.
Import ListNotations.

(** In a document that does not use the form of the placeholders, every raw string of several lines is put
    aside, in order, behind the strings of earlier documents; none is left in the text. *)
Theorem C52_aside : forall L s, ~ occurs $"`_=LONG_STRING=" s ->
  exists m strings, protect_long L s = Ok (L ++ strings, shown (List.length L) m) /\ filled strings m = s /\
    holes m = seq 0 (List.length strings) /\ Forall multi_line strings /\ ~ has_multi_line (shown (List.length L) m).
Proof. exact @put_aside. Qed.
Print Assumptions C52_aside.
(** Whatever is done to the text around the placeholders, even if they change places or some of them are
    dropped, each comes back as its string, and the strings of earlier documents are left alone. *)
Theorem C52_back : forall L strings m, clean m -> NoDup (holes m) -> (forall i, In i (holes m) -> i < List.length strings) ->
  (Z.of_nat (List.length (L ++ strings)) <= 2 ^ 63)%Z ->
  exists L', restore_long (L ++ strings) (shown (List.length L) m) = Ok (L', filled strings m) /\
             List.length L' = List.length (L ++ strings) /\ firstn (List.length L) L' = L.
Proof. exact @put_back. Qed.
Print Assumptions C52_back.
(** With nothing in between, a document is unchanged, code fences included, unless a string put aside
    holds a fence. *)
Theorem C52_document : forall L s L1 t, ~ occurs $"`_=LONG_STRING=" s -> ~ occurs $"_=!TRIPLE_BT!=" s -> open_document L s = Ok (L1, t) ->
  (forall l, In l (skipn (List.length L) L1) -> ~ occurs $"_=!TRIPLE_BT!=_" l) -> (Z.of_nat (List.length L1) <= 2 ^ 63)%Z ->
  exists L2, close_document L1 t = Ok (L2, s) /\ firstn (List.length L) L2 = L.
Proof. exact @document. Qed.
Print Assumptions C52_document.
(** Documents processed at the same time: when no call is interrupted by another one, each gets its own
    strings back, in whatever order the calls are made. *)
Theorem C52_together : forall L (docs : list (list piece)) schedule k d out, nth_error docs k = Some d ->
  nth_error (snd (run_jobs job_call schedule L (map new_job docs))) k = Some (Finished out) ->
  out = concat (map (fun x => match x with Text t => t | Long l => l end) d).
Proof. exact @together. Qed.
Print Assumptions C52_together.
Theorem C52_no_crash : forall L (docs : list (list piece)) schedule, ~ In Crashed (snd (run_jobs job_call schedule L (map new_job docs))).
Proof. exact @no_crash. Qed.
Print Assumptions C52_no_crash.

Definition nl : str := ["010"%char].
Definition sample : str := $"a `x" ++ nl ++ $"@y` b `c` ```" ++ nl ++ $"d``` `" ++ nl ++ $"` e`" ++ nl.
Example C52_sample :
  open_document [$"old"] sample = Ok ([$"old"; $"`x" ++ nl ++ $"@y`"; $"`" ++ nl ++ $"`"],
    $"a `_=LONG_STRING=1` b `c` _=!TRIPLE_BT!=_" ++ nl ++ $"d_=!TRIPLE_BT!=_ `_=LONG_STRING=2` e`" ++ nl) /\
  close_document [$"old"; $"`x" ++ nl ++ $"@y`"; $"`" ++ nl ++ $"`"]
    ($"a `_=LONG_STRING=1` b `c` _=!TRIPLE_BT!=_" ++ nl ++ $"d_=!TRIPLE_BT!=_ `_=LONG_STRING=2` e`" ++ nl) = Ok ([$"old"; []; []], sample).
Proof. vm_compute. split; reflexivity. Qed.

(** A fence after a single backtick is put aside with the text around it, and its replacement stays in the
    document. *)
Theorem C52_fence_refuted : exists s L t, open_document [] s = Ok (L, t) /\
  s = $"a`b" ++ nl ++ $"```" ++ nl ++ $"c`d" /\ close_document L t = Ok ([[]], $"a`b" ++ nl ++ $"_=!TRIPLE_BT!=_" ++ nl ++ $"c`d").
Proof. exists ($"a`b" ++ nl ++ $"```" ++ nl ++ $"c`d"). eexists. eexists. split; [vm_compute; reflexivity|]. split; vm_compute; reflexivity. Qed.
Print Assumptions C52_fence_refuted.
(** A raw string that starts like a placeholder stops the program. *)
Theorem C52_form_refuted : exists s m, open_document [] s = Panic m.
Proof. exists $"`_=LONG_STRING=`". eexists. vm_compute. reflexivity. Qed.
Print Assumptions C52_form_refuted.
(** A placeholder that was copied comes back once. *)
Theorem C52_copy_refuted : exists l m t, multi_line l /\ clean m /\ filled [l] m = l ++ l /\ restore_long [l] (shown 0 m) = Ok ([[]], t) /\ t = l.
Proof.
  exists ($"`" ++ nl ++ $"`"), [Hol 0; Hol 0]. eexists. split; [exists nl; vm_compute; intuition discriminate|].
  split; [| split; [reflexivity | split; [vm_compute; reflexivity | reflexivity]]].
  intros [|x [|y a]] b E; try discriminate E. cbn in E. inversion E; subst. destruct a; discriminate.
Qed.
Print Assumptions C52_copy_refuted.
(** Two calls at the same time: between the append and the reading of the length another string comes in,
    and the string of one document ends up in the other one. *)
Theorem C52_race_refuted : exists schedule d1 d2,
  snd (run_jobs job_step schedule [] [new_job [Long d1]; new_job [Long d2]]) = [Finished d2; Finished []] /\ d1 <> d2 /\ d2 <> [].
Proof. exists [0; 1; 0; 1; 0; 1; 0; 1; 0; 1; 0; 1], $"`1`", $"`2`". vm_compute. repeat split; discriminate. Qed.
Print Assumptions C52_race_refuted.
(** The same two documents, call by call. *)
Example C52_calls : run_jobs job_call [0; 1; 1; 0; 0; 1; 1; 0; 1; 0; 1; 0] [$"x"] [new_job [Text $"a"; Long $"`1`"]; new_job [Long $"`2`"; Text $"b"]] =
  ([$"x"; []; []], [Finished $"a`1`"; Finished $"`2`b"]).
Proof. vm_compute. reflexivity. Qed.
