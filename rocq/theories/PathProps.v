(** C64: paths, and the place of result files. *)
From Coq Require Import String Ascii List ZArith NArith Bool.
From Verif Require Import GoStr PathModel PathSpec PathProofs.
Import ListNotations.

(** A cleaned path leads to the same place, from everywhere ... *)
Theorem C64_clean : forall here p w, leads here (clean p) w <-> leads here p w.
Proof. exact clean_leads. Qed.
Print Assumptions C64_clean.
(** ... and cleaned absolute paths are the same when they lead to the same place. *)
Theorem C64_clean_unique : forall p q, absolute p -> absolute q -> (clean p = clean q <-> walk [] p = walk [] q).
Proof. exact clean_unique. Qed.
Print Assumptions C64_clean_unique.

Theorem C64_join : forall here a b w, a <> [] -> leads here a w -> leads here (join2 a b) (walk w b).
Proof. exact join2_leads. Qed.
Print Assumptions C64_join.

(** A relative path leads from the base to the target, without going up if the target is below the base. *)
Theorem C64_rel : forall base targ, absolute base -> absolute targ ->
  exists r, rel base targ = Ok r /\ ~ absolute r /\ walk (walk [] base) r = walk [] targ /\
            (forall d, walk [] targ = d ++ walk [] base -> ~ In $".." (split $"/" r) /\ forall w, walk w r = d ++ w).
Proof. exact rel_abs. Qed.
Print Assumptions C64_rel.

(** The result of a file given by a relative path is at the same place in the target folder ... *)
Theorem C64_target_relative : forall here src tgt f wt, ~ absolute f -> tgt <> [] -> leads here tgt wt ->
  exists r, get_target_file f src tgt = Ok r /\ leads here r (walk wt f).
Proof. exact target_relative. Qed.
Print Assumptions C64_target_relative.
(** ... and that of a file given by an absolute path is at the same place relatively to the source folder. *)
Theorem C64_target_absolute : forall src tgt f, absolute f -> absolute src -> absolute tgt ->
  exists r t, get_target_file f src tgt = Ok r /\ absolute r /\ walk [] r = walk (walk [] tgt) t /\ walk (walk [] src) t = walk [] f /\
    (forall d, walk [] f = d ++ walk [] src -> walk [] r = d ++ walk [] tgt).
Proof. exact target_absolute. Qed.
Print Assumptions C64_target_absolute.
(** With a source folder given by a relative path there is none: the program stops. *)
Theorem C64_target_unrelated : forall src tgt f, absolute f -> ~ absolute src -> tgt <> [] -> exists e, get_target_file f src tgt = Panic e.
Proof. exact target_unrelated. Qed.
Print Assumptions C64_target_unrelated.
(** Without a target folder a file is its own result. *)
Theorem C64_target_none : forall src f, get_target_file f src [] = Ok f.
Proof. exact target_none. Qed.
Print Assumptions C64_target_none.
Theorem C64_target_same : forall src f, absolute f -> absolute src -> get_target_file f src src = Ok (clean f).
Proof. exact target_same. Qed.
Print Assumptions C64_target_same.
(** Different files of the source folder have different results ... *)
Theorem C64_injective : forall src tgt f g, absolute f -> absolute g -> absolute src -> absolute tgt ->
  below (walk [] src) (walk [] f) -> below (walk [] src) (walk [] g) ->
  get_target_file f src tgt = get_target_file g src tgt -> clean f = clean g.
Proof. exact target_inj. Qed.
Print Assumptions C64_injective.
(** ... but files outside of it may not. *)
Theorem C64_injective_refuted : exists src tgt f g, absolute f /\ absolute g /\ absolute src /\ absolute tgt /\
  get_target_file f src tgt = get_target_file g src tgt /\ clean f <> clean g.
Proof.
  exists $"/a/b", $"/c", $"/x", $"/a/x". do 4 (split; [eexists; reflexivity|]). split; [vm_compute; reflexivity|vm_compute; discriminate].
Qed.
Print Assumptions C64_injective_refuted.

Example C64_example :
  clean $"/a//b/../c/./d/" = $"/a/c/d" /\ clean $"../x/../../y" = $"../../y" /\ clean $"/../a" = $"/a" /\ clean $"" = $"." /\ clean $"a/.." = $"." /\
  rel $"/w/src" $"/w/src/x/y.gt" = Ok $"x/y.gt" /\ rel $"/w/src" $"/w/other/y" = Ok $"../other/y" /\ rel $"/w/src/" $"/w/src" = Ok $"." /\
  rel $"a" $"/a" = Err $"Rel: can't make relative" /\
  get_target_file $"x/y" $"/w/src" $"/w/out" = Ok $"/w/out/x/y" /\ get_target_file $"/w/src/x/y" $"/w/src" $"/w/out" = Ok $"/w/out/x/y" /\
  get_target_file $"x/y" $"/w/src" $"" = Ok $"x/y" /\
  walk [] $"/a/b/../c" = [$"c"; $"a"].
Proof. vm_compute. repeat split. Qed.
