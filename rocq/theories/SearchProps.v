(** C55: the search of files. *)
From Coq Require Import String Ascii List ZArith NArith Bool Sorting.Sorted.
From Verif Require Import GoStr PathModel PathSpec SearchModel SearchSpec SearchProofs.
Import ListNotations.

(** Without links, the results are the matches of the folder (as it was given) and of all its sub-folders
    down to the maximum depth, in walk order, up to the first sub-folder for which Glob fails. *)
Theorem C55_search : forall fuel cwd root glob folder max follow patterns w top,
  absolute cwd -> sound_fs root -> leads (walk [] cwd) folder w -> matches glob patterns folder top -> (follow = false \/ no_links root w) ->
  exists ds good bad rss, sub_folders root w max ds /\ ds = good ++ bad /\
    Forall2 (fun d r => matches glob patterns (path_of d) r) good rss /\
    (bad = [] \/ exists d bad', bad = d :: bad' /\ forall r, ~ matches glob patterns (path_of d) r) /\
    find_files_max_depth (S fuel) cwd root glob folder max follow patterns = Found (top ++ concat rss).
Proof. exact search_exact. Qed.
Print Assumptions C55_search.
(** All of them if Glob never fails. *)
Theorem C55_complete : forall fuel cwd root glob folder max follow patterns w top,
  absolute cwd -> sound_fs root -> leads (walk [] cwd) folder w -> matches glob patterns folder top -> (follow = false \/ no_links root w) ->
  (forall d, sub_folder root w max d -> exists r, matches glob patterns (path_of d) r) ->
  exists ds rss, sub_folders root w max ds /\ Forall2 (fun d r => matches glob patterns (path_of d) r) ds rss /\
    find_files_max_depth (S fuel) cwd root glob folder max follow patterns = Found (top ++ concat rss).
Proof. exact search_complete. Qed.
Print Assumptions C55_complete.
(** A malformed pattern panics. *)
Theorem C55_panics : forall fuel cwd root glob folder max follow patterns, (forall r, ~ matches glob patterns folder r) ->
  find_files_max_depth (S fuel) cwd root glob folder max follow patterns = Panicked.
Proof. exact search_panics. Qed.
Print Assumptions C55_panics.
(** FindFiles: with the option recursive, down to 65536 levels; otherwise in the folder itself only. *)
Theorem C55_recursive : forall fuel cwd root glob folder follow patterns w top,
  absolute cwd -> sound_fs root -> leads (walk [] cwd) folder w -> matches glob patterns folder top -> (follow = false \/ no_links root w) ->
  (forall d, sub_folder root w 65536 d -> exists r, matches glob patterns (path_of d) r) ->
  exists ds rss, StronglySorted walk_before ds /\
    (forall d, In d ds <-> exists x es, d = x ++ w /\ x <> [] /\ (List.length x <= Nat.pow 2 16)%nat /\ at_place root d (Dir es)) /\
    Forall2 (fun d r => matches glob patterns (path_of d) r) ds rss /\
    find_files_in (S fuel) cwd root glob folder true follow patterns = Found (top ++ concat rss).
Proof.
  intros fuel cwd root glob folder follow patterns w top A S L M F H.
  destruct (search_complete fuel cwd root glob folder 65536 follow patterns w top A S L M F H) as (ds & rss & [SO IN] & F2 & E).
  exists ds, rss. split; [exact SO|]. split; [|split; [exact F2 | exact E]].
  intros d. rewrite IN. unfold sub_folder.
  assert (Q : forall n : nat, (Z.of_nat n <= 65536)%Z <-> (n <= Nat.pow 2 16)%nat).
  { intros n. assert (P : Z.of_nat (Nat.pow 2 16) = 65536%Z) by (rewrite Nat2Z.inj_pow; reflexivity). rewrite <- P. symmetry. apply Nat2Z.inj_le. }
  split; intros (x & es & D & X & LE & AP); exists x, es; (split; [exact D|]); (split; [exact X|]); (split; [apply Q; exact LE | exact AP]).
Qed.
Print Assumptions C55_recursive.
Theorem C55_flat : forall fuel cwd root glob folder follow patterns top, matches glob patterns folder top ->
  find_files_in (S fuel) cwd root glob folder false follow patterns = Found top.
Proof.
  intros fuel cwd root glob folder follow patterns top M. unfold find_files_in, find_files_max_depth. cbn [walker]. apply find_matches in M. rewrite M. reflexivity.
Qed.
Print Assumptions C55_flat.
(** With or without links, nothing else is found. *)
Theorem C55_sound : forall fuel cwd root glob folder max follow patterns w rs,
  absolute cwd -> sound_fs root -> leads (walk [] cwd) folder w -> find_files_max_depth fuel cwd root glob folder max follow patterns = Found rs ->
  forall x, In x rs -> (exists top, matches glob patterns folder top /\ In x top) \/ exists d r, reach root w d /\ matches glob patterns (path_of d) r /\ In x r.
Proof. exact search_sound. Qed.
Print Assumptions C55_sound.

Definition tree0 : node := Dir [($"etc", File); ($"t", Dir [($"a.txt", File); ($"far", Link $"/u"); ($"sub", Dir [($"b.txt", File); ($"deep", Dir [($"c.txt", File)]); ($"up", Link $"../../u")])]); ($"u", Dir [($"d.txt", File)])].
Definition glob0 (p : str) : option (list str) :=
  if str_eqb p $"t/*" then Some [$"t/a.txt"] else if str_eqb p $"/t/sub/*" then Some [$"/t/sub/b.txt"] else if str_eqb p $"/t/sub/deep/*" then Some [$"/t/sub/deep/c.txt"]
  else if str_eqb p $"/u/*" then Some [$"/u/d.txt"] else Some [].
(** The folder is given relative to the current one: the first results are relative too, the others are not. *)
Example C55_ex :
  find_files_in 5 $"/" tree0 glob0 $"t" true false [$"*"] = Found [$"t/a.txt"; $"/t/sub/b.txt"; $"/t/sub/deep/c.txt"] /\
  find_files_in 5 $"/" tree0 glob0 $"t" false true [$"*"] = Found [$"t/a.txt"] /\
  find_files_max_depth 5 $"/" tree0 glob0 $"t" 1 false [$"*"; $"*"] = Found [$"t/a.txt"; $"t/a.txt"; $"/t/sub/b.txt"; $"/t/sub/b.txt"] /\
  find_files_in 5 $"/" tree0 glob0 $"t" true true [$"*"] = Found [$"t/a.txt"; $"/u/d.txt"; $"/t/sub/b.txt"; $"/t/sub/deep/c.txt"; $"/u/d.txt"].
Proof. vm_compute. repeat split. Qed.

(** A link from a folder to itself makes the search of that folder run for ever. *)
Theorem C55_loop : forall cwd root glob folder max patterns w name text es,
  absolute cwd -> sound_fs root -> leads (walk [] cwd) folder w -> max <> 0%Z -> (forall p, glob p <> None) ->
  at_place root w (Dir es) -> In (name, Link text) es ->
  (forall x e text', at_place root (e :: x ++ w) (Link text') -> leads (x ++ w) text' w) ->
  forall fuel, find_files_max_depth fuel cwd root glob folder max true patterns = Forever.
Proof. exact search_loop. Qed.
Print Assumptions C55_loop.
Definition tree1 : node := Dir [($"t", Dir [($"a.txt", File); ($"here", Link $".")])].
Theorem C55_terminates_refuted : exists cwd root folder, forall fuel, find_files_in fuel cwd root (fun _ => Some []) folder true true [$"*"] = Forever.
Proof.
  exists $"/", tree1, $"t". intro fuel. unfold find_files_in. refine (search_loop _ _ _ _ _ _ [$"t"] $"here" $"." [($"a.txt", File); ($"here", Link $".")] _ _ _ _ _ _ _ _ fuel).
  - exists []. reflexivity.
  - assert (S1 : forall a b, str_leb a b = true -> a <> b -> str_lt a b) by (intros; split; assumption).
    intros w es A. assert (H : (w = [] /\ Dir es = tree1) \/ (w = [$"t"] /\ es = [($"a.txt", File); ($"here", Link $".")])).
    { inversion A as [X Y|w' es' n m A' I]; subst; [left; auto|right]. inversion A' as [X Y|w'' es'' n' m' A'' I']; subst.
      - destruct I as [I|[]]. inversion I; subst. auto.
      - exfalso. inversion A'' as [X Y|w3 es3 n3 m3 A3 I3]; subst.
        + destruct I' as [I'|[]]. inversion I'; subst. destruct I as [I|[I|[]]]; discriminate I.
        + inversion A3 as [X Y|w4 es4 n4 m4 A4 I4]; subst.
          * destruct I3 as [I3|[]]. inversion I3; subst. destruct I' as [I'|[I'|[]]]; discriminate I'.
          * exfalso. clear -A4 I4 I3. assert (Z : forall w es, at_place tree1 w (Dir es) -> w = [] \/ w = [$"t"]).
            { clear. induction w as [|e w IH]; intros es A; [auto|]. inversion A as [|? es' ? ? A' I]; subst. right. destruct (IH es' A') as [->| ->].
              - inversion A'; subst. destruct I as [I|[]]. inversion I; subst. reflexivity.
              - exfalso. inversion A' as [|? es'' ? ? A'' I']; subst. inversion A''; subst. destruct I' as [I'|[]]. inversion I'; subst. destruct I as [I|[I|[]]]; discriminate I. }
            pose proof (Z _ _ (At_entry _ _ _ _ _ A4 I4)) as [H|H]; [discriminate|]. inversion H; subst. inversion A4; subst. destruct I4 as [I4|[]]. inversion I4; subst. destruct I3 as [I3|[I3|[]]]; discriminate I3. }
    destruct H as [[-> E]|[-> ->]].
    + inversion E; subst. split; [repeat (apply Forall_cons || apply Forall_nil); repeat split; try discriminate; intros [X|[]]; discriminate X|repeat constructor].
    + split; [|repeat (apply SSorted_cons || apply SSorted_nil || apply Forall_cons || apply Forall_nil); apply S1; [reflexivity|discriminate]].
      repeat (apply Forall_cons || apply Forall_nil); (repeat split; try discriminate; cbn; intro X; repeat (destruct X as [X|X]; [discriminate X|]); exact X).
  - right. split; [intros (r & X); discriminate X|reflexivity].
  - discriminate.
  - discriminate.
  - change (at_place tree1 [$"t"] (Dir [($"a.txt", File); ($"here", Link $".")])). econstructor; [constructor|left; reflexivity].
  - right. left. reflexivity.
  - intros x e text A. assert (Z : forall w n, at_place tree1 w n -> w = [] \/ w = [$"t"] \/ w = [$"a.txt"; $"t"] \/ w = [$"here"; $"t"] /\ n = Link $".").
    { clear. induction w as [|e w IH]; intros n A; [auto|right]. inversion A as [|? es' ? ? A' I]; subst. destruct (IH _ A') as [->|[->|[->|[-> X]]]]; [| | |discriminate X].
      - inversion A'; subst. destruct I as [I|[]]. inversion I; subst. left. reflexivity.
      - inversion A' as [|? es'' ? ? A'' I']; subst. inversion A''; subst. destruct I' as [I'|[]]. inversion I'; subst. destruct I as [I|[I|[]]]; inversion I; subst; auto.
      - exfalso. inversion A' as [|? es'' ? ? A'' I']; subst. inversion A'' as [|? es3 ? ? A3 I3]; subst. inversion A3; subst. destruct I3 as [I3|[]]. inversion I3; subst. destruct I' as [I'|[I'|[]]]; inversion I'. }
    destruct (Z _ _ A) as [H|[H|[H|[H T]]]].
    + discriminate H.
    + inversion H as [[X Y]]. destruct x; discriminate Y.
    + assert (x = []) by (destruct x as [|a [|b x]]; [reflexivity|discriminate H|discriminate H]). subst x. exfalso. inversion H; subst. inversion A as [|? es' ? ? A' I]; subst.
      inversion A' as [|? es'' ? ? A'' I']; subst. inversion A''; subst. destruct I' as [I'|[]]. inversion I'; subst. destruct I as [I|[I|[]]]; inversion I.
    + assert (x = []) by (destruct x as [|a [|b x]]; [reflexivity|discriminate H|discriminate H]). subst x. inversion T; subst. right. split; [intros (r & X); discriminate X|reflexivity].
Qed.
Print Assumptions C55_terminates_refuted.

(** A sub-folder whose name is not a well-formed pattern ends the search without an error. *)
Theorem C55_all_found_refuted : exists cwd root glob folder ok,
  find_files_in 2 cwd root glob folder true false [$"*"] = Found [] /\ glob $"/t/a[b/*" = None /\ glob $"/t/c/*" = Some [ok] /\
  look root [$"t"; $"a[b"] = Some (Dir []) /\ look root [$"t"; $"c"; $"x"] = Some File.
Proof.
  exists $"/", (Dir [($"t", Dir [($"a[b", Dir []); ($"c", Dir [($"x", File)])])]), (fun p => if str_eqb p $"/t/a[b/*" then None else if str_eqb p $"/t/c/*" then Some [$"/t/c/x"] else Some []), $"t", $"/t/c/x".
  vm_compute. repeat split.
Qed.
Print Assumptions C55_all_found_refuted.
