(** C95, C96: files saved, loaded and tested from templates. *)
From Coq Require Import String Ascii List ZArith NArith Bool.
From Verif Require Import GoStr ValueModel PathSpec FsModel FsSpec FsProofs FsProofs2 ExampleEnv.
Import ListNotations.

(** ** C95: save and load *)
(** In a folder where the user can write: the file has the bytes, or the text, of the object; nothing else changes; an
    existing file keeps its owner and its mode, a new one has mode rw-r--r-- without the bits of the umask. *)
Theorem C95_save : forall {V : Env} here user umask f name e v s w, ends_with name e -> leads here name w -> saved_as v s -> open_folder user f (List.tl w) ->
  (f w = None \/ exists x, f w = Some x /\ n_dir x = false /\ may user 1 x) ->
  exists f' x, save here user umask f name v = (f', None) /\ same_but (eq w) f f' /\ f' w = Some x /\ n_dir x = false /\ n_bytes x = s /\
    (forall y, f w = Some y -> n_mode x = n_mode y /\ n_owner x = n_owner y) /\ (f w = None -> n_mode x = N.ldiff 420 umask /\ n_owner x = user).
Proof. intros V here user umask f name e v s w. exact (save_there here user umask f name e v s w). Qed.
Print Assumptions C95_save.
(** A missing folder is made, when the one above is there. *)
Theorem C95_folder : forall {V : Env} here user umask f name e v s w, ends_with name e -> leads here name w -> saved_as v s -> f w = None -> f (List.tl w) = None -> open_folder user f (List.tl (List.tl w)) ->
  user = 0%N \/ N.testbit umask 6 = false /\ N.testbit umask 7 = false ->
  exists f', save here user umask f name v = (f', None) /\ same_but (fun u => u = w \/ u = List.tl w) f f' /\
    f' (List.tl w) = Some (Entry true [] (N.ldiff 511 umask) user) /\ f' w = Some (Entry false s (N.ldiff 420 umask) user).
Proof. intros V here user umask f name e v s w. exact (save_folder here user umask f name e v s w). Qed.
Print Assumptions C95_folder.
(** Otherwise nothing is written. *)
Theorem C95_missing : forall {V : Env} here user umask f name e v w, ends_with name e -> leads here name w -> List.tl w <> [] ->
  reachable user f (List.tl (List.tl w)) -> f (List.tl (List.tl w)) = None -> save here user umask f name v = (f, Some NotExist).
Proof. intros V here user umask f name e v w. exact (save_missing here user umask f name e v w). Qed.
Print Assumptions C95_missing.
(** Whatever the name is: what is saved is loaded again, as a text or as bytes, unless the user may write the file and
    not read it. *)
Theorem C95_load : forall {V : Env} here user umask f name v s f' w, saved_as v s -> leads here name w -> save here user umask f name v = (f', None) ->
  exists x, f' w = Some x /\ n_dir x = false /\
  (may user 2 x -> load here user f' name [] = LText s /\ load here user f' name [false] = LText s /\ load here user f' name [true] = LBytes s) /\
  (~ may user 2 x -> load here user f' name [] = LError Denied).
Proof.
  intros V here user umask f name v s f' w SA L H. apply follow_leads in L. subst w. destruct (save_load here user umask f name v s f' SA H) as (x & FX & DX & M & NM). exists x. split; [exact FX|]. split; [exact DX|]. unfold load. split; intros K.
  - rewrite (M K). repeat split; reflexivity.
  - rewrite (NM K). reflexivity.
Qed.
Print Assumptions C95_load.
(** A save that fails leaves a new folder at most. *)
Theorem C95_fails : forall {V : Env} here user umask f name v f' er e w, ends_with name e -> leads here name w -> save here user umask f name v = (f', Some er) ->
  same_but (eq (List.tl w)) f f' /\ (f' (List.tl w) <> f (List.tl w) -> f' (List.tl w) = Some (Entry true [] (N.ldiff 511 umask) user)).
Proof. intros V here user umask f name v f' er e w. exact (save_fails here user umask f name v f' er e w). Qed.
Print Assumptions C95_fails.

(** A file system: / and /tmp are open, /etc is not; /tmp/a is a file of user 7, /tmp/b can be read by everybody but
    its owner, user 7. *)
Definition fs0 : fs := fun w =>
  if spot_eqb w [] then Some (Entry true [] 493 0)
  else if spot_eqb w [$"tmp"] then Some (Entry true [] 511 0)
  else if spot_eqb w [$"etc"] then Some (Entry true [] 493 0)
  else if spot_eqb w [$"a"; $"tmp"] then Some (Entry false $"old" 384 7)
  else if spot_eqb w [$"b"; $"tmp"] then Some (Entry false $"text" 36 7)
  else None.
Definition byte (z : Z) : value := VScal (SInt KUint8 z).
Definition after (user : N) (name : str) (v : value) (names : list str) : list loaded * option fs_error :=
  let (f, e) := @save [$"tmp"] user 18 env0 fs0 name v in (map (fun n => load [$"tmp"] user f n []) names, e).
Example C95_example :
  after 7 $"a" (vstr $"new") [$"/tmp/a"; $"b"] = ([LText $"new"; LError Denied], None) /\
  after 7 $"x/y" (VList Json [byte 72; byte 105]) [$"/tmp/x/y"; $"../tmp/./x/y"] = ([LText $"Hi"; LText $"Hi"], None) /\
  after 7 $"x/y/z" (vstr $"new") [$"a"] = ([LText $"old"], Some NotExist) /\
  after 7 $"/etc/x" (vstr $"new") [$"/etc/x"] = ([LError NotExist], Some Denied) /\
  after 7 $"new/" (vstr $"new") [$"new"] = ([LError IsDir], Some IsDir).
Proof. vm_compute. repeat split. Qed.

(** "If the object is not an array of byte, then the object is converted to a string" (extra_os.go:92): nil is not. *)
Theorem C95_nil_refuted : exists (V : Env) here user umask f name f',
  sprint VNil = $"<nil>" /\ save here user umask f name VNil = (f', None) /\ load here user f' name [] = LText [].
Proof. exists env0, [$"tmp"], 7%N, 18%N, fs0, $"a". eexists. split; [vm_compute; reflexivity|]. split; [reflexivity|]. vm_compute. reflexivity. Qed.
Print Assumptions C95_nil_refuted.

(** ** C96: tests *)
(** Of what is there: exists, isDir, isFile, size, and the bits of the owner in the mode. *)
Theorem C96_there : forall here user f name e w x, ends_with name e -> leads here name w -> there user f w x ->
  file_exists here user f name = inl true /\ is_dir here user f name = inl (n_dir x) /\ is_file here user f name = inl (negb (n_dir x)) /\ file_size here user f name = inl (Z.of_nat (List.length (n_bytes x))) /\
  is_readable here user f name = inl (N.testbit (n_mode x) 8) /\ is_writeable here user f name = inl (N.testbit (n_mode x) 7) /\ is_executable here user f name = inl (N.testbit (n_mode x) 6 && negb (n_dir x)).
Proof. exact tests. Qed.
Print Assumptions C96_there.
(** Nothing is there: exists says so, the other tests fail. *)
Theorem C96_missing : forall here user f name w, name <> [] -> leads here name w -> reachable user f w -> f w = None ->
  file_exists here user f name = inl false /\ is_dir here user f name = inr NotExist /\ is_file here user f name = inr NotExist /\ file_size here user f name = inr NotExist /\
  is_readable here user f name = inr NotExist /\ is_writeable here user f name = inr NotExist /\ is_executable here user f name = inr NotExist.
Proof. exact tests_missing. Qed.
Print Assumptions C96_missing.
(** "Determines if the file is readable by the current user", "writeable by the current user": a file is said to be
    and cannot be read, nor written, and another one is said not to be and can be read. *)
Theorem C96_user_refuted : exists here user umask f a b (V : Env) v,
  is_readable here user f a = inl true /\ load here user f a [] = LError Denied /\
  is_writeable here user f a = inl true /\ save here user umask f a v = (f, Some Denied) /\
  is_readable here user f b = inl false /\ load here user f b [] = LText $"text".
Proof. exists [$"tmp"], 8%N, 18%N, fs0, $"a", $"b", env0, (vstr $"x"). repeat split; vm_compute; reflexivity. Qed.
Print Assumptions C96_user_refuted.
(** "Determines if a file exists or not": not when the name goes through a file. *)
Theorem C96_exists_refuted : exists here user f name, file_exists here user f name = inr NotDir /\ is_file here user f name = inr NotDir.
Proof. exists [$"tmp"], 7%N, fs0, $"a/x". split; vm_compute; reflexivity. Qed.
Print Assumptions C96_exists_refuted.
Example C96_example :
  map (file_exists [] 7 fs0) [$"tmp"; $"tmp/a"; $"/tmp/./a"; $"tmp/c"] = [inl true; inl true; inl true; inl false] /\
  map (is_dir [] 7 fs0) [$"tmp"; $"tmp/a"] = [inl true; inl false] /\ file_size [] 7 fs0 $"tmp/a" = inl 3%Z /\ is_executable [] 7 fs0 $"tmp" = inl false /\ is_file [] 7 fs0 $"tmp/" = inl false.
Proof. vm_compute. repeat split. Qed.
