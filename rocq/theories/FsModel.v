(** Files read, written and tested from templates: load, save, exists, isDir, isFile, isReadable, isWriteable,
    isExecutable, size (template/extra_os.go:109-173, 193-236), over a model of the file system.

    The file system has no links and no groups; names are followed lexically.  Modes are the nine permission bits. *)
From Coq Require Import String Ascii List ZArith NArith Bool.
From Verif Require Import GoStr ValueModel PathModel SearchModel.
Import ListNotations.

(** A file or a folder. *)
Record entry := Entry { n_dir : bool; n_bytes : str; n_mode : N; n_owner : N }.
(** Names from the place up to the root. *)
Definition spot := list str.
Definition fs := spot -> option entry.
Fixpoint spot_eqb (a b : spot) : bool :=
  match a, b with
  | [], [] => true
  | x :: a', y :: b' => str_eqb x y && spot_eqb a' b'
  | _, _ => false
  end.
Definition put (w : spot) (e : entry) (f : fs) : fs := fun v => if spot_eqb v w then Some e else f v.

(** The errors of the system. *)
Inductive fs_error := NotExist | NotDir | IsDir | Denied | Exists.

Section Fs.
Variables (here : spot) (user umask : N).

(** How the system follows a name. *)
Definition go (w : spot) (e : str) : spot :=
  if str_eqb e [] || str_eqb e $"." then w else if str_eqb e $".." then List.tl w else e :: w.
Definition follow (name : str) : spot := fold_left go (split [SLASH] name) (if is_abs name then [] else here).
(** A name that ends with / or /. is the one of a folder. *)
Definition of_folder (name : str) : bool := has_suffix $"/" name || has_suffix $"/." name.

(** Bit 2 (4: read, 2: write, 1: execute) of the owner or of the others; the superuser may do everything. *)
Definition allowed (bit : N) (e : entry) : bool :=
  (user =? 0)%N || negb (N.land (if (n_owner e =? user)%N then N.shiftl bit 6 else bit) (n_mode e) =? 0)%N.

(** The entry at a place, when all the folders above can be searched. *)
Fixpoint lookup (f : fs) (w : spot) : entry + fs_error :=
  match w with
  | [] => match f [] with Some e => inl e | None => inr NotExist end
  | _ :: above =>
      match lookup f above with
      | inr e => inr e
      | inl d => if negb (n_dir d) then inr NotDir
                 else if negb (allowed 1 d) then inr Denied
                 else match f w with Some e => inl e | None => inr NotExist end
      end
  end.
(** os.Stat *)
Definition stat (f : fs) (name : str) : entry + fs_error :=
  match name with
  | [] => inr NotExist
  | _ => match lookup f (follow name) with
         | inl e => if of_folder name && negb (n_dir e) then inr NotDir else inl e
         | inr e => inr e
         end
  end.
(** A new entry in its folder. *)
Definition create (f : fs) (w : spot) (e : entry) : fs + fs_error :=
  match lookup f (List.tl w) with
  | inr x => inr x
  | inl d => if negb (n_dir d) then inr NotDir
             else if allowed 2 d && allowed 1 d then inl (put w e f)
             else inr Denied
  end.
(** os.Mkdir *)
Definition mkdir (f : fs) (name : str) (mode : N) : fs + fs_error :=
  match stat f name with
  | inl _ => inr Exists
  | inr NotExist => match name with [] => inr NotExist | _ => create f (follow name) (Entry true [] (N.ldiff mode umask) user) end
  | inr e => inr e
  end.
(** os.WriteFile: an existing file keeps its mode. *)
Definition write_file (f : fs) (name : str) (bytes : str) (mode : N) : fs + fs_error :=
  match stat f name with
  | inl e => if n_dir e then inr IsDir
             else if allowed 2 e then inl (put (follow name) (Entry false bytes (n_mode e) (n_owner e)) f)
             else inr Denied
  | inr NotExist =>
      match name with
      | [] => inr NotExist
      | _ => if of_folder name then inr IsDir else create f (follow name) (Entry false bytes (N.ldiff mode umask) user)
      end
  | inr e => inr e
  end.
(** os.ReadFile *)
Definition read_file (f : fs) (name : str) : str + fs_error :=
  match stat f name with
  | inl e => if negb (allowed 4 e) then inr Denied else if n_dir e then inr IsDir else inl (n_bytes e)
  | inr e => inr e
  end.

(** ** The functions of gotemplate *)
Section Save.
Context {V : Env}.
(** extra_os.go:217-233 *)
Fixpoint as_bytes (l : list value) : option str :=
  match l with
  | [] => Some []
  | VScal (SInt KUint8 z) :: r => match as_bytes r with Some s => Some (ascii_of_N (Z.to_N z) :: s) | None => None end
  | _ => None
  end.
Definition contents (object : value) : str :=
  match c_try_as_list object with
  | None => sprint object
  | Some (_, l) => match as_bytes l with Some s => s | None => sprint object end
  end.
(** saveToFile: extra_os.go:210-236; the modes are 0777 and 0644. *)
Definition save (f : fs) (name : str) (object : value) : fs * option fs_error :=
  let folder := path_dir name in
  let made :=
    match stat f folder with
    | inr NotExist => mkdir f folder 511
    | _ => inl f
    end in
  match made with
  | inr e => (f, Some e)
  | inl f => match write_file f name (contents object) 420 with
             | inl f => (f, None)
             | inr e => (f, Some e)
             end
  end.
End Save.

(** loadFromFile: extra_os.go:193-208, a text or the bytes; the content is empty with an error. *)
Inductive loaded := LText (s : str) | LBytes (s : str) | LError (e : fs_error) | LArguments.
Definition load (f : fs) (name : str) (binary : list bool) : loaded :=
  match binary with
  | [] | [_] =>
      match read_file f name with
      | inr e => LError e
      | inl s => match binary with [true] => LBytes s | _ => LText s end
      end
  | _ => LArguments
  end.

(** exists: extra_os.go:109-117 *)
Definition file_exists (f : fs) (name : str) : bool + fs_error :=
  match stat f name with
  | inl _ => inl true
  | inr NotExist => inl false
  | inr e => inr e
  end.
Definition on_stat {A} (f : fs) (name : str) (k : entry -> A) : A + fs_error :=
  match stat f name with inl e => inl (k e) | inr e => inr e end.
(** size: extra_os.go:127-133 (of a file) *)
Definition file_size (f : fs) (name : str) : Z + fs_error := on_stat f name (fun e => Z.of_nat (List.length (n_bytes e))).
(** isDir: extra_os.go:135-141 *)
Definition is_dir (f : fs) (name : str) : bool + fs_error := on_stat f name n_dir.
(** isFile: extra_os.go:143-149 *)
Definition is_file (f : fs) (name : str) : bool + fs_error :=
  match is_dir f name with inl b => inl (negb b) | inr e => inr e end.
(** isReadable, isWriteable, isExecutable: extra_os.go:151-173 *)
Definition is_readable (f : fs) (name : str) : bool + fs_error := on_stat f name (fun e => negb (N.land (n_mode e) 256 =? 0)%N).
Definition is_writeable (f : fs) (name : str) : bool + fs_error := on_stat f name (fun e => negb (N.land (n_mode e) 128 =? 0)%N).
Definition is_executable (f : fs) (name : str) : bool + fs_error := on_stat f name (fun e => negb (N.land (n_mode e) 64 =? 0)%N && negb (n_dir e)).
End Fs.
