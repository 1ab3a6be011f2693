(** The search of files: utils/io.go FindFiles, FindFilesMaxDepth and findFiles, with filepath.Walk of
    the standard library.

    The file system does not change during the search.  A directory that cannot be read is a
    directory without entries, an entry that cannot be read is left out.  [glob] stands for
    filepath.Glob, None when the pattern is malformed. *)
From Coq Require Import String Ascii List ZArith NArith Bool.
From Verif Require Import GoStr ValueModel PathModel.
Import ListNotations.

(** A file system: files, symbolic links with the text of the link, directories with their entries in
    the order of readDirNames (sorted by name). *)
Inductive node := File | Link (text : str) | Dir (entries : list (str * node)).
Fixpoint look (n : node) (names : list str) : option node :=
  match names with
  | [] => Some n
  | e :: r => match n with
              | Dir es => match mget es e with Some m => look m r | None => None end
              | _ => None
              end
  end.

(** filepath.Abs *)
Definition path_abs (cwd p : str) : str := if is_abs p then clean p else join2 cwd p.
(** filepath.Dir *)
Fixpoint drop_name (r : str) : str :=
  match r with
  | [] => []
  | c :: r' => if Ascii.eqb c SLASH then r else drop_name r'
  end.
Definition path_dir (p : str) : str := clean (rev (drop_name (rev p))).

(** findFiles: utils/io.go:79-89 *)
Fixpoint find_files (glob : str -> option (list str)) (folder : str) (patterns : list str) : option (list str) :=
  match patterns with
  | [] => Some []
  | p :: r => match glob (join2 folder p) with
              | Some files => match find_files glob folder r with Some l => Some (files ++ l) | None => None end
              | None => None
              end
  end.

(** The outcome of a walk: the directories visited and the results so far, the walk continues or is
    stopped by an error; Broken is a panic, Endless stands for more nested links than [fuel]. *)
Inductive walked :=
| Continue (visited : list str) (results : list str)
| Stop (visited : list str) (results : list str)
| Broken
| Endless.

Section Search.
Variable cwd : str.
Variable fs : node.
Variable glob : str -> option (list str).
Variable patterns : list str.
Variable max_depth : Z.
Variable follow : bool.

(** The function given to filepath.Walk: utils/io.go:34-70, for the path [p] and its descendants;
    [walker] is the recursive call of line 63, [folder] the variable of line 29.  The error of SkipDir
    (line 42) only skips the directory; other errors end the walk. *)
Fixpoint visit (walker : str -> list str -> walked) (folder : str) (n : node) (p : str) (visited results : list str) {struct n} : walked :=
  match n with
  | File => Continue visited results
  | Link text =>
      if follow then
        let link := if is_abs text then text else join2 (path_dir p) text in
        let link := path_abs cwd link in
        if mem_str link visited then Continue visited results
        else match walker link visited with
             | Continue v r => Continue v (results ++ r)
             | o => o
             end
      else Continue visited results
  | Dir es =>
      let visited := p :: visited in
      match rel p folder with
      | Ok r =>
          if (max_depth <? Z.of_nat (count_sub $".." r))%Z then Continue visited results
          else match find_files glob p patterns with
               | None => Stop visited results
               | Some files =>
                   (fix all es visited results :=
                      match es with
                      | [] => Continue visited results
                      | (name, m) :: es' =>
                          match visit walker folder m (join2 p name) visited results with
                          | Continue v r => all es' v r
                          | o => o
                          end
                      end) es visited (results ++ files)
               end
      | _ => Broken
      end
  end.
(** The entries of the folder itself (the test path == folder of line 35). *)
Fixpoint visit_all (walker : str -> list str -> walked) (folder : str) (p : str) (es : list (str * node)) (visited results : list str) : walked :=
  match es with
  | [] => Continue visited results
  | (name, m) :: es' =>
      match visit walker folder m (join2 p name) visited results with
      | Continue v r => visit_all walker folder p es' v r
      | o => o
      end
  end.

(** The walker: utils/io.go:27-73.  The result of filepath.Walk is dropped (line 34), [must] panics
    (line 28).  The folder is made absolute after the first call of findFiles (line 29). *)
Fixpoint walker (fuel : nat) (folder : str) (visited : list str) : walked :=
  match fuel with
  | O => Endless
  | S f =>
      match find_files glob folder patterns with
      | None => Broken
      | Some found =>
          let folder := path_abs cwd folder in
          if (max_depth =? 0)%Z then Continue visited found
          else match look fs (norm folder) with
               | Some (Dir es) =>
                   match visit_all (walker f) folder folder es visited found with
                   | Stop v r => Continue v r
                   | o => o
                   end
               | _ => Continue visited found
               end
      end
  end.

End Search.

(** What the caller gets: the results, a panic, or nothing ever. *)
Inductive search := Found (results : list str) | Panicked | Forever.
(** FindFilesMaxDepth: utils/io.go:24-75 *)
Definition find_files_max_depth (fuel : nat) (cwd : str) (fs : node) (glob : str -> option (list str)) (folder : str) (max_depth : Z) (follow : bool) (patterns : list str) : search :=
  match walker cwd fs glob patterns max_depth follow fuel folder [] with
  | Continue _ r | Stop _ r => Found r
  | Broken => Panicked
  | Endless => Forever
  end.
(** FindFiles: utils/io.go:15-21 *)
Definition find_files_in (fuel : nat) (cwd : str) (fs : node) (glob : str -> option (list str)) (folder : str) (recursive follow : bool) (patterns : list str) : search :=
  find_files_max_depth fuel cwd fs glob folder (if recursive then 65536%Z else 0%Z) follow patterns.
