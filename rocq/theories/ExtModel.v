(** The templates defined in extension files and in the files being processed: NewTemplate and initExtension
    (template/template.go:117-118, 258-295), GetNewContext (192-218), importTemplates (332-338), with Parse, AddParseTree
    and associate of text/template. *)
From Coq Require Import String Ascii List ZArith NArith Bool.
From Verif Require Import GoStr ValueModel PathModel SearchModel CliModel.
Import ListNotations.

Section Ext.
(** The body of a template; [empty] is parse.IsEmptyTree. *)
Context {T : Type}.
Variable empty : T -> bool.

(** The name of the text where a template was parsed, and its body. *)
Record tree := Tree { t_parse : str; t_body : T }.
Definition table := list (str * tree).
(** A file and what its processing registers, in order: under its own name the text without the definitions, under
    other names the definitions.  When the error handler tries again, or when a part cannot be parsed, more or less is
    registered: any list is possible. *)
Record processed := Processed { f_path : str; f_trees : list (str * T) }.

(** AddParseTree with associate: an empty body does not replace an existing one. *)
Definition register (m : table) (nt : str * tree) : table :=
  if empty (t_body (snd nt)) && mhas m (fst nt) then m else mset m (fst nt) (snd nt).
(** importTemplates: template.go:332-338; [visit] is the map of templates in the order in which it is visited. *)
Definition import_templates (visit : table) (m : table) : table :=
  fold_left register (filter (fun nt => negb (str_eqb (fst nt) (t_parse (snd nt)))) visit) m.

(** The children, by folder. *)
Definition contexts := list (str * table).
(** GetNewContext with the cache: template.go:192-218.  The names of [main] are distinct: the order of the import does
    not matter and is the one of the list. *)
Definition get_context (main : table) (folder : str) (c : contexts) : table :=
  match mget c folder with
  | Some t => t
  | None => import_templates main []
  end.
(** Processing a file: template_handler.go:221-234 *)
Definition trees_of (f : processed) : table := map (fun nt => (fst nt, Tree (f_path f) (snd nt))) (f_trees f).
Definition process_file (main : table) (c : contexts) (f : processed) : contexts :=
  let folder := path_dir (f_path f) in
  mset c folder (fold_left register (trees_of f) (get_context main folder c)).
Definition process_files (main : table) (files : list processed) : contexts := fold_left (process_file main) files [].

(** initExtension: template.go:258-295.  The main template was parsed from an empty text (118), hence the context of the
    extensions has no template.  [visits]: the templates of the children, each in the order in which it is visited, in
    the order in which the map of the children is visited. *)
Definition main_name : str := $"Main".
Definition load_extensions (nothing : T) (visits : list table) : table :=
  fold_left (fun m v => import_templates v m) visits [(main_name, Tree main_name nothing)].
End Ext.

(** The extension files: template.go:263-272.  [search] is FindFilesMaxDepth with the pattern *.gte (C55), None an
    error; it is ignored for the folders of GOTEMPLATE_PATH and a panic for the folder of the template. *)
Definition extension_files (search : str -> option (list str)) (path folder : str) : option (list str) :=
  let of_path :=
    match trim_space path with
    | [] => []
    | p => flat_map (fun d => match d, search d with _ :: _, Some files => files | _, _ => [] end) (split $":" p)
    end in
  match search folder with
  | Some files => Some (of_path ++ files)
  | None => None
  end.
