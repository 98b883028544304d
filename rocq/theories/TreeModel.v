(** Model of how a directory tree is scanned and loaded, put together from
    ScanModel.v and LoadModel.v: core/source_tree_loader/main.cpp:7-14,
    directory_scanner.cpp:60, source_file_loader_delegator.cpp:9-41, and of the recipe
    for directories, recipes/make_directory.py. *)

From Coq Require Import List ZArith Bool.
From Verif Require Import Str Path SMap DbModel JsonModel LoadModel ScanModel BuildModel.
Import ListNotations.

Section Tree.

(** The source directory and the target directory *)
Variables s t : path.

(** The files at the time of the scan, the names in each directory (and whether an
    exception is thrown after these), and the content of files ([None]: it can not
    be read). A file is the same, whether or not the path is written in normal form. *)
Variable D : disk.
Variable entries : path -> list str * bool.
Variable content : path -> option str.

(** See LoadModel.v *)
Variable parse : str -> option compound.
Variable resolve : path -> option (path * origin).
Variable configure : path -> compound -> option compound.
Variable script_tags : compiler -> path -> option compound.
Variable dir_compiler : compiler.
Variable loaders : list (str * loader).

(** See ScanModel.v *)
Variables filter_name filter_path : str -> bool.
Variable recursive : bool.
Variable workers : nat.

(** is_directory(p) *)
Definition file_is_directory (p : path) : option bool := is_directory_or_throw D (lexically_normal p).

(** SourceFileLoaderDelegator::load, source_file_loader_delegator.cpp:9-41 *)
Definition load_file (p : path) : option source_file_info :=
  let load := load p s t parse resolve configure script_tags dir_compiler loaders in
  match file_is_directory p with
  | None => None
  | Some true => load None
  | Some false => match content p with None => None | Some text => load (Some text) end
  end.

(** DirectoryScanner::processPath and takeResult, main.cpp:10-14 *)
Definition scan_tree : list scan_choice -> option (scan_state source_file_info) :=
  fun cs => scan_run source_file_info file_is_directory entries load_file filter_name filter_path recursive s workers cs
                     (scan_init source_file_info s).

End Tree.

(** mkdir, recipes/make_directory.py:10-17, when no exception is thrown out of it:
    FileExistsError is ignored. The names of targets do not end with a slash and a
    dot, so line 12 does not matter. Creating a directory may change the time stamp
    of other directories. *)
Inductive make_directory (D : disk) (q : path) (D' : disk) : Prop :=
| already_there :
    (exists t, D q = PlainFile t \/ D q = Directory t) -> (forall p, D' p = D p) -> make_directory D q D'
| made :
    D q = Missing -> (exists t, D' q = Directory t) ->
    (forall p, p <> q -> D' p = D p \/ exists t t', D p = Directory t /\ D' p = Directory t') ->
    make_directory D q D'.
