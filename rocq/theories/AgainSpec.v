(** Vocabulary for statements about scanning a project again after it has been built. *)

From Coq Require Import List.
From Verif Require Import Str Path SMap DbModel JsonModel LoadModel LoadSpec ScanModel ScanSpec FileListModel BuildModel BuildSpec TreeModel TreeSpec.
Import ListNotations.

(** [p] is the target directory [t], or a path in it. *)
Definition below (t p : path) : Prop := p = place t [] \/ exists l, Forall ordinary l /\ p = inside t l.

(** Nothing has happened to [p], except that if it is a directory, it may have a new time stamp. *)
Definition untouched (D D' : disk) (p : path) : Prop := D' p = D p \/ (directory D p /\ directory D' p).

(** [entries] are the names that are found in the directories of [s], given the files [D]. *)
Definition listing (s : path) (D : disk) (entries : path -> list str * bool) : Prop :=
  forall d name, Forall ordinary (d ++ [name]) -> directory D (inside s d) ->
    (In name (fst (entries (inside s d))) <-> D (inside s (d ++ [name])) <> Missing).

(** Every path in the target directory that is also a path in the source directory is
    filtered out, or in a directory that is filtered out. *)
Definition left_out (s t : path) (filter_name filter_path : str -> bool) : Prop :=
  forall l, Forall ordinary l -> below t (inside s l) ->
    exists d name d', l = d ++ name :: d' /\
      (filter_name name = true \/
       filter_path (path_string (lexically_relative (append (inside s d) (mk_path false [name])) s)) = true).

(** What does not depend on the files: the configuration, and how text is interpreted *)
Record setting := mk_setting {
  set_parse : str -> option compound;
  set_resolve : path -> option (path * origin);
  set_configure : path -> compound -> option compound;
  set_script_tags : compiler -> path -> option compound;
  set_dir_compiler : compiler;
  set_loaders : list (str * loader);
  set_filter_name : str -> bool;
  set_filter_path : str -> bool;
  set_recursive : bool
}.

(** When the directory [s] is scanned, there is some execution with the outcome [o]. *)
Definition scan_result (c : setting) (s t : path) (D : disk) (entries : path -> list str * bool) (content : path -> option str)
                       (o : scan_main source_file_info) : Prop :=
  exists workers cs st,
    scan_tree s t D entries content (set_parse c) (set_resolve c) (set_configure c) (set_script_tags c)
      (set_dir_compiler c) (set_loaders c) (set_filter_name c) (set_filter_path c) (set_recursive c) workers cs = Some st /\
    scan_owner st = o.
