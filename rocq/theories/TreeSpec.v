(** Vocabulary for statements about directories for targets. *)

From Coq Require Import List ZArith.
From Verif Require Import Str Path SMap PathProofs DbModel JsonModel LoadModel LoadSpec ScanModel ScanSpec DepGraphSpec FileListModel.
From Verif Require Import FileListSpec SchedModel SchedSpec TaskListModel TaskListSpec BuildModel BuildSpec TreeModel.
Import ListNotations.

(** The directory below the target directory [t] that corresponds to the directory
    reached from the source directory by following the names in [d]. The target
    directory itself is written with a slash at the end. *)
Definition place (t : path) (d : list str) : path :=
  if is_nil d then lexically_normal (append t (mk_path false [dot])) else inside t d.

(** [d] is a directory of the project, with [p] being its path: the recipe for
    directories is used. *)
Definition is_dir (D : disk) (g : file_list) (v : nat) : Prop :=
  exists p, numbered g v p /\ directory D p.

(** As [building] (BuildSpec.v), but the recipe for directories is
    make_directory.py. [scan] are the files at the time of the scan; [made]
    are the tasks for which mkdir has returned. Writing a file may change the
    time stamp of directories. Other recipes than that for directories may do anything
    to the targets of their own tasks. *)
Inductive building_tree (scan : disk) (g : file_list) (force : bool) (D0 : disk)
  : list label -> disk -> list (nat * option bool) -> list nat -> Prop :=
| tree_begins : building_tree scan g force D0 [] D0 [] []
| tree_submits : forall tr D dec made v,
    building_tree scan g force D0 tr D dec made -> building_tree scan g force D0 (tr ++ [Submit v]) D dec made
| tree_starts : forall tr D dec made v,
    building_tree scan g force D0 tr D dec made ->
    building_tree scan g force D0 (tr ++ [Start v]) D ((v, task_needs_run g D force v) :: dec) made
| tree_writes : forall tr D D' dec made v,
    building_tree scan g force D0 tr D dec made -> invoked dec v -> in_progress tr v -> ~ is_dir scan g v ->
    (forall q, ~ target_of g v q -> D' q = D q \/ (directory D q /\ directory D' q)) ->
    building_tree scan g force D0 tr D' dec made
| tree_mkdir : forall tr D D' dec made v q,
    building_tree scan g force D0 tr D dec made -> invoked dec v -> in_progress tr v -> is_dir scan g v ->
    target_of g v q -> make_directory D q D' ->
    building_tree scan g force D0 tr D' dec (v :: made)
| tree_finishes : forall tr D dec made v o,
    building_tree scan g force D0 tr D dec made -> in_progress tr v ->
    (is_dir scan g v -> invoked dec v -> o = Succeeds -> In v made) ->
    (In (v, None) dec -> o <> Succeeds) ->
    building_tree scan g force D0 (tr ++ [Finish v o]) D dec made.

(** Nothing is in the way of the directories that are to be made. *)
Definition nothing_in_the_way (scan : disk) (g : file_list) (D0 : disk) : Prop :=
  forall v q, is_dir scan g v -> target_of g v q -> D0 q = Missing \/ directory D0 q.

(** The project in the directory [s], as described by the files [D] at the time of the
    scan, has been built so far that the events [tr] have happened, and the files
    have changed from [D0] to [D1]. [recipe_for_directories] is the path of make_directory.py. *)
Definition project_build (s t : path) (D : disk) (recipe_for_directories : path) (fs g : file_list)
                         (D0 : disk) (tr : list label) (D1 : disk) : Prop :=
  directory_ok s /\ directory_ok t /\
  (exists entries content parse resolve configure script_tags dir_compiler loaders filter_name filter_path recursive workers cs st,
     proper_entries entries /\ recipe dir_compiler = recipe_for_directories /\
     scan_tree s t D entries content parse resolve configure script_tags dir_compiler loaders
               filter_name filter_path recursive workers cs = Some st /\
     scan_owner st = MainReturned fs) /\
  loaded fs g /\ proper_names fs g /\
  exists rs tasks ws force cs st dec made,
    task_list g rs tasks /\ idle_pool ws /\ run (task_reads g) cs (init rs tasks ws) = Some (tr, st) /\
    building_tree D g force D0 tr D1 dec made.
