(** Vocabulary for statements about the list of tasks. *)

From Coq Require Import List.
From Verif Require Import Str Path SMap PathProofs DbModel DepGraphSpec FileListModel FileListSpec SchedModel TaskListModel.
Import ListNotations.

(** The file has targets, that is, there is something to build from it. *)
Definition builds (fs : file_list) (p : path) : Prop :=
  exists info, In (p, info) fs /\ targets info <> [].

(** [p] directly or indirectly needs [q], and is not [q]. *)
Definition file_needs (fs : file_list) (p q : path) : Prop := file_reachable fs p q /\ q <> p.

(** The list of tasks [tasks] with initial results [rs] has been made from the
    graph [g], either for everything or for a target made from [src]. *)
Definition task_list (g : file_list) (rs : list task_result) (tasks : list nat) : Prop :=
  make_task_list g = Some (rs, tasks) \/
  exists src, known g src /\ make_target_task_list g src = Some (rs, tasks).

(** [g] is the graph of a project which has been loaded from the files [fs]. No
    file has an empty name. *)
Definition loaded (fs g : file_list) : Prop :=
  scanned fs /\ (exists ts, load_project fs = Loaded (ts, g)) /\ ~ known g empty_path.
