(** Model of the constructors of [TaskList] (core/db/task_list.cpp:10-57) and
    [Task] (core/db/task.cpp:5-13). *)

From Coq Require Import List Arith.
From Verif Require Import Str Path SMap DbModel GraphModel DepGraphModel SchedModel.
Import ListNotations.

(** SourceFileId::value for a dependency, used as an index (task_list.hpp:37-40).
    A reference that is not valid is out of range. *)
Definition ref_value (n : nat) (d : dependency) : nat :=
  match dep_ref d with Some k => k | None => n end.

(** The results that [Task::status] looks at, task.cpp:31-61. [m_use_deps] is
    computed in task.cpp:9. [None]: getUseDepsRecursive throws. *)
Definition task_reads_opt (g : file_list) (v : nat) : option (list nat) :=
  match nth_error g v with
  | None => None
  | Some (_, info) =>
      match get_use_deps_recursive g v with
      | DepsFound ds => Some (map (ref_value (length g)) (build_deps info) ++ map (ref_value (length g)) ds)
      | _ => None
      end
  end.

Definition task_reads (g : file_list) (v : nat) : list nat :=
  match task_reads_opt g v with Some l => l | None => [] end.

Definition has_targets (g : file_list) (v : nat) : bool :=
  match nth_error g v with
  | Some (_, info) => match targets info with [] => false | _ => true end
  | None => false
  end.

(** The function passed to the traversal, task_list.cpp:17-29 and 42-54: sets
    the result of the node, and adds a task if it has targets. *)
Definition record_node (g : file_list) (acc : list task_result * list nat) (v : nat)
  : list task_result * list nat :=
  if has_targets g v
  then (update v Pending (fst acc), snd acc ++ [v])
  else (update v Success (fst acc), snd acc).

(** std::make_unique<std::atomic<TaskResult>[]> sets everything to zero, which is
    Pending (task_list.cpp:13 and 37). *)
Definition record_nodes (g : file_list) (vs : list nat) : list task_result * list nat :=
  fold_left (record_node g) vs (repeat Pending (length g), []).

(** task_list.cpp:10-31. [None]: throws "Cyclic dependency detected". *)
Definition make_task_list (g : file_list) : option (list task_result * list nat) :=
  match visitNodesInTopoOrder dep_ref (edges_of g) with
  | Completed cs => Some (record_nodes g (map fst cs))
  | _ => None
  end.

(** task_list.cpp:33-57, with the name of the source file of the target. The node
    is not checked to be valid. *)
Definition make_target_task_list (g : file_list) (source : path) : option (list task_result * list nat) :=
  match get_node g source with
  | None => None
  | Some root =>
      match processGraphNodeRecursive dep_ref (edges_of g) root with
      | Completed cs => Some (record_nodes g (map fst cs))
      | _ => None
      end
  end.
