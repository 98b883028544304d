(** Model of what a task of a dry run delivers: Task::runIfNecessary
    (core/db/task.cpp:15-29) with Exec::LocalExecve (core/exec/execve.cpp:264-269). *)

From Coq Require Import ZArith.
From Coq Require Import List.
From Verif Require Import Str Path JsonModel DbModel DepGraphModel BuildModel LogModel RecipeModel JobModel WriteModel.
Import ListNotations.

(** [needed] is the condition in task.cpp:19-20 ([None]: it throws). [real] is what happens
    if the command is run ([None]: it throws). *)
Definition invoke_if_necessary (dryrun : bool) (needed : option bool) (real : option (exit_status * str * str)) : run_result :=
  match needed with
  | None => Raised
  | Some false => Skipped
  | Some true =>
      if dryrun then Executed (ExitCode 0) [] []
      else match real with
           | None => Raised
           | Some (status, out, err) => Executed status out err
           end
  end.

(** The command of the task for node [v], Task::Task, task.cpp:5-13. [dump] is
    json_dump_callback. [None]: there is no such node, or merging the configurations throws. *)
Definition task_command (dump : json -> str) (j : job) (g : file_list) (v : nat) : option command :=
  match nth_error g v with
  | None => None
  | Some (p, i) => make_build_command dump (Z.of_nat v) p i (job_info j) (task_use_deps g v) (job_format j)
  end.

(** What the log knows about the task, compilation_log.cpp:44-109; [times] are the times at
    which it is started and completed. *)
Definition logged (dump : json -> str) (j : job) (times : nat -> Z * Z) (g : file_list) (v : nat) : option task_info :=
  match nth_error g v, task_command dump j g v with
  | Some (p, _), Some c => Some (mk_task_info c (Z.of_nat v) (path_string p) (fst (times v)) (snd (times v)))
  | _, _ => None
  end.
