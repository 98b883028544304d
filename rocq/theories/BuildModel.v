(** Model of the decision whether to run a recipe: core/utils/fs.cpp,
    core/db/target_info.cpp, core/db/dependency.hpp, core/db/source_file_record.cpp,
    core/db/task.cpp, and of what is run for a task (core/db/task_list.cpp:97-114,
    core/exec/execve.cpp:264-269). *)

From Coq Require Import List ZArith Bool.
From Verif Require Import Str Path SMap DbModel GraphModel DepGraphModel SchedModel TaskListModel.
Import ListNotations.

(** What the file system knows about a path, with symbolic links followed.
    [Inaccessible]: the status of the file cannot be determined (no permission to
    search a directory, a component is not a directory, ...). *)
Inductive file_status :=
| Missing
| Inaccessible
| PlainFile (t : Z)         (* anything except for directories *)
| Directory (t : Z).

Definition disk := path -> file_status.

(** last_write_time(p, ec); [None]: ec is set *)
Definition last_write_time (D : disk) (p : path) : option Z :=
  match D p with PlainFile t | Directory t => Some t | Missing | Inaccessible => None end.

(** is_directory(p, ec) *)
Definition is_directory (D : disk) (p : path) : bool :=
  match D p with Directory _ => true | _ => false end.

(** is_directory(p); [None]: throws *)
Definition is_directory_or_throw (D : disk) (p : path) : option bool :=
  match D p with
  | Directory _ => Some true
  | PlainFile _ | Missing => Some false
  | Inaccessible => None
  end.

(** isNewer, fs.cpp:26-41. [None]: throws "Neither ... exist" *)
Definition is_newer (D : disk) (a b : path) : option bool :=
  match last_write_time D a, last_write_time D b with
  | None, None => None
  | None, Some _ => Some false
  | Some _, None => Some true
  | Some t_a, Some t_b => Some (Z.ltb t_b t_a)
  end.

(** isOlder, fs.cpp:43-58 *)
Definition is_older (D : disk) (a b : path) : option bool :=
  match last_write_time D a, last_write_time D b with
  | None, None => None
  | None, Some _ => Some true
  | Some _, None => Some false
  | Some t_a, Some t_b => Some (Z.ltb t_a t_b)
  end.

(** isOlder (Dependency), dependency.hpp:96-101 *)
Definition dep_is_older (D : disk) (d : dependency) (file : path) : option bool :=
  if is_external (dep_origin d) then Some true
  else match is_directory_or_throw D (dep_name d) with
       | None => None
       | Some true => Some true
       | Some false => is_older D (dep_name d) file
       end.

(** std::all_of with a predicate that may throw *)
Fixpoint all_of {A} (f : A -> option bool) (l : list A) : option bool :=
  match l with
  | [] => Some true
  | x :: l' =>
      match f x with
      | None => None
      | Some false => Some false
      | Some true => all_of f l'
      end
  end.

(** isUpToDate (TargetInfo), target_info.cpp:9-21 *)
Definition target_is_up_to_date (D : disk) (src : path) (deps : list dependency) (t : target_info)
  : option bool :=
  if is_directory D (ti_name t) then Some true
  else match is_older D src (ti_name t) with
       | None => None
       | Some false => Some false
       | Some true => all_of (fun d => dep_is_older D d (ti_name t)) deps
       end.

(** isUpToDate (SourceFileRecordConst), source_file_record.cpp:11-18 *)
Definition is_up_to_date (D : disk) (src : path) (info : source_file_info) (deps : list dependency)
  : option bool :=
  all_of (target_is_up_to_date D src deps) (targets info).

Definition is_always (p : rebuild_policy) : bool := match p with Always => true | OnlyIfOutOfDate => false end.

(** The condition in Task::runIfNecessary, task.cpp:19-20. [None]: throws *)
Definition needs_run (D : disk) (force : bool) (src : path) (info : source_file_info) (deps : list dependency)
  : option bool :=
  if force || is_always (si_policy info) then Some true
  else option_map negb (is_up_to_date D src info deps).

(** exit_status.hpp:9-55 *)
Inductive exit_status := ExitCode (c : Z) | KilledBy (signal : Z).

(** failed, result.hpp:48-53 *)
Definition failed (e : exit_status) : bool :=
  match e with
  | KilledBy _ => true
  | ExitCode c => negb (Z.eqb c 0)
  end.

Section Invoke.
  (** A command, and the effect of starting a process for it: the new state of
      the world, and its exit status. [None]: it could not be started, and an
      exception is thrown. *)
  Variable command world : Type.
  Variable run_process : command -> world -> world * option exit_status.

  (** execve (LocalExecve), execve.cpp:264-269 *)
  Definition local_execve (dryrun : bool) (c : command) (w : world) : world * option exit_status :=
    if dryrun then (w, Some (ExitCode 0)) else run_process c w.

  (** Task::runIfNecessary (task.cpp:15-29), followed by the rest of the function
      run for a task (task_list.cpp:97-114). Writing to the log is left out.
      [disk_of] is the part of the world that consists of files. The list has the
      commands that were passed to the invoker. *)
  Definition run_task (disk_of : world -> disk) (invoke : command -> world -> world * option exit_status)
             (force : bool) (src : path) (info : source_file_info) (deps : list dependency) (c : command)
             (w : world) : world * list command * task_outcome :=
    match needs_run (disk_of w) force src info deps with
    | None => (w, [], Throws)
    | Some false => (w, [], Succeeds)
    | Some true =>
        match invoke c w with
        | (w', None) => (w', [c], Throws)
        | (w', Some e) => (w', [c], if failed e then Fails else Succeeds)
        end
    end.
End Invoke.

(** m_use_deps, task.cpp:9. No task is made if getUseDepsRecursive throws. *)
Definition task_use_deps (g : file_list) (v : nat) : list dependency :=
  match get_use_deps_recursive g v with DepsFound ds => ds | _ => [] end.

(** The condition in Task::runIfNecessary for node [v]. *)
Definition task_needs_run (g : file_list) (D : disk) (force : bool) (v : nat) : option bool :=
  match nth_error g v with
  | None => None
  | Some (p, info) => needs_run D force p info (task_use_deps g v)
  end.
