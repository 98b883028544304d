(** Model of what the threads of the pool do with the compilation log while
    [TaskList::process] runs: CompilationLog::write (core/db/compilation_log.cpp)
    as called from the function run for a task (core/db/task_list.cpp:97-114), on
    top of the model of the pool. *)

From Coq Require Import List Arith Bool.
From Verif Require Import Str ValueModel BuildModel LogModel SchedModel.
Import ListNotations.

(** What Task::runIfNecessary does (task.cpp:15-29): it throws, decides that there
    is nothing to do, or runs the command. *)
Inductive run_result :=
| Raised
| Skipped
| Executed (status : exit_status) (out err : str).

(** What CompilationLog::write does when it has put the record together. A string
    is put character by character: nothing is assumed about fputs. *)
Inductive action :=
| Lock                      (* std::lock_guard *)
| PutOut (s : str)          (* fputs(s, stdout) *)
| PutErr (s : str)          (* fputs(s, stderr) *)
| Unlock.                   (* the end of the scope of the guard *)

(** CompilationLog::write for a task that was run, compilation_log.cpp:77-81 *)
Definition write_result (level : log_level) (t : task_info) (status : exit_status) (out err : str) : list action :=
  let r := log_result level t status out err in
  [Lock; PutOut (fst r); PutErr (snd r); Unlock].

(** CompilationLog::write for a task that was skipped, compilation_log.cpp:107-109 *)
Definition write_skipped (level : log_level) (t : task_info) : list action :=
  [Lock; PutOut (log_skipped level t); Unlock].

(** The function run for a task, task_list.cpp:97-114: what it does with the log,
    and how it ends. *)
Definition task_actions (level : log_level) (t : task_info) (r : run_result) : list action :=
  match r with
  | Raised => []
  | Skipped => write_skipped level t
  | Executed status out err => write_result level t status out err
  end.

Definition task_end (r : run_result) : task_outcome :=
  match r with
  | Raised => Throws
  | Skipped => Succeeds
  | Executed status _ _ => if failed status then Fails else Succeeds
  end.

(** [owner]: the task whose thread has m_output_mutex. [todo]: what the tasks that
    have been started are about to do; the latest entry for a task counts. *)
Record log_state := mk_log_state {
  owner : option nat;
  todo : list (nat * list action);
  out_text : str;
  err_text : str
}.

Fixpoint lookup_todo (v : nat) (l : list (nat * list action)) : list action :=
  match l with
  | [] => []
  | (u, p) :: l' => if u =? v then p else lookup_todo v l'
  end.

Definition set_todo (v : nat) (p : list action) (o : option nat) (out err : str) (L : log_state) : log_state :=
  mk_log_state o ((v, p) :: todo L) out err.

(** The thread that runs [v] makes a step. *)
Definition act (v : nat) (L : log_state) : option log_state :=
  match lookup_todo v (todo L) with
  | [] => None
  | Lock :: p =>
      match owner L with
      | None => Some (set_todo v p (Some v) (out_text L) (err_text L) L)
      | Some _ => None
      end
  | PutOut [] :: p | PutErr [] :: p => Some (set_todo v p (owner L) (out_text L) (err_text L) L)
  | PutOut (c :: s) :: p => Some (set_todo v (PutOut s :: p) (owner L) (out_text L ++ [c]) (err_text L) L)
  | PutErr (c :: s) :: p => Some (set_todo v (PutErr s :: p) (owner L) (out_text L) (err_text L ++ [c]) L)
  | Unlock :: p => Some (set_todo v p None (out_text L) (err_text L) L)
  end.

Section Logged.
  Variable reads : nat -> list nat.
  Variable level : log_level.
  (** What is known about the tasks, and what happens when they are run. A task is
      run at most once. *)
  Variable info : nat -> task_info.
  Variable result : nat -> run_result.

  (** A step of the pool, with regard to the log. A task is not done with until it
      has written to the log. *)
  Definition accept (l : label) (L : log_state) : option log_state :=
    match l with
    | Submit _ => Some L
    | Start v => Some (set_todo v (task_actions level (info v) (result v)) (owner L) (out_text L) (err_text L) L)
    | Finish v o =>
        match lookup_todo v (todo L), o, task_end (result v) with
        | [], Succeeds, Succeeds | [], Fails, Fails | [], Throws, Throws => Some L
        | _, _, _ => None
        end
    end.

  Fixpoint accept_all (ls : list label) (L : log_state) : option log_state :=
    match ls with
    | [] => Some L
    | l :: ls' => match accept l L with None => None | Some L' => accept_all ls' L' end
    end.

  Inductive full_choice :=
  | ByPool (c : choice)
  | ByLog (v : nat).

  Definition full_step (c : full_choice) (F : state * log_state) : option (list label * (state * log_state)) :=
    match c with
    | ByPool c =>
        match step reads c (fst F) with
        | None => None
        | Some (l, s) =>
            match accept_all l (snd F) with
            | None => None
            | Some L => Some (l, (s, L))
            end
        end
    | ByLog v =>
        match act v (snd F) with
        | None => None
        | Some L => Some ([], (fst F, L))
        end
    end.

  (** The state at the start of [process]. *)
  Definition full_init (rs : list task_result) (tasks : list nat) (ws : list worker) : state * log_state :=
    (init rs tasks ws, mk_log_state None [] [] []).

  (** Runs a given schedule. *)
  Fixpoint full_run (cs : list full_choice) (F : state * log_state) : option (list label * (state * log_state)) :=
    match cs with
    | [] => Some ([], F)
    | c :: cs' =>
        match full_step c F with
        | None => None
        | Some (l, F') =>
            match full_run cs' F' with
            | None => None
            | Some (tr, F'') => Some (l ++ tr, F'')
            end
        end
    end.
End Logged.
