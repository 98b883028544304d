(** Model of the times in the compilation log: Task::runIfNecessary reads the clock
    (core/db/task.cpp:15-29), and CompilationLog::write (core/db/compilation_log.cpp)
    turns what has been read into numbers, on top of the model of the pool and the
    log. *)

From Coq Require Import List Arith Bool ZArith.
From Verif Require Import Str ValueModel BuildModel LogModel SchedModel WriteModel ScriptModel.
Import ListNotations.

(** to_mus, compilation_log.cpp:23-27, for a duration in nanoseconds:
    [duration_cast] truncates, and the result is an unsigned number of 64 bits. *)
Definition to_mus (t : Z) : Z := Z.modulo (Z.quot t 1000) (2 ^ 64).

(** What a thread does in Task::runIfNecessary, as far as it matters here. *)
Inductive moment :=
| ReadStarted               (* m_t_started = Clock::now(), task.cpp:18 *)
| BeginCommand              (* the command is started, task.cpp:22 *)
| EndCommand                (* the command has ended, task.cpp:22 *)
| ReadCompleted.            (* m_t_completed = Clock::now(), task.cpp:23 or 26 *)

(** Task::runIfNecessary, task.cpp:15-29. [needed] and [real] are as in
    [invoke_if_necessary]. A command that is said to throw is one that cannot be
    started. *)
Definition moments (dryrun : bool) (needed : option bool) (real : option (exit_status * str * str)) : list moment :=
  ReadStarted ::
  match needed with
  | None => []
  | Some false => [ReadCompleted]
  | Some true =>
      if dryrun then [ReadCompleted]
      else match real with
           | None => []
           | Some _ => [BeginCommand; EndCommand; ReadCompleted]
           end
  end.

(** What happens, and when. *)
Inductive event :=
| PoolEvent (l : label)
| CommandBegins (v : nat)
| CommandEnds (v : nat).

Record timed_state := mk_timed_state {
  clock : Z;                          (* steady_clock, in nanoseconds *)
  started_at : nat -> option Z;       (* m_t_started, if it has been read *)
  completed_at : nat -> option Z;     (* m_t_completed, if it has been read *)
  ahead : nat -> list moment;         (* what the thread that runs the task has yet to do *)
  full : state * log_state
}.

Definition set_at {A} (v : nat) (x : A) (f : nat -> A) : nat -> A :=
  fun u => if u =? v then x else f u.

Section Timed.
  Variable reads : nat -> list nat.
  Variable level : log_level.
  Variable info : nat -> task_info.
  Variable dryrun : bool.
  Variable needed : nat -> option bool.
  Variable real : nat -> option (exit_status * str * str).
  (** m_start_time, compilation_log.hpp:33: when the log is made, in nanoseconds *)
  Variable epoch : Z.

  Definition outcome (v : nat) : run_result := invoke_if_necessary dryrun (needed v) (real v).

  (** The thread that runs [v] makes a step in runIfNecessary. *)
  Definition live (v : nat) (T : timed_state) : option (list event * timed_state) :=
    match ahead T v with
    | [] => None
    | ReadStarted :: p =>
        Some ([], mk_timed_state (clock T) (set_at v (Some (clock T)) (started_at T)) (completed_at T)
                                 (set_at v p (ahead T)) (full T))
    | BeginCommand :: p =>
        Some ([CommandBegins v], mk_timed_state (clock T) (started_at T) (completed_at T) (set_at v p (ahead T)) (full T))
    | EndCommand :: p =>
        Some ([CommandEnds v], mk_timed_state (clock T) (started_at T) (completed_at T) (set_at v p (ahead T)) (full T))
    | ReadCompleted :: p =>
        Some ([], mk_timed_state (clock T) (started_at T) (set_at v (Some (clock T)) (completed_at T))
                                 (set_at v p (ahead T)) (full T))
    end.

  (** The thread that runs [v] has returned from runIfNecessary. *)
  Definition returned_from (v : nat) (T : timed_state) : bool :=
    match ahead T v with [] => true | _ => false end.

  (** compilation_log.cpp:64-67: the record of [v] has the times that have been read. *)
  Definition times_match (v : nat) (T : timed_state) : bool :=
    match started_at T v, completed_at T v with
    | Some a, Some b =>
        (task_started (info v) =? to_mus (a - epoch))%Z && (task_completed (info v) =? to_mus (b - epoch))%Z
    | _, _ => false
    end.

  (** With regard to runIfNecessary: it is called when a thread takes the task, and the
      task is not done with before it has returned. *)
  Definition begin_label (l : label) (f : nat -> list moment) : nat -> list moment :=
    match l with
    | Start v => set_at v (moments dryrun (needed v) (real v)) f
    | _ => f
    end.

  Definition allowed (T : timed_state) (l : label) : bool :=
    match l with Finish v _ => returned_from v T | _ => true end.

  Inductive timed_choice :=
  | Passing (d : nat)                 (* so many nanoseconds go by *)
  | Living (v : nat)
  | Others (c : full_choice).

  Definition timed_step (c : timed_choice) (T : timed_state) : option (list event * timed_state) :=
    match c with
    | Passing d =>
        Some ([], mk_timed_state (clock T + Z.of_nat d) (started_at T) (completed_at T) (ahead T) (full T))
    | Living v => live v T
    | Others c =>
        if match c with ByLog v => returned_from v T && times_match v T | ByPool _ => true end
        then
          match full_step reads level info outcome c (full T) with
          | None => None
          | Some (ls, F) =>
              if forallb (allowed T) ls
              then Some (map PoolEvent ls,
                         mk_timed_state (clock T) (started_at T) (completed_at T)
                                        (fold_left (fun f l => begin_label l f) ls (ahead T)) F)
              else None
          end
        else None
    end.

  (** The state at the start of [process]: the log has been made before, maike.cpp:380. *)
  Definition timed_init (now : Z) (rs : list task_result) (tasks : list nat) (ws : list worker) : timed_state :=
    mk_timed_state now (fun _ => None) (fun _ => None) (fun _ => []) (full_init rs tasks ws).

  (** Runs a given schedule: what happens, with the time at which it does. *)
  Fixpoint timed_run (cs : list timed_choice) (T : timed_state) : option (list (Z * event) * timed_state) :=
    match cs with
    | [] => Some ([], T)
    | c :: cs' =>
        match timed_step c T with
        | None => None
        | Some (es, T') =>
            match timed_run cs' T' with
            | None => None
            | Some (tr, T'') => Some (map (pair (clock T)) es ++ tr, T'')
            end
        end
    end.
End Timed.
