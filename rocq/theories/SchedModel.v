(** Model of [TaskList::process] (core/db/task_list.cpp) running on a
    [ThreadPool] (core/sched/thread_pool.hpp, thread_pool.cpp), with the
    synchronisation objects it uses (core/sched/event.hpp and
    core/sched/signaling_counter.hpp).

    A state holds everything the threads share, and the position of each thread
    in its code. Whatever a thread does while it holds a mutex is one step, and
    so is every read or write of an atomic. All interleavings of such steps are
    considered: [step] is given the thread that makes the next step, together
    with the outcomes that do not depend on the program. *)

From Coq Require Import List Arith Bool.
Import ListNotations.

(** task_result.hpp:6-11 *)
Inductive task_result := Pending | Success | Failure.

(** How the function that is run for a task can end (task_list.cpp:97-114):
    the result is recorded as success; it is recorded as failure, and "Compilation
    failed" is thrown; or [runIfNecessary] or the log throws, so that nothing is
    recorded. *)
Inductive task_outcome := Succeeds | Fails | Throws.

(** A thread in [ThreadPool::performTasks] (thread_pool.cpp:40-58). *)
Inductive worker :=
| WChecking                 (* has m_mtx, evaluates the condition, line 45 *)
| WSleeping                 (* blocked in m_cv.wait, line 45 *)
| WRunning (v : nat)        (* runs the function of task v, line 51 *)
| WThrowing (v : nat)       (* an exception is on its way to thread_pool.hpp:121 *)
| WLeaving (v : nat)        (* destroys the function of task v: at_exit is next,
                               task_list.cpp:96 *)
| WUnlocking (v : nat).     (* destroys the function of task v: counter is next,
                               task_list.cpp:94 *)

(** The thread in [TaskList::process], task_list.cpp:59-127. *)
Inductive phase :=
| Loop                      (* line 77 *)
| Checking (ds : list nat)  (* line 79: the results in ds are still to be read *)
| EventWait                 (* line 71; event.hpp:18, evaluates the condition *)
| EventSleep                (* line 71; event.hpp:18, blocked *)
| CounterWait               (* line 122; signaling_counter.hpp:25, evaluates the condition *)
| CounterSleep              (* line 122; signaling_counter.hpp:25, blocked *)
| Taking                    (* line 124 *)
| Returned (n : nat)        (* line 126 *)
| Threw (v : nat)           (* line 124, the exception thrown by task v *)
| UndefinedPhase.           (* undefined behaviour *)

Record state := mk_state {
  results : list task_result;       (* m_results *)
  passed : list nat;                (* m_tasks, before the position of i *)
  rest : list nat;                  (* m_tasks, from the position of i *)
  ph : phase;
  queue : list nat;                 (* ThreadPool::m_tasks *)
  workers : list worker;
  event : bool;                     (* Event::m_status *)
  counter : nat;                    (* SignalingCounter::m_value *)
  eptr : option nat;                (* ThreadPool::m_eptr: the task it is from *)
  num_tasks : nat
}.

(** What can be seen from outside. *)
Inductive label :=
| Submit (v : nat)                        (* addTask is called *)
| Start (v : nat)                         (* a worker starts to run the task *)
| Finish (v : nat) (o : task_outcome).    (* it is done with the task *)

Fixpoint update {A} (k : nat) (x : A) (l : list A) : list A :=
  match l, k with
  | [], _ => []
  | _ :: l', 0 => x :: l'
  | y :: l', S k' => y :: update k' x l'
  end.

Definition is_sleeping (w : worker) : bool :=
  match w with WSleeping => true | _ => false end.

(** m_cv.notify_one() by addTask (thread_pool.hpp:127-131): if threads are blocked,
    one of them (here [k]) is unblocked. *)
Definition notify_pool (k : nat) (ws : list worker) : option (list worker) :=
  if existsb is_sleeping ws
  then match nth_error ws k with
       | Some WSleeping => Some (update k WChecking ws)
       | _ => None
       end
  else Some ws.

Section Process.
  (** [reads v] lists the results that [Task::status] (task.cpp:31-61) looks at
      for task [v], in order: those of the build dependencies, then those of
      m_use_deps. *)
  Variable reads : nat -> list nat.

  Definition set_phase (p : phase) (s : state) : state :=
    mk_state (results s) (passed s) (rest s) p (queue s) (workers s) (event s) (counter s)
             (eptr s) (num_tasks s).

  (** wrap_iterator, task_list.cpp:67-73, then back to the head of the loop. *)
  Definition wrap_iterator (before after : list nat) : list nat * list nat * phase :=
    match after with
    | [] => ([], before, EventWait)
    | _ => (before, after, Loop)
    end.

  (** One step of the thread in [process]. [k] is used by notify_one. *)
  Definition process_step (k : nat) (s : state) : option (list label * state) :=
    match ph s with
    | Loop =>
        match passed s, rest s with
        | [], [] => Some ([], set_phase CounterWait s)
        | _, [] => Some ([], set_phase UndefinedPhase s)
        | _, t :: _ => Some ([], set_phase (Checking (reads t)) s)
        end
    | Checking ds =>
        match rest s with
        | [] => Some ([], set_phase UndefinedPhase s)
        | t :: after =>
            match ds with
            | d :: ds' =>
                match nth_error (results s) d with
                | None => Some ([], set_phase UndefinedPhase s)
                | Some Success => Some ([], set_phase (Checking ds') s)
                | Some Pending =>
                    (* lines 81-84 *)
                    match wrap_iterator (passed s ++ [t]) after with
                    | (before', after', p) =>
                        Some ([], mk_state (results s) before' after' p (queue s) (workers s)
                                           (event s) (counter s) (eptr s) (num_tasks s))
                    end
                | Some Failure =>
                    (* line 86 *)
                    Some ([], mk_state (results s) [] [] Loop (queue s) (workers s)
                                       (event s) (counter s) (eptr s) (num_tasks s))
                end
            | [] =>
                (* lines 88-118. The counter is incremented when the function
                   object is made; nobody else looks at it until line 122. *)
                match notify_pool k (workers s) with
                | None => None
                | Some ws =>
                    match wrap_iterator (passed s) after with
                    | (before', after', p) =>
                        Some ([Submit t],
                              mk_state (results s) before' after' p (queue s ++ [t]) ws
                                       (event s) (S (counter s)) (eptr s) (S (num_tasks s)))
                    end
                end
            end
        end
    | EventWait =>
        (* event.hpp:15-20 *)
        if event s
        then Some ([], mk_state (results s) (passed s) (rest s) Loop (queue s) (workers s)
                                false (counter s) (eptr s) (num_tasks s))
        else Some ([], set_phase EventSleep s)
    | CounterWait =>
        (* signaling_counter.hpp:22-26 *)
        if counter s =? 0 then Some ([], set_phase Taking s) else Some ([], set_phase CounterSleep s)
    | Taking =>
        (* line 124 and thread_pool.hpp:135-141 *)
        match eptr s with
        | None => Some ([], set_phase (Returned (num_tasks s)) s)
        | Some v => Some ([], mk_state (results s) (passed s) (rest s) (Threw v) (queue s)
                                       (workers s) (event s) (counter s) None (num_tasks s))
        end
    | EventSleep | CounterSleep | Returned _ | Threw _ | UndefinedPhase => None
    end.

  (** notify_one of the event and of the counter; [process] is the only thread
      that waits for them. *)
  Definition wake_event (p : phase) : phase :=
    match p with EventSleep => EventWait | _ => p end.
  Definition wake_counter (p : phase) : phase :=
    match p with CounterSleep => CounterWait | _ => p end.

  (** One step of worker [i]. [o] is used when it completes a task. *)
  Definition worker_step (i : nat) (o : task_outcome) (s : state) : option (list label * state) :=
    match nth_error (workers s) i with
    | None => None
    | Some WSleeping => None
    | Some WChecking =>
        match queue s with
        | v :: q =>
            Some ([Start v], mk_state (results s) (passed s) (rest s) (ph s) q
                                      (update i (WRunning v) (workers s)) (event s) (counter s)
                                      (eptr s) (num_tasks s))
        | [] =>
            Some ([], mk_state (results s) (passed s) (rest s) (ph s) []
                               (update i WSleeping (workers s)) (event s) (counter s)
                               (eptr s) (num_tasks s))
        end
    | Some (WRunning v) =>
        (* task_list.cpp:97-114 *)
        match o with
        | Succeeds =>
            Some ([Finish v o], mk_state (update v Success (results s)) (passed s) (rest s) (ph s)
                                         (queue s) (update i (WLeaving v) (workers s)) (event s)
                                         (counter s) (eptr s) (num_tasks s))
        | Fails =>
            Some ([Finish v o], mk_state (update v Failure (results s)) (passed s) (rest s) (ph s)
                                         (queue s) (update i (WThrowing v) (workers s)) (event s)
                                         (counter s) (eptr s) (num_tasks s))
        | Throws =>
            Some ([Finish v o], mk_state (results s) (passed s) (rest s) (ph s)
                                         (queue s) (update i (WThrowing v) (workers s)) (event s)
                                         (counter s) (eptr s) (num_tasks s))
        end
    | Some (WThrowing v) =>
        (* thread_pool.hpp:121-125 *)
        Some ([], mk_state (results s) (passed s) (rest s) (ph s) (queue s)
                           (update i (WLeaving v) (workers s)) (event s) (counter s)
                           (match eptr s with None => Some v | Some u => Some u end) (num_tasks s))
    | Some (WLeaving v) =>
        (* event.hpp:22-27 *)
        Some ([], mk_state (results s) (passed s) (rest s) (wake_event (ph s)) (queue s)
                           (update i (WUnlocking v) (workers s)) true (counter s)
                           (eptr s) (num_tasks s))
    | Some (WUnlocking v) =>
        (* signaling_counter.hpp:36-42 *)
        Some ([], mk_state (results s) (passed s) (rest s) (wake_counter (ph s)) (queue s)
                           (update i WChecking (workers s)) (event s) (pred (counter s))
                           (eptr s) (num_tasks s))
    end.

  (** Condition variables may unblock a thread for no reason. *)
  Definition spurious_process (s : state) : option (list label * state) :=
    match ph s with
    | EventSleep => Some ([], set_phase EventWait s)
    | CounterSleep => Some ([], set_phase CounterWait s)
    | _ => None
    end.

  Definition spurious_worker (i : nat) (s : state) : option (list label * state) :=
    match nth_error (workers s) i with
    | Some WSleeping =>
        Some ([], mk_state (results s) (passed s) (rest s) (ph s) (queue s)
                           (update i WChecking (workers s)) (event s) (counter s)
                           (eptr s) (num_tasks s))
    | _ => None
    end.

  Inductive choice :=
  | ByProcess (k : nat)
  | ByWorker (i : nat) (o : task_outcome)
  | SpuriousProcess
  | SpuriousWorker (i : nat).

  Definition step (c : choice) (s : state) : option (list label * state) :=
    match c with
    | ByProcess k => process_step k s
    | ByWorker i o => worker_step i o s
    | SpuriousProcess => spurious_process s
    | SpuriousWorker i => spurious_worker i s
    end.

  (** The state at the start of [process]. *)
  Definition init (rs : list task_result) (tasks : list nat) (ws : list worker) : state :=
    mk_state rs [] tasks Loop [] ws false 0 None 0.

  (** Runs a given schedule. *)
  Fixpoint run (cs : list choice) (s : state) : option (list label * state) :=
    match cs with
    | [] => Some ([], s)
    | c :: cs' =>
        match step c s with
        | None => None
        | Some (l, s') =>
            match run cs' s' with
            | None => None
            | Some (tr, s'') => Some (l ++ tr, s'')
            end
        end
    end.
End Process.
