(** Model of [ThreadPool] and [AsyncTaskResult] (core/sched/thread_pool.hpp and
    thread_pool.cpp).

    As in SchedModel, everything that is done while a mutex is held is one step,
    and all interleavings are considered. Tasks and exceptions are identified by
    numbers; the same function may be submitted several times. The threads are
    assumed to have been created: the result of pthread_create is ignored by the
    constructor (thread_pool.cpp:13-22). *)

From Coq Require Import List Arith Bool.
From Verif Require Import SchedModel.
Import ListNotations.

(** A thread in [performTasks], thread_pool.cpp:40-58. *)
Inductive pool_worker :=
| PChecking                  (* has m_mtx, evaluates the condition, line 45 *)
| PSleeping                  (* blocked in m_cv.wait, line 45 *)
| PExecuting (t : nat)       (* line 51 *)
| PExited.                   (* line 55 *)

(** The thread that owns the pool. *)
Inductive pool_owner :=
| Alive                      (* the destructor has not been called *)
| Joining                    (* thread_pool.cpp:34-37 *)
| Destroyed.                 (* the destructor has returned *)

Record pool := mk_pool {
  pool_queue : list nat;              (* m_tasks *)
  pool_workers : list pool_worker;    (* m_threads *)
  pool_terminate : bool;              (* m_terminate *)
  pool_eptr : option nat;             (* m_eptr *)
  owner : pool_owner
}.

Inductive pool_label :=
| PSubmit (t : nat)                       (* addTask returns *)
| PStart (t : nat)                        (* the task is invoked *)
| PFinish (t : nat) (e : option nat)      (* it is done, or has thrown e *)
| PCollect (e : option nat)               (* takeLastException returns e *)
| PDestroyed.                             (* the destructor returns *)

Definition pool_sleeping (w : pool_worker) : bool :=
  match w with PSleeping => true | _ => false end.

(** m_cv.notify_one(): if threads are blocked, one of them (here [k]) is unblocked. *)
Definition notify_one (k : nat) (ws : list pool_worker) : option (list pool_worker) :=
  if existsb pool_sleeping ws
  then match nth_error ws k with
       | Some PSleeping => Some (update k PChecking ws)
       | _ => None
       end
  else Some ws.

(** m_cv.notify_all() *)
Definition notify_all (ws : list pool_worker) : list pool_worker :=
  map (fun w => match w with PSleeping => PChecking | _ => w end) ws.

(** The critical section of addTask, thread_pool.hpp:103-107 and 127-131 *)
Definition push_task (t k : nat) (s : pool) : option (list pool_label * pool) :=
  match notify_one k (pool_workers s) with
  | None => None
  | Some ws => Some ([PSubmit t], mk_pool (pool_queue s ++ [t]) ws (pool_terminate s) (pool_eptr s) (owner s))
  end.

Section Pool.
  (** Whether the task has been submitted by the addTask that stores exceptions
      in the pool (thread_pool.hpp:111-133). The other one stores them in the
      AsyncTaskResult (thread_pool.hpp:89-109). *)
  Variable stores : nat -> bool.

  (** thread_pool.hpp:124 *)
  Definition store_exception (t : nat) (e : option nat) (cur : option nat) : option nat :=
    if stores t
    then match cur with None => e | Some _ => cur end
    else cur.

  Definition set_worker (i : nat) (w : pool_worker) (s : pool) : pool :=
    mk_pool (pool_queue s) (update i w (pool_workers s)) (pool_terminate s) (pool_eptr s) (owner s).

  (** One step of worker [i]. [e] is the way the task ends. *)
  Definition pool_worker_step (i : nat) (e : option nat) (s : pool) : option (list pool_label * pool) :=
    match nth_error (pool_workers s) i with
    | Some PChecking =>
        match pool_queue s with
        | t :: q =>
            (* lines 46-51 *)
            Some ([PStart t], mk_pool q (update i (PExecuting t) (pool_workers s)) (pool_terminate s)
                                      (pool_eptr s) (owner s))
        | [] =>
            if pool_terminate s
            then Some ([], set_worker i PExited s)
            else Some ([], set_worker i PSleeping s)
        end
    | Some (PExecuting t) =>
        Some ([PFinish t e], mk_pool (pool_queue s) (update i PChecking (pool_workers s)) (pool_terminate s)
                                     (store_exception t e (pool_eptr s)) (owner s))
    | Some PSleeping | Some PExited | None => None
    end.

  Definition pool_exited (w : pool_worker) : bool := match w with PExited => true | _ => false end.

  Inductive pool_choice :=
  | OwnerSubmit (t k : nat)              (* addTask is called from outside *)
  | TaskSubmit (i t k : nat)             (* addTask is called by the task run by worker i *)
  | WorkerStep (i : nat) (e : option nat)
  | SpuriousWakeup (i : nat)
  | Collect                              (* takeLastException, thread_pool.hpp:135-141 *)
  | StartDestructor                      (* thread_pool.cpp:27-31 *)
  | FinishDestructor.                    (* thread_pool.cpp:34-37: all threads have been joined *)

  Definition pool_step (c : pool_choice) (s : pool) : option (list pool_label * pool) :=
    match c with
    | OwnerSubmit t k =>
        match owner s with
        | Alive => push_task t k s
        | _ => None
        end
    | TaskSubmit i t k =>
        match nth_error (pool_workers s) i with
        | Some (PExecuting _) => push_task t k s
        | _ => None
        end
    | WorkerStep i e => pool_worker_step i e s
    | SpuriousWakeup i =>
        match nth_error (pool_workers s) i with
        | Some PSleeping => Some ([], set_worker i PChecking s)
        | _ => None
        end
    | Collect =>
        match owner s with
        | Alive => Some ([PCollect (pool_eptr s)],
                         mk_pool (pool_queue s) (pool_workers s) (pool_terminate s) None (owner s))
        | _ => None
        end
    | StartDestructor =>
        match owner s with
        | Alive => Some ([], mk_pool (pool_queue s) (notify_all (pool_workers s)) true (pool_eptr s) Joining)
        | _ => None
        end
    | FinishDestructor =>
        match owner s with
        | Joining =>
            if forallb pool_exited (pool_workers s)
            then Some ([PDestroyed], mk_pool (pool_queue s) (pool_workers s) (pool_terminate s) (pool_eptr s) Destroyed)
            else None
        | _ => None
        end
    end.

  (** The constructor, thread_pool.cpp:8-24. *)
  Definition pool_init (n : nat) : pool := mk_pool [] (repeat PChecking n) false None Alive.

  Fixpoint pool_run (cs : list pool_choice) (s : pool) : option (list pool_label * pool) :=
    match cs with
    | [] => Some ([], s)
    | c :: cs' =>
        match pool_step c s with
        | None => None
        | Some (l, s') =>
            match pool_run cs' s' with
            | None => None
            | Some (tr, s'') => Some (l ++ tr, s'')
            end
        end
    end.
End Pool.

(** * AsyncTaskResult, thread_pool.hpp:27-74 *)

(** A thread in [get], [take] or the destructor. *)
Inductive reader :=
| RChecking                  (* has m_mtx, evaluates the condition *)
| RSleeping                  (* blocked *)
| RGot (v : nat)             (* returned m_result *)
| RThrew (e : nat).          (* rethrew m_except *)

(** What the task does: [set] with a result or an exception. *)
Inductive task_end := Value (v : nat) | Exception (e : nat).

Record async := mk_async {
  a_result : option nat;       (* m_result *)
  a_except : option nat;       (* m_except *)
  readers : list reader
}.

Definition reader_sleeping (r : reader) : bool := match r with RSleeping => true | _ => false end.

Definition wake_reader (k : nat) (rs : list reader) : option (list reader) :=
  if existsb reader_sleeping rs
  then match nth_error rs k with
       | Some RSleeping => Some (update k RChecking rs)
       | _ => None
       end
  else Some rs.

Inductive async_choice :=
| SetResult (r : task_end) (k : nat)   (* thread_pool.hpp:46-58 *)
| ReaderStep (i : nat)                 (* thread_pool.hpp:31-44 *)
| ReaderSpurious (i : nat).

Definition async_step (c : async_choice) (s : async) : option async :=
  match c with
  | SetResult r k =>
      match wake_reader k (readers s) with
      | None => None
      | Some rs => match r with
                   | Value v => Some (mk_async (Some v) (a_except s) rs)
                   | Exception e => Some (mk_async (a_result s) (Some e) rs)
                   end
      end
  | ReaderStep i =>
      match nth_error (readers s) i with
      | Some RChecking =>
          match a_except s, a_result s with
          | Some e, _ => Some (mk_async (a_result s) (a_except s) (update i (RThrew e) (readers s)))
          | None, Some v => Some (mk_async (a_result s) (a_except s) (update i (RGot v) (readers s)))
          | None, None => Some (mk_async (a_result s) (a_except s) (update i RSleeping (readers s)))
          end
      | _ => None
      end
  | ReaderSpurious i =>
      match nth_error (readers s) i with
      | Some RSleeping => Some (mk_async (a_result s) (a_except s) (update i RChecking (readers s)))
      | _ => None
      end
  end.

Definition async_init (n : nat) : async := mk_async None None (repeat RChecking n).

Fixpoint async_run (cs : list async_choice) (s : async) : option async :=
  match cs with
  | [] => Some s
  | c :: cs' => match async_step c s with None => None | Some s' => async_run cs' s' end
  end.
