(** Properties C12, C13 and C49: the thread pool. *)

From Coq Require Import List Arith Permutation.
From Verif Require Import PoolModel PoolSpec PoolProofs.
Import ListNotations.

(** C12. At any time the tasks that have been started are the first ones that
    were submitted, in the same order, and the others are waiting. Every task
    that was started has finished, except for at most one per thread. *)
Theorem C12_started_in_order_once : forall stores n, 0 < n ->
    forall cs tr s, pool_run stores cs (pool_init n) = Some (tr, s) ->
    pool_submitted tr = pool_started tr ++ pool_queue s /\
    exists current, Permutation (pool_started tr) (current ++ pool_finished tr) /\ length current <= n.
Proof. exact (fun stores n Hn cs tr s H => pool_fifo stores n Hn tr s (pool_run_exec stores n cs tr s H)). Qed.
Print Assumptions C12_started_in_order_once.

(** When the destructor has returned, everything has been executed. *)
Theorem C12_all_done_when_destroyed : forall stores n, 0 < n ->
    forall cs tr s, pool_run stores cs (pool_init n) = Some (tr, s) -> In PDestroyed tr ->
    pool_started tr = pool_submitted tr /\ Permutation (pool_submitted tr) (pool_finished tr).
Proof.
  exact (fun stores n Hn cs tr s H Hd =>
    let E := pool_run_exec stores n cs tr s H in
    pool_destroyed stores n Hn tr s E (proj1 (destroyed_in_trace stores n tr s E) Hd)).
Qed.
Print Assumptions C12_all_done_when_destroyed.

(** No task waits because of a thread that sleeps. *)
Theorem C12_no_idle_threads : forall stores n, 0 < n ->
    forall cs tr s, pool_run stores cs (pool_init n) = Some (tr, s) ->
    0 < count_workers is_asleep s -> length (pool_queue s) <= count_workers is_checking s.
Proof. exact (fun stores n Hn cs tr s H => pool_work_conserving stores n Hn tr s (pool_run_exec stores n cs tr s H)). Qed.
Print Assumptions C12_no_idle_threads.

Theorem C12_no_deadlock : forall stores n, 0 < n ->
    forall cs tr s, pool_run stores cs (pool_init n) = Some (tr, s) -> owner s = Alive ->
    (exists i l s', pool_step stores (WorkerStep i None) s = Some (l, s')) \/
    (pool_queue s = [] /\ forall w, In w (pool_workers s) -> w = PSleeping).
Proof. exact (fun stores n Hn cs tr s H => pool_live stores n Hn tr s (pool_run_exec stores n cs tr s H)). Qed.
Print Assumptions C12_no_deadlock.

Theorem C12_destructor_returns : forall stores n, 0 < n ->
    forall cs tr s, pool_run stores cs (pool_init n) = Some (tr, s) ->
    forall m, destructor_returns stores m s.
Proof.
  exact (fun stores n Hn cs tr s H m => pool_destructor_returns stores n Hn m tr s (pool_run_exec stores n cs tr s H)).
Qed.
Print Assumptions C12_destructor_returns.

(** C13. What is collected is the first exception since the last collection. *)
Theorem C13_exceptions_are_kept : forall stores n, 0 < n ->
    forall cs tr s, pool_run stores cs (pool_init n) = Some (tr, s) ->
    forall tr1 e tr2, tr = tr1 ++ PCollect e :: tr2 ->
    e = first_exception stores (since_collect tr1 []).
Proof. exact (fun stores n Hn cs tr s H => pool_collect stores n Hn tr s (pool_run_exec stores n cs tr s H)). Qed.
Print Assumptions C13_exceptions_are_kept.

(** C49 *)
Theorem C49_nothing_before_the_result : forall n cs s, existsb sets cs = false ->
    async_run cs (async_init n) = Some s ->
    forall x, In x (readers s) -> ~ reader_done x.
Proof. exact async_not_before. Qed.
Print Assumptions C49_nothing_before_the_result.

Theorem C49_readers_get_the_result : forall n cs1 o k cs2 s, existsb sets (cs1 ++ cs2) = false ->
    async_run (cs1 ++ SetResult o k :: cs2) (async_init n) = Some s ->
    forall x, In x (readers s) -> reader_done x -> x = delivered o.
Proof. exact async_delivers. Qed.
Print Assumptions C49_readers_get_the_result.

(** A single reader does not wait any more once the result is there... *)
Theorem C49_single_reader_returns_partial : forall cs1 o k cs2 s, existsb sets (cs1 ++ cs2) = false ->
    async_run (cs1 ++ SetResult o k :: cs2) (async_init 1) = Some s ->
    readers s = [delivered o] \/
    (exists s', async_step (ReaderStep 0) s = Some s' /\ readers s' = [delivered o]).
Proof. exact async_single_reader. Qed.
Print Assumptions C49_single_reader_returns_partial.

(** ... but if there are two, one of them may wait forever. *)
Theorem C49_all_readers_return_refuted : exists cs1 o k cs2 s,
    existsb sets (cs1 ++ cs2) = false /\
    async_run (cs1 ++ SetResult o k :: cs2) (async_init 2) = Some s /\
    (exists x, In x (readers s) /\ ~ reader_done x) /\
    forall i, async_step (ReaderStep i) s = None.
Proof. exact async_two_readers. Qed.
Print Assumptions C49_all_readers_return_refuted.

(** * Concrete cases *)

(** Two threads. Task 1 submits task 3 while it runs. Tasks 1 and 2 throw, task 2
    last. *)
Definition pool_schedule : list pool_choice :=
  [WorkerStep 0 None; OwnerSubmit 1 0; OwnerSubmit 2 0; WorkerStep 0 None; WorkerStep 1 None;
   TaskSubmit 0 3 0; WorkerStep 0 (Some 10); WorkerStep 0 None; WorkerStep 1 (Some 20); Collect; Collect;
   WorkerStep 1 None; SpuriousWakeup 1; WorkerStep 1 None; StartDestructor; WorkerStep 0 None; WorkerStep 1 None;
   WorkerStep 0 None; FinishDestructor].

Example pool_example :
  option_map fst (pool_run (fun _ => true) pool_schedule (pool_init 2)) =
  Some [PSubmit 1; PSubmit 2; PStart 1; PStart 2; PSubmit 3; PFinish 1 (Some 10); PStart 3; PFinish 2 (Some 20);
        PCollect (Some 10); PCollect None; PFinish 3 None; PDestroyed].
Proof. vm_compute. reflexivity. Qed.

(** The exceptions of task 1 are not left to the pool. *)
Example pool_example_stores :
  first_exception (fun t => negb (Nat.eqb t 1))
    (since_collect [PSubmit 1; PSubmit 2; PStart 1; PStart 2; PSubmit 3; PFinish 1 (Some 10); PStart 3; PFinish 2 (Some 20)] []) =
  Some 20.
Proof. vm_compute. reflexivity. Qed.

(** A thread sleeps while there are tasks in the queue, but another one is about
    to take them. *)
Example pool_example_sleeping :
  option_map (fun r => (pool_queue (snd r), pool_workers (snd r)))
    (pool_run (fun _ => true) [WorkerStep 0 None; WorkerStep 1 None; OwnerSubmit 1 0] (pool_init 2)) =
  Some ([1], [PChecking; PSleeping]).
Proof. vm_compute. reflexivity. Qed.

Example async_example :
  async_run [ReaderStep 0; SetResult (Exception 5) 0; ReaderStep 0] (async_init 1) =
  Some (mk_async None (Some 5) [RThrew 5]).
Proof. vm_compute. reflexivity. Qed.
