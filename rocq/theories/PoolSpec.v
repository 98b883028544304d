(** Vocabulary for statements about the thread pool. *)

From Coq Require Import List Arith.
From Verif Require Import PoolModel.
Import ListNotations.

(** In the order of the trace. *)
Definition pool_submitted (tr : list pool_label) : list nat :=
  flat_map (fun l => match l with PSubmit t => [t] | _ => [] end) tr.
Definition pool_started (tr : list pool_label) : list nat :=
  flat_map (fun l => match l with PStart t => [t] | _ => [] end) tr.
Definition pool_finished (tr : list pool_label) : list nat :=
  flat_map (fun l => match l with PFinish t _ => [t] | _ => [] end) tr.

(** The part of the trace after the most recent collection. *)
Fixpoint since_collect (tr : list pool_label) (acc : list pool_label) : list pool_label :=
  match tr with
  | [] => acc
  | PCollect _ :: tr' => since_collect tr' []
  | l :: tr' => since_collect tr' (acc ++ [l])
  end.

(** The first exception thrown by a task that leaves its exceptions to the pool. *)
Fixpoint first_exception (stores : nat -> bool) (tr : list pool_label) : option nat :=
  match tr with
  | [] => None
  | PFinish t (Some e) :: tr' => if stores t then Some e else first_exception stores tr'
  | _ :: tr' => first_exception stores tr'
  end.

Definition count_workers (f : pool_worker -> bool) (s : pool) : nat := length (filter f (pool_workers s)).

Definition is_checking (w : pool_worker) : bool := match w with PChecking => true | _ => false end.
Definition is_asleep (w : pool_worker) : bool := match w with PSleeping => true | _ => false end.

(** A step of one of the threads other than submitting a task, collecting an
    exception, and spurious wakeups. *)
Definition pool_internal (c : pool_choice) : Prop :=
  match c with WorkerStep _ _ | StartDestructor | FinishDestructor => True | _ => False end.

(** Once the destructor has been called it returns, if no more than [n] tasks are
    submitted by other tasks: as long as it has not returned some thread can make
    a step other than submitting, and this cannot go on forever. *)
Inductive destructor_returns (stores : nat -> bool) : nat -> pool -> Prop :=
| returned : forall n s, owner s = Destroyed -> destructor_returns stores n s
| returns_later : forall n s,
    (exists c l s', pool_internal c /\ pool_step stores c s = Some (l, s')) ->
    (forall c l s', pool_internal c -> pool_step stores c s = Some (l, s') -> destructor_returns stores n s') ->
    (forall m i t k l s', n = S m -> pool_step stores (TaskSubmit i t k) s = Some (l, s') ->
                          destructor_returns stores m s') ->
    destructor_returns stores n s.

(** * AsyncTaskResult *)

Definition sets (c : async_choice) : bool := match c with SetResult _ _ => true | _ => false end.

(** What a reader gets. *)
Definition delivered (r : task_end) : reader :=
  match r with Value v => RGot v | Exception e => RThrew e end.

Definition reader_done (r : reader) : Prop := match r with RGot _ | RThrew _ => True | _ => False end.
