(** Vocabulary for statements about running a list of tasks. *)

From Coq Require Import List Arith.
From Verif Require Import SchedModel.
Import ListNotations.

(** [tasks] has been set up correctly: there are no duplicates, all tasks are
    pending, and whatever a task looks at is either an earlier task or done. *)
Record task_setup (reads : nat -> list nat) (rs : list task_result) (tasks : list nat) : Prop :=
  mk_task_setup {
    setup_nodup : NoDup tasks;
    setup_pending : forall v, In v tasks -> nth_error rs v = Some Pending;
    setup_order : forall l1 v l2, tasks = l1 ++ v :: l2 ->
                  forall d, In d (reads v) -> In d l1 \/ (~ In d tasks /\ nth_error rs d = Some Success)
  }.

(** A pool with at least one thread and nothing to do. *)
Definition idle_pool (ws : list worker) : Prop :=
  ws <> [] /\ forall w, In w ws -> w = WChecking \/ w = WSleeping.

(** In the order of the trace. *)
Definition submitted (tr : list label) : list nat :=
  flat_map (fun l => match l with Submit v => [v] | _ => [] end) tr.
Definition started (tr : list label) : list nat :=
  flat_map (fun l => match l with Start v => [v] | _ => [] end) tr.
Definition finished (tr : list label) : list nat :=
  flat_map (fun l => match l with Finish v _ => [v] | _ => [] end) tr.

Definition final (p : phase) : Prop :=
  match p with Returned _ | Threw _ => True | _ => False end.

(** The steps that the program makes (as opposed to spurious wakeups). *)
Definition proper (c : choice) : Prop :=
  match c with ByProcess _ | ByWorker _ _ => True | SpuriousProcess | SpuriousWorker _ => False end.

(** A step of the program from [s] to [s']. *)
Definition program_step (reads : nat -> list nat) (s s' : state) : Prop :=
  exists c l, proper c /\ step reads c s = Some (l, s').

(** Task [v] is directly, or indirectly by way of other tasks, waiting for [d]. *)
Inductive waits_for (reads : nat -> list nat) (tasks : list nat) : nat -> nat -> Prop :=
| waits_direct : forall v d, In d (reads v) -> waits_for reads tasks v d
| waits_trans : forall v u d, In u (reads v) -> In u tasks -> waits_for reads tasks u d ->
                              waits_for reads tasks v d.

(** Task [v] is not waited for by any task. *)
Definition not_waited_for (reads : nat -> list nat) (tasks : list nat) (v : nat) : Prop :=
  forall t, In t tasks -> ~ In v (reads t).

(** The step with labels [l] is not the end of a task that others wait for
    without any result being recorded. *)
Definition harmless (reads : nat -> list nat) (tasks : list nat) (l : list label) : Prop :=
  forall v, In (Finish v Throws) l -> not_waited_for reads tasks v.

(** Whatever the threads do, [process] ends: as long as it has not, some thread
    can make a step, and this cannot go on forever. *)
Inductive always_ends (reads : nat -> list nat) (tasks : list nat) (s : state) : Prop :=
| ends_now : final (ph s) -> always_ends reads tasks s
| ends_later :
    (exists c l s', proper c /\ step reads c s = Some (l, s')) ->
    (forall c l s', proper c -> harmless reads tasks l -> step reads c s = Some (l, s') ->
                    always_ends reads tasks s') ->
    always_ends reads tasks s.

(** No thread is using the local variables of [process]. *)
Definition locals_unused (s : state) : Prop :=
  queue s = [] /\ forall w, In w (workers s) -> w = WChecking \/ w = WSleeping.
