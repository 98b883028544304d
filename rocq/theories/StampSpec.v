(** Vocabulary for statements about the times in the compilation log. *)

From Coq Require Import List ZArith.
From Verif Require Import Str BuildModel LogModel SchedModel WriteModel StampModel.
Import ListNotations.

(** What the pool does. *)
Definition pool_trace (tr : list (Z * event)) : list label :=
  flat_map (fun e => match snd e with PoolEvent l => [l] | _ => [] end) tr.

(** Work on [v] has come to an end, with or without success. *)
Definition ended (tr : list (Z * event)) (v : nat) : Prop :=
  In (Finish v Succeeds) (pool_trace tr) \/ In (Finish v Fails) (pool_trace tr).

(** According to the log, [v] is being worked on in microsecond [t]. *)
Definition in_progress (info : nat -> task_info) (t : Z) (v : nat) : Prop :=
  (task_started (info v) <= t < task_completed (info v))%Z.

(** Number [n] of microseconds since [epoch] stands for time [t] in nanoseconds. *)
Definition stands_for (epoch n t : Z) : Prop := (epoch + 1000 * n <= t < epoch + 1000 * (n + 1))%Z.

(** The clock can represent time [t], and the difference to [epoch]. *)
Definition clock_range (epoch t : Z) : Prop := (t - epoch < 2 ^ 63)%Z.

(** What is to be found in the log about a task: it did not have to be run; it is only
    said what would have been run; or the command that was run ended with a status. *)
Inductive delivered (dryrun : bool) : option bool -> option (exit_status * str * str) -> run_result -> Prop :=
| delivered_nothing : forall r, delivered dryrun (Some false) r Skipped
| delivered_dry : forall r, dryrun = true -> delivered dryrun (Some true) r (Executed (ExitCode 0) [] [])
| delivered_real : forall st out err, dryrun = false ->
    delivered dryrun (Some true) (Some (st, out, err)) (Executed st out err).
