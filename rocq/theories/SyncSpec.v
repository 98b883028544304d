(** Vocabulary for counters and events. *)

From Coq Require Import ZArith.
From Coq Require Import List.
From Verif Require Import SyncModel.
Import ListNotations.

(** The thread has called wait, which has not returned. *)
Definition is_waiting (w : waiter) : Prop := w = Evaluating \/ w = Blocked.

(** How many times the counter has been incremented, minus how many times it has been
    decremented *)
Fixpoint total (cs : list counter_choice) : Z :=
  match cs with
  | [] => 0
  | Increment _ :: cs' => 1 + total cs'
  | Decrement _ :: cs' => total cs' - 1
  | _ :: cs' => total cs'
  end.

(** Nobody changes the counter, and no thread is unblocked for no reason. *)
Definition quiet (c : counter_choice) : Prop :=
  match c with Increment _ | Decrement _ | CounterSpurious _ => False | _ => True end.
