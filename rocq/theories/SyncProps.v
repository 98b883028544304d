(** Properties C91 and C92: counters and events. *)

From Coq Require Import ZArith.
From Coq Require Import List.
From Verif Require Import SyncModel SyncSpec SyncProofs.
Import ListNotations.

(** C91. The counter has the value that it has been given. *)
Theorem C91_value : forall (goal : nat -> Z) (v : Z) (n : nat) (cs : list counter_choice) (s : counter),
  counter_run goal cs (new_counter v n) = Some s -> value s = (v + total cs)%Z.
Proof. exact value_start. Qed.
Print Assumptions C91_value.

(** A call to wait returns only when the counter has the value that is waited for: it
    had this value when the thread looked at it, after the call. *)
Theorem C91_not_early : forall (goal : nat -> Z) (v : Z) (n : nat) (cs : list counter_choice) (s : counter) (i : nat),
  counter_run goal cs (new_counter v n) = Some s -> nth_error (waiting s) i = Some Back ->
  exists cs1 cs2 s1, cs = cs1 ++ CounterCheck i :: cs2 /\ counter_run goal cs1 (new_counter v n) = Some s1 /\
    nth_error (waiting s1) i = Some Evaluating /\ value s1 = goal i /\ ~ In (CounterCall i) cs2.
Proof. exact back_value. Qed.
Print Assumptions C91_not_early.

(** If there is only one thread that waits, it returns when the counter has reached the
    value and keeps it: it is not blocked, and its next step is to return. *)
Theorem C91_single_partial : forall (goal : nat -> Z) (v : Z) (cs : list counter_choice) (s : counter) (w : waiter),
  counter_run goal cs (new_counter v 1) = Some s ->
  nth_error (waiting s) 0 = Some w -> is_waiting w -> value s = goal 0 ->
  exists s', counter_step goal (CounterCheck 0) s = Some s' /\ nth_error (waiting s') 0 = Some Back.
Proof. exact single_returns. Qed.
Print Assumptions C91_single_partial.

(** If there are two, one of them may wait forever. *)
Theorem C91_all_return_refuted :
  exists cs s, counter_run (fun _ => 0%Z) cs (new_counter 1 2) = Some s /\ value s = 0%Z /\
  nth_error (waiting s) 0 = Some Back /\ nth_error (waiting s) 1 = Some Blocked /\
  forall cs' s', Forall quiet cs' -> counter_run (fun _ => 0%Z) cs' s = Some s' ->
    value s' = 0%Z /\ nth_error (waiting s') 1 = Some Blocked.
Proof. exact second_stays. Qed.
Print Assumptions C91_all_return_refuted.

(** C92. Each return belongs to a call to set of its own, which was made after the
    previous return (or after the beginning). *)
Theorem C92_one_each : forall (n : nat) (cs : list event_choice) (tr : list event_label) (s : event),
  event_run cs (new_event n) = Some (tr, s) ->
  (forall b j c, tr = b ++ Released j :: c -> In WasSet b) /\
  (forall a i b j c, tr = a ++ Released i :: b ++ Released j :: c -> In WasSet b).
Proof. exact set_between. Qed.
Print Assumptions C92_one_each.

(** If the event has been set since the last return, and threads are waiting, no matter
    how many, then one of them is able to return. *)
Theorem C92_not_missed : forall (n : nat) (cs : list event_choice) (a b : list event_label) (s : event),
  event_run cs (new_event n) = Some (a ++ WasSet :: b, s) -> (forall i, ~ In (Released i) b) ->
  (exists i w, nth_error (sleepers s) i = Some w /\ is_waiting w) ->
  exists i s', event_step (EventCheck i) s = Some ([Released i], s').
Proof.
  exact (fun n cs a b s H N =>
    not_missed n cs _ s H (proj2 (status_meaning n cs _ s H) (ex_intro _ a (ex_intro _ b (conj eq_refl N))))).
Qed.
Print Assumptions C92_not_missed.

(** Three threads use a counter as in TaskList::process, and a fourth one waits. *)
Example counter_case :
  counter_run (fun _ => 0%Z)
    [Increment 0; CounterCall 0; CounterCheck 0; Increment 0; CounterCheck 0; Decrement 0; CounterCheck 0; Decrement 0; CounterCheck 0]
    (new_counter 0 1)
  = Some (mk_counter 0 [Back]).
Proof. reflexivity. Qed.

Example event_case :
  event_run [EventCall 0; EventCall 1; EventCheck 0; EventCheck 1; SetEvent 1; SetEvent 0; EventCheck 0; EventCheck 1; SetEvent 1]
    (new_event 3)
  = Some ([WasSet; WasSet; Released 0; WasSet], mk_event true [Back; Evaluating; Outside]).
Proof. reflexivity. Qed.
