(** Model of SignalingCounter (core/sched/signaling_counter.hpp) and Event
    (core/sched/event.hpp) on their own: any number of threads call their members, in any
    order. Their use by TaskList::process and by DirectoryScanner is part of SchedModel.v
    and ScanModel.v.

    As in SchedModel.v, everything that is done while the mutex is held is one step, and
    all interleavings are considered. *)

From Coq Require Import ZArith Bool.
From Coq Require Import List.
From Verif Require Import SchedModel.
Import ListNotations.

(** A thread that may call wait, signaling_counter.hpp:22-26, or waitAndReset,
    event.hpp:15-20 *)
Inductive waiter :=
| Outside                (* has not called *)
| Evaluating             (* has m_mtx, evaluates the condition *)
| Blocked                (* in m_cv.wait, with m_mtx released *)
| Back.                  (* the latest call has returned *)

Definition is_blocked (w : waiter) : bool := match w with Blocked => true | _ => false end.

(** m_cv.notify_one(): if threads are blocked, one of them (here [k]) is unblocked. *)
Definition notify (k : nat) (ws : list waiter) : option (list waiter) :=
  if existsb is_blocked ws
  then match nth_error ws k with
       | Some Blocked => Some (update k Evaluating ws)
       | _ => None
       end
  else Some ws.

(** A thread calls wait or waitAndReset; it may do so again after a return. *)
Definition enter (i : nat) (ws : list waiter) : option (list waiter) :=
  match nth_error ws i with
  | Some Outside | Some Back => Some (update i Evaluating ws)
  | _ => None
  end.

(** Condition variables may unblock a thread for no reason. *)
Definition unblock (i : nat) (ws : list waiter) : option (list waiter) :=
  match nth_error ws i with
  | Some Blocked => Some (update i Evaluating ws)
  | _ => None
  end.

(** * SignalingCounter. The value is an integer here; overflow is not considered. *)

Record counter := mk_counter { value : Z; waiting : list waiter }.

Inductive counter_choice :=
| Increment (k : nat)          (* lines 28-34, 56-59 *)
| Decrement (k : nat)          (* lines 36-42, 61-64 *)
| CounterCall (i : nat)
| CounterCheck (i : nat)
| CounterSpurious (i : nat).

Section Counter.
  (** The value that each of the threads waits for *)
  Variable goal : nat -> Z.

  Definition counter_step (c : counter_choice) (s : counter) : option counter :=
    match c with
    | Increment k => option_map (mk_counter (value s + 1)) (notify k (waiting s))
    | Decrement k => option_map (mk_counter (value s - 1)) (notify k (waiting s))
    | CounterCall i => option_map (mk_counter (value s)) (enter i (waiting s))
    | CounterSpurious i => option_map (mk_counter (value s)) (unblock i (waiting s))
    | CounterCheck i =>
        match nth_error (waiting s) i with
        | Some Evaluating =>
            Some (mk_counter (value s) (update i (if Z.eqb (value s) (goal i) then Back else Blocked) (waiting s)))
        | _ => None
        end
    end.

  Fixpoint counter_run (cs : list counter_choice) (s : counter) : option counter :=
    match cs with
    | [] => Some s
    | c :: cs' => match counter_step c s with Some s' => counter_run cs' s' | None => None end
    end.
End Counter.

(** There are [n] threads. *)
Definition new_counter (v : Z) (n : nat) : counter := mk_counter v (repeat Outside n).

(** * Event *)

Record event := mk_event { status : bool; sleepers : list waiter }.

Inductive event_choice :=
| SetEvent (k : nat)           (* lines 22-27 *)
| EventCall (i : nat)
| EventCheck (i : nat)
| EventSpurious (i : nat).

(** What can be seen: set returns, and waitAndReset returns *)
Inductive event_label := WasSet | Released (i : nat).

Definition event_step (c : event_choice) (s : event) : option (list event_label * event) :=
  match c with
  | SetEvent k => option_map (fun ws => ([WasSet], mk_event true ws)) (notify k (sleepers s))
  | EventCall i => option_map (fun ws => ([], mk_event (status s) ws)) (enter i (sleepers s))
  | EventSpurious i => option_map (fun ws => ([], mk_event (status s) ws)) (unblock i (sleepers s))
  | EventCheck i =>
      match nth_error (sleepers s) i with
      | Some Evaluating =>
          if status s
          then Some ([Released i], mk_event false (update i Back (sleepers s)))
          else Some ([], mk_event false (update i Blocked (sleepers s)))
      | _ => None
      end
  end.

Fixpoint event_run (cs : list event_choice) (s : event) : option (list event_label * event) :=
  match cs with
  | [] => Some ([], s)
  | c :: cs' =>
      match event_step c s with
      | None => None
      | Some (l, s') =>
          match event_run cs' s' with
          | None => None
          | Some (tr, s'') => Some (l ++ tr, s'')
          end
      end
  end.

Definition new_event (n : nat) : event := mk_event false (repeat Outside n).
