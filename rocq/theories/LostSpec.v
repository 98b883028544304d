(** Vocabulary for statements about files that get lost. *)

From Coq Require Import List.
From Verif Require Import Str Path ScanModel LostModel.
Import ListNotations.

(** The number of steps made by workers *)
Fixpoint lost_steps (cs : list lost_choice) : nat :=
  match cs with
  | [] => 0
  | Scan (TaskStep _) :: cs' => S (lost_steps cs')
  | _ :: cs' => lost_steps cs'
  end.

(** The strings thrown in the course of the scan have been caught by the time the program asks
    the pool for exceptions. *)
Definition in_time {Info} (later : list thrown) (st : lost_state Info) : Prop :=
  length (filter (fun e => match e with Text => true | Error => false end) later) >= length (lost_thrown st).
