(** Vocabulary for statements about several tools that run at the same time. *)

From Coq Require Import Ascii List Bool Arith.
From Verif Require Import Str ForkModel.
Import ListNotations.

(** What a tool writes to its standard output and standard error *)
Definition output (actions : list action) : str :=
  flat_map (fun a => match a with PutOut c => [c] | PutErr _ => [] end) actions.
Definition error_output (actions : list action) : str :=
  flat_map (fun a => match a with PutErr c => [c] | PutOut _ => [] end) actions.

Definition reachable (capacity number : nat) (tool : nat -> option (list action)) (s : state) : Prop :=
  exists n, steps capacity number tool n start s.

(** Call [i] has returned, or thrown an exception. *)
Definition returned (s : state) (i : nat) : Prop := stage_of (calls s i) = Returned.
Definition launch_failed (s : state) (i : nat) : Prop := stage_of (calls s i) = LaunchFailed.
Definition ended (s : state) (i : nat) : Prop :=
  returned s i \/ launch_failed s i \/ stage_of (calls s i) = ForkFailed.

(** The process made by call [i] exists and has not exited. *)
Definition running (s : state) (i : nat) : Prop := live (child_of (calls s i)) = true.
Definition exited (s : state) (i : nat) : Prop := child_of (calls s i) = Exited.

(** The sum of what [f] gives for all calls *)
Fixpoint total (f : nat -> nat) (number : nat) : nat :=
  match number with 0 => 0 | S n => f n + total f n end.

Definition length_of (t : option (list action)) : nat := match t with Some l => length l | None => 0 end.

(** Call [i] has learnt that its process has exited, so that the system can forget
    about that process. *)
Definition waited_for (s : state) (i : nat) : Prop :=
  match stage_of (calls s i) with JoiningOut | JoiningErr | Returned => True | _ => False end.

(** Call [i] has created its pipes, and not yet closed those ends that belong to the
    tool. *)
Definition has_pipes_open (s : state) (i : nat) : Prop :=
  match stage_of (calls s i) with
  | Piped | Locked | Forked | Closed | ReadingError | Launched => True
  | _ => False
  end.

(** The process of call [k] has got a descriptor of one of the pipes of call [i]. *)
Definition inherited (s : state) (k i : nat) : Prop :=
  inherited_error (calls s k) i = true \/ inherited_output (calls s k) i = true.

(** Between [s] and [t], the process of call [k] is created. *)
Definition creates (s t : state) (k : nat) : Prop :=
  child_of (calls s k) = NoChild /\ running t k.

(** Steps in which nothing happens to other calls than [i], or to their processes *)
Inductive own_steps (capacity number : nat) (tool : nat -> option (list action)) (i : nat) : state -> state -> Prop :=
| own_none s : own_steps capacity number tool i s s
| own_more s1 s2 s3 : own_steps capacity number tool i s1 s2 -> step capacity number tool s2 s3 ->
    (forall j, j <> i -> calls s3 j = calls s2 j) -> own_steps capacity number tool i s1 s3.
