(** Vocabulary for statements about building again after a failure. *)

From Coq Require Import List ZArith.
From Verif Require Import Str Path SMap DbModel DepGraphSpec FileListModel SchedModel SchedSpec TaskListModel BuildModel BuildSpec.
Import ListNotations.

(** As [building] (BuildSpec.v), where in addition every state of the files after a
    recipe has written something is [possible], and [left] has a note for each task that
    has ended: how it ended, and the files at that time. *)
Inductive noted_build (g : file_list) (force : bool) (possible : disk -> Prop) (D0 : disk)
  : list label -> disk -> list (nat * option bool) -> list (nat * task_outcome * disk) -> Prop :=
| noted_begins : noted_build g force possible D0 [] D0 [] []
| noted_submits : forall tr D dec left v,
    noted_build g force possible D0 tr D dec left -> noted_build g force possible D0 (tr ++ [Submit v]) D dec left
| noted_starts : forall tr D dec left v,
    noted_build g force possible D0 tr D dec left ->
    noted_build g force possible D0 (tr ++ [Start v]) D ((v, task_needs_run g D force v) :: dec) left
| noted_writes : forall tr D D' dec left v,
    noted_build g force possible D0 tr D dec left -> invoked dec v -> in_progress tr v ->
    (forall q, ~ target_of g v q -> D' q = D q) -> possible D' ->
    noted_build g force possible D0 tr D' dec left
| noted_finishes : forall tr D dec left v o,
    noted_build g force possible D0 tr D dec left -> in_progress tr v ->
    (invoked dec v -> o = Succeeds -> current g D v) ->
    (In (v, None) dec -> o <> Succeeds) ->
    noted_build g force possible D0 (tr ++ [Finish v o]) D dec ((v, o, D) :: left).

Definition anything (D : disk) : Prop := True.

(** Since the files were as in [D1], at the time [T], clocks have not gone backwards, and
    no file has become a directory. *)
Definition since (T : Z) (D1 D : disk) : Prop :=
  forall q, D q = D1 q \/ D q = Missing \/ (exists t, D q = PlainFile t /\ (T <= t)%Z) \/
            (directory D q /\ forall t, D1 q <> PlainFile t).

(** No target of [v] is from the future. *)
Definition not_after (T : Z) (g : file_list) (v : nat) (D : disk) : Prop :=
  forall q t, target_of g v q -> stamped D q t -> (t <= T)%Z.
