(** Vocabulary for the statement which recipes a build runs. *)

From Coq Require Import List ZArith.
From Verif Require Import Str Path SMap DbModel DepGraphSpec FileListModel FileListSpec SchedModel SchedSpec TaskListModel TaskListSpec BuildModel BuildSpec.
Import ListNotations.

(** As [building] (BuildSpec.v), where in addition a recipe that succeeds has made all
    targets of its task anew, after the time [T]: those in [folder] as directories, and the
    others as plain files. *)
Inductive fresh_build (g : file_list) (force : bool) (folder : path -> bool) (T : Z) (D0 : disk)
  : list label -> disk -> list (nat * option bool) -> Prop :=
| fresh_begins : fresh_build g force folder T D0 [] D0 []
| fresh_submits : forall tr D dec v,
    fresh_build g force folder T D0 tr D dec -> fresh_build g force folder T D0 (tr ++ [Submit v]) D dec
| fresh_starts : forall tr D dec v,
    fresh_build g force folder T D0 tr D dec ->
    fresh_build g force folder T D0 (tr ++ [Start v]) D ((v, task_needs_run g D force v) :: dec)
| fresh_writes : forall tr D D' dec v,
    fresh_build g force folder T D0 tr D dec -> invoked dec v -> in_progress tr v ->
    (forall q, ~ target_of g v q -> D' q = D q) ->
    fresh_build g force folder T D0 tr D' dec
| fresh_finishes : forall tr D dec v o,
    fresh_build g force folder T D0 tr D dec -> in_progress tr v ->
    (invoked dec v -> o = Succeeds -> current g D v) ->
    (invoked dec v -> o = Succeeds -> forall q, target_of g v q ->
       if folder q then directory D q else exists t, D q = PlainFile t /\ (T < t)%Z) ->
    (In (v, None) dec -> o <> Succeeds) ->
    fresh_build g force folder T D0 (tr ++ [Finish v o]) D dec.

(** At the time [T], nothing is from the future, and no target is a directory that should be
    a file, or the other way around. *)
Definition sound_before (g : file_list) (folder : path -> bool) (T : Z) (D : disk) : Prop :=
  (forall q t, stamped D q t -> (t <= T)%Z) /\
  forall v q, target_of g v q -> (directory D q -> folder q = true) /\ (forall t, D q = PlainFile t -> folder q = false).

(** Task [v] has to be done: everything has to be, or it has to be done always, or one of its
    targets is missing or too old, or a file that it needs is made by a task that has to be
    done. Directories do not count. *)
Inductive due (g : file_list) (force : bool) (folder : path -> bool) (D : disk) : nat -> Prop :=
| due_forced : forall v, force = true -> due g force folder D v
| due_always : forall v, always_rebuilt g v -> due g force folder D v
| due_itself : forall v, ~ current g D v -> due g force folder D v
| due_because : forall v p t u q,
    numbered g v p -> target_of g v t -> folder t = false ->
    due g force folder D u -> target_of g u q -> folder q = false -> file_needs g p q ->
    due g force folder D v.
