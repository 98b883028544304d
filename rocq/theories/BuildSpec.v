(** Vocabulary for statements about building. *)

From Coq Require Import List ZArith.
From Verif Require Import Str Path SMap PathProofs DbModel DepGraphSpec FileListModel FileListSpec SchedModel SchedSpec.
From Verif Require Import TaskListModel TaskListSpec BuildModel.
Import ListNotations.

(** The time stamp of an existing file or directory. *)
Definition stamped (D : disk) (p : path) (t : Z) : Prop := D p = PlainFile t \/ D p = Directory t.

Definition present (D : disk) (p : path) : Prop := exists t, stamped D p t.

Definition directory (D : disk) (p : path) : Prop := exists t, D p = Directory t.

(** [a] exists, and is newer than [b] if [b] exists as well. *)
Definition newer (D : disk) (a b : path) : Prop :=
  exists ta, stamped D a ta /\ forall tb, stamped D b tb -> (tb < ta)%Z.

(** A dependency that is compared with targets. *)
Definition compared (D : disk) (deps : list dependency) (q : path) : Prop :=
  exists d, In d deps /\ dep_name d = q /\ is_external (dep_origin d) = false /\ ~ directory D q.

(** Every target is a directory, or newer than the source file and everything it
    depends on. *)
Definition up_to_date (D : disk) (src : path) (ts : list target_info) (deps : list dependency) : Prop :=
  forall t, In t ts -> directory D (ti_name t) \/
    (newer D (ti_name t) src /\ forall q, compared D deps q -> newer D (ti_name t) q).

(** The reasons for which the question cannot be answered. *)
Definition undecidable (D : disk) (src : path) (ts : list target_info) (deps : list dependency) : Prop :=
  (~ present D src /\ exists t, In t ts /\ ~ present D (ti_name t)) \/
  (exists d, In d deps /\ is_external (dep_origin d) = false /\ D (dep_name d) = Inaccessible).

(** Node [v] of the graph: its path, targets, and rebuild policy. *)
Definition target_of (g : file_list) (v : nat) (q : path) : Prop :=
  exists p info t, nth_error g v = Some (p, info) /\ In t (targets info) /\ ti_name t = q.

Definition always_rebuilt (g : file_list) (v : nat) : Prop :=
  exists p info, nth_error g v = Some (p, info) /\ si_policy info = Always.

(** Every target of [v] is a directory, or newer than everything in the project
    that the file needs. *)
Definition current (g : file_list) (D : disk) (v : nat) : Prop :=
  exists p info, nth_error g v = Some (p, info) /\ up_to_date D p (targets info) (task_use_deps g v).

(** [building g force D0 tr D dec]: while the trace [tr] unfolded, the files
    changed from [D0] to [D], and the decisions in [dec] whether to run a recipe
    were made. A recipe changes the targets of its task only, at any time while
    the task is running. If it succeeds, it leaves the targets newer than what they
    are made from. If no decision could be made, the task does not succeed. *)
Definition in_progress (tr : list label) (v : nat) : Prop :=
  In (Start v) tr /\ forall o, ~ In (Finish v o) tr.

Definition invoked (dec : list (nat * option bool)) (v : nat) : Prop := In (v, Some true) dec.

Inductive building (g : file_list) (force : bool) (D0 : disk)
  : list label -> disk -> list (nat * option bool) -> Prop :=
| building_begins : building g force D0 [] D0 []
| building_submits : forall tr D dec v,
    building g force D0 tr D dec -> building g force D0 (tr ++ [Submit v]) D dec
| building_starts : forall tr D dec v,
    building g force D0 tr D dec ->
    building g force D0 (tr ++ [Start v]) D ((v, task_needs_run g D force v) :: dec)
| building_writes : forall tr D D' dec v,
    building g force D0 tr D dec -> invoked dec v -> in_progress tr v ->
    (forall q, ~ target_of g v q -> D' q = D q) ->
    building g force D0 tr D' dec
| building_finishes : forall tr D dec v o,
    building g force D0 tr D dec -> in_progress tr v ->
    (invoked dec v -> o = Succeeds -> current g D v) ->
    (In (v, None) dec -> o <> Succeeds) ->
    building g force D0 (tr ++ [Finish v o]) D dec.

(** Names are spelled in normal form, and no target has the name of a source file
    other than its own. *)
Definition proper_names (fs g : file_list) : Prop :=
  (forall p, known g p -> lexically_normal p = p) /\
  (forall p info t, In (p, info) fs -> In t (targets info) ->
     lexically_normal (ti_name t) = ti_name t /\
     (ti_name t = p \/ ~ In (ti_name t) (map fst fs))).

(** [v] is always rebuilt, or needs something that is. *)
Definition affected_by_policy (g : file_list) (v : nat) : Prop :=
  always_rebuilt g v \/
  exists p u q, numbered g v p /\ numbered g u q /\ always_rebuilt g u /\ builds g q /\ file_needs g p q.

(** No file refers to [q] as a system header or an external library. *)
Definition internal (g : file_list) (q : path) : Prop :=
  forall d, declared g d -> dep_name d = q -> is_external (dep_origin d) = false.

(** Task [v] has to be done because of the state of the files: one of its targets
    is missing, or not newer than the source file or something needed by it, which
    is not built itself. *)
Definition outdated (g : file_list) (D : disk) (v : nat) : Prop :=
  exists p info t, nth_error g v = Some (p, info) /\ In t (targets info) /\
    (D (ti_name t) = Missing \/
     exists x tt tx, (x = p \/ (file_needs g p x /\ internal g x /\ ~ directory D x)) /\
       (forall u, ~ target_of g u x) /\
       D (ti_name t) = PlainFile tt /\ stamped D x tx /\ (tt <= tx)%Z).

(** [x] is the source file of [v], or needed by it. *)
Definition made_from (g : file_list) (v : nat) (x : path) : Prop :=
  exists p, numbered g v p /\ (p = x \/ file_needs g p x).

(** The same files, except for [x]. *)
Definition same_except (x : path) (D D' : disk) : Prop := forall q, q <> x -> D' q = D q.
