(** Vocabulary for statements about the contents of what is built. *)

From Coq Require Import List ZArith.
From Verif Require Import Str Path SMap DbModel DepGraphSpec FileListModel FileListSpec SchedModel SchedSpec TaskListModel TaskListSpec BuildModel BuildSpec.
Import ListNotations.

(** No recipe makes [x]. *)
Definition not_built (g : file_list) (x : path) : Prop := forall u, ~ target_of g u x.

(** The files that task [v] makes its targets from: its source file, and whatever that file
    needs. Directories ([folder]), and what is outside of the project, do not count. *)
Definition input (g : file_list) (folder : path -> bool) (v : nat) (x : path) : Prop :=
  made_from g v x /\ internal g x /\ folder x = false.

(** [make v F q] is what the recipe of task [v] puts into the target [q], if [F x] is in [x] for
    all files [x]. What is in the inputs determines it. *)
Definition repeatable {content : Type} (g : file_list) (folder : path -> bool)
    (make : nat -> (path -> content) -> path -> content) : Prop :=
  forall v q F F', target_of g v q -> (forall x, input g folder v x -> F x = F' x) -> make v F q = make v F' q.

(** [proper_content g folder make S q c]: [c] should be in [q], if [S x] is in [x] for all files [x] that
    no recipe makes. *)
Inductive proper_content {content : Type} (g : file_list) (folder : path -> bool)
    (make : nat -> (path -> content) -> path -> content) (S : path -> content) : path -> content -> Prop :=
| proper_source : forall x, not_built g x -> proper_content g folder make S x (S x)
| proper_made : forall v q F, target_of g v q -> (forall x, input g folder v x -> proper_content g folder make S x (F x)) ->
    proper_content g folder make S q (make v F q).

(** Nobody takes [q] for something that has been made by [v] after the last change of what it is
    made from. *)
Definition unusable (g : file_list) (folder : path -> bool) (D : disk) (v : nat) (q : path) : Prop :=
  D q = Missing \/
  exists t x tx, D q = PlainFile t /\ input g folder v x /\ not_built g x /\ stamped D x tx /\ (t <= tx)%Z.

(** As [building] (BuildSpec.v), where the contents of the files change from [F0] to [F]. A recipe
    that succeeds has made all targets of its task as it should. A recipe that does not succeed
    leaves nothing behind that could be taken for a target. *)
Inductive producing {content : Type} (g : file_list) (force : bool) (folder : path -> bool)
    (make : nat -> (path -> content) -> path -> content) (D0 : disk) (F0 : path -> content)
  : list label -> disk -> (path -> content) -> list (nat * option bool) -> Prop :=
| producing_begins : producing g force folder make D0 F0 [] D0 F0 []
| producing_submits : forall tr D F dec v,
    producing g force folder make D0 F0 tr D F dec -> producing g force folder make D0 F0 (tr ++ [Submit v]) D F dec
| producing_starts : forall tr D F dec v,
    producing g force folder make D0 F0 tr D F dec ->
    producing g force folder make D0 F0 (tr ++ [Start v]) D F ((v, task_needs_run g D force v) :: dec)
| producing_writes : forall tr D F D' F' dec v,
    producing g force folder make D0 F0 tr D F dec -> invoked dec v -> in_progress tr v ->
    (forall q, ~ target_of g v q -> D' q = D q /\ F' q = F q) ->
    producing g force folder make D0 F0 tr D' F' dec
| producing_finishes : forall tr D F dec v o,
    producing g force folder make D0 F0 tr D F dec -> in_progress tr v ->
    (invoked dec v -> o = Succeeds -> current g D v) ->
    (invoked dec v -> o = Succeeds -> forall q, target_of g v q -> folder q = false ->
       (exists t, D q = PlainFile t) /\ F q = make v F q) ->
    (invoked dec v -> o <> Succeeds -> forall q, target_of g v q -> folder q = false -> unusable g folder D v q) ->
    (In (v, None) dec -> o <> Succeeds) ->
    producing g force folder make D0 F0 (tr ++ [Finish v o]) D F dec.

(** Only what is in [folder] is a directory. *)
Definition folders_only (folder : path -> bool) (D : disk) : Prop := forall x t, D x = Directory t -> folder x = true.

(** A project that has been loaded, with proper names. *)
Definition well_named (fs g : file_list) : Prop := loaded fs g /\ proper_names fs g.

(** Nothing has been built. *)
Definition unbuilt (g : file_list) (folder : path -> bool) (D : disk) : Prop :=
  folders_only folder D /\ forall v q, target_of g v q -> folder q = false -> D q = Missing.

(** From [g], [make], [D], and [F] to [g'], [make'], [D'], and [F']: at some time after [T], where
    nothing was from the future at the time [T], files that no recipe makes were created, or
    their contents was changed, and files that are made, or that nobody needs any more, were
    removed. What a recipe makes, and what from, changed only if one of the files that it makes
    this from did. *)
Definition revised {content : Type} (folder : path -> bool)
    (g : file_list) (make : nat -> (path -> content) -> path -> content) (D : disk) (F : path -> content)
    (g' : file_list) (make' : nat -> (path -> content) -> path -> content) (D' : disk) (F' : path -> content) : Prop :=
  exists T : Z,
  (forall x t, stamped D x t -> (t <= T)%Z) /\
  (forall x, folder x = false ->
     (D' x = D x /\ F' x = F x) \/
     (not_built g' x /\ exists t, D' x = PlainFile t /\ (T < t)%Z) \/
     (D' x = Missing /\ forall v, input g' folder v x -> exists u, target_of g' u x)) /\
  (forall v' q, target_of g' v' q -> folder q = false ->
     (exists x t, input g' folder v' x /\ not_built g' x /\ stamped D' x t /\ (T < t)%Z) \/
     exists v, target_of g v q /\ (forall x, input g folder v x <-> input g' folder v' x) /\
       (forall x, input g' folder v' x -> (not_built g x <-> not_built g' x)) /\
       forall G, make' v' G q = make v G q).

(** Everything that may have happened to a project: in the beginning nothing is built, and then
    there are revisions, and builds which succeed or not, in any order. *)
Inductive history {content : Type} (folder : path -> bool) :
  file_list -> file_list -> (nat -> (path -> content) -> path -> content) -> disk -> (path -> content) -> Prop :=
| history_begins : forall fs g make D F,
    well_named fs g -> repeatable g folder make -> unbuilt g folder D ->
    history folder fs g make D F
| history_builds : forall fs g make D F rs tasks ws cs tr s force D' F' dec,
    history folder fs g make D F -> task_list g rs tasks -> idle_pool ws ->
    run (task_reads g) cs (init rs tasks ws) = Some (tr, s) -> final (ph s) ->
    producing g force folder make D F tr D' F' dec ->
    history folder fs g make D' F'
| history_changes : forall fs g make D F fs' g' make' D' F',
    history folder fs g make D F ->
    well_named fs' g' -> repeatable g' folder make' -> folders_only folder D' ->
    revised folder g make D F g' make' D' F' ->
    history folder fs' g' make' D' F'.

(** A build with any number of threads, forced or not, for everything or for some target, that
    has succeeded, and was to make [q] as well. *)
Definition built {content : Type} (g : file_list) (folder : path -> bool)
    (make : nat -> (path -> content) -> path -> content)
    (D : disk) (F : path -> content) (D' : disk) (F' : path -> content) (q : path) : Prop :=
  exists rs tasks ws cs tr s n force dec v,
    task_list g rs tasks /\ idle_pool ws /\ run (task_reads g) cs (init rs tasks ws) = Some (tr, s) /\ ph s = Returned n /\
    producing g force folder make D F tr D' F' dec /\ In v tasks /\ target_of g v q /\ folder q = false.
