(** Vocabulary for statements about loading a project. *)

From Coq Require Import List Bool.
From Verif Require Import Str Path SMap PathProofs DbModel DepGraphSpec FileListModel.
Import ListNotations.

(** All targets declared by the source files, with normalised names. A target
    that has the name of its source file is not counted. *)
Definition declared_targets (fs : file_list) : list (path * target) :=
  flat_map (fun e => map (fun t => (lexically_normal (ti_name t), mk_target (fst e) t))
                         (filter (fun t => negb (path_eqb (fst e) (ti_name t))) (targets (snd e)))) fs.

(** [d] is a use dependency of some file, or of one of its targets. *)
Definition mentioned (fs : file_list) (d : dependency) : Prop :=
  exists p info, In (p, info) fs /\
    (In d (use_deps info) \/ exists t, In t (targets info) /\ In d (ti_use_deps t)).

(** [d] is contributed to the target [name] by a file that is needed by its
    source file [src]. *)
Definition contributed (fs : file_list) (name src : path) (d : dependency) : Prop :=
  exists q info, file_reachable fs src q /\ In (q, info) fs /\
                 In d (child_targets_use_deps info) /\ dep_name d <> name.

(** The files that are generated: declared targets which are not source files. *)
Definition generated (fs : file_list) (name : path) (t : target) : Prop :=
  In (name, t) (declared_targets fs) /\ ~ In name (map fst fs).

(** Everything that has to be found when the project is loaded. *)
Inductive needed (fs : file_list) : dependency -> Prop :=
| needed_by_source : forall p info d, In (p, info) fs -> In d (use_deps info) -> needed fs d
| needed_by_target : forall name t d, generated fs name t -> In d (ti_use_deps (t_info t)) -> needed fs d
| needed_contributed : forall name t d, generated fs name t -> contributed fs name (t_source t) d ->
                                        needed fs d.

(** Everything that can be found: source files, targets, and whatever is
    declared to be outside of the project. *)
Inductive available (fs : file_list) : path -> Prop :=
| available_source : forall p, In p (map fst fs) -> available fs p
| available_target : forall name t, In (name, t) (declared_targets fs) -> available fs name
| available_external : forall d, mentioned fs d \/ needed fs d -> is_external (dep_origin d) = true ->
                                 available fs (dep_name d).

(** What the directory scan delivers (see source_file_load_ctxt.cpp:234-241): no
    build dependencies, and nothing has been resolved. *)
Definition scanned (fs : file_list) : Prop :=
  sorted_map fs /\
  forall p info, In (p, info) fs ->
    build_deps info = [] /\
    (forall d, In d (use_deps info) -> dep_ref d = None) /\
    (forall d, In d (child_targets_use_deps info) -> dep_ref d = None) /\
    (forall t d, In t (targets info) -> In d (ti_use_deps t) -> dep_ref d = None).

(** The source file of some target needs a file that needs itself. *)
Definition reaches_cycle (fs : file_list) : Prop :=
  exists name t q, In (name, t) (declared_targets fs) /\ file_reachable fs (t_source t) q /\ file_on_cycle fs q.

(** [i'] is the record of a source file in the graph, and [i] the one found by
    the directory scan. *)
Definition source_kept (i i' : source_file_info) : Prop :=
  targets i' = targets i /\ build_deps i' = [] /\
  child_targets_use_deps i' = child_targets_use_deps i /\
  compiler_default i' = compiler_default i /\ si_compiler i' = si_compiler i /\
  si_origin i' = si_origin i /\ si_policy i' = si_policy i /\
  (forall q, In q (map dep_name (use_deps i)) -> In q (map dep_name (use_deps i'))) /\
  (use_target_deps i = false -> map dep_name (use_deps i') = map dep_name (use_deps i)).

(** [i'] is the record of the generated file [name]. *)
Definition target_record (fs : file_list) (name : path) (t : target) (i' : source_file_info) : Prop :=
  targets i' = [] /\ si_origin i' = Generated /\
  map dep_name (build_deps i') = [t_source t] /\
  forall q, In q (map dep_name (use_deps i')) <->
            exists d, dep_name d = q /\ (In d (ti_use_deps (t_info t)) \/ contributed fs name (t_source t) d).

(** [g] is the dependency graph of the project [fs]. *)
Definition project_graph (fs g : file_list) : Prop :=
  sorted_map g /\
  (forall p, known g p <-> available fs p) /\
  (forall d, declared g d -> exists k, dep_ref d = Some k /\ numbered g k (dep_name d)) /\
  (forall p i, In (p, i) fs -> exists i', In (p, i') g /\ source_kept i i') /\
  (forall name t, generated fs name t -> exists i', In (name, i') g /\ target_record fs name t i') /\
  (forall p i', In (p, i') g -> In p (map fst fs) \/ (exists t, generated fs p t) \/
     exists d, (mentioned fs d \/ needed fs d) /\ is_external (dep_origin d) = true /\ dep_name d = p /\
               i' = placeholder_info (dep_origin d) no_compiler).
