(** Vocabulary for the statement that new files do not affect the others. *)

From Coq Require Import String.
From Coq Require Import List.
From Verif Require Import Str Path SMap JsonModel DbModel DepGraphSpec.
Import ListNotations.

(** [fs'] has all files of [fs]. The others, and what is made from them, are not known in [g],
    the graph of [fs]: no file of [fs] is made from them, refers to them, or makes them. *)
Definition only_adds (fs g fs' : file_list) : Prop :=
  (forall p info, In (p, info) fs -> In (p, info) fs') /\
  forall p info, In (p, info) fs' -> ~ In p (map fst fs) ->
    ~ known g p /\ forall t, In t (targets info) -> ~ known g (ti_name t).

(** The same dependency, apart from the number of the file in the graph *)
Definition same_dependency (d d' : dependency) : Prop :=
  dep_name d' = dep_name d /\ dep_origin d' = dep_origin d /\ dep_props d' = dep_props d.

(** The same file, with the same dependencies in the same order *)
Definition same_record (i i' : source_file_info) : Prop :=
  Forall2 same_dependency (use_deps i) (use_deps i') /\
  Forall2 same_dependency (build_deps i) (build_deps i') /\
  child_targets_use_deps i' = child_targets_use_deps i /\ targets i' = targets i /\
  compiler_default i' = compiler_default i /\ si_compiler i' = si_compiler i /\
  si_origin i' = si_origin i /\ si_policy i' = si_policy i /\ use_target_deps i' = use_target_deps i.

(** Something outside of the project *)
Definition outside (i : source_file_info) : Prop :=
  exists o, is_external o = true /\ i = placeholder_info o no_compiler.

(** [view] shows a command line option without the number of the task. *)
Definition without_task_id (view : json -> str) : Prop :=
  forall o, view (JObject o) = view (JObject (filter (fun e => negb (str_eqb (fst e) (lit "task_id"%string))) o)).

(** The files that have been added *)
Definition added (fs fs' : file_list) : file_list :=
  filter (fun e => negb (existsb (path_eqb (fst e)) (map fst fs))) fs'.
