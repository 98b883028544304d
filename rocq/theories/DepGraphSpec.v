(** Vocabulary for statements about dependency graphs of files. *)

From Coq Require Import List.
From Verif Require Import Str Path SMap PathProofs DbModel GraphSpec.
Import ListNotations.

(** File number [k] in path order has path [p]. *)
Definition numbered (fs : file_list) (k : nat) (p : path) : Prop := nth_error (map fst fs) k = Some p.

Definition known (fs : file_list) (p : path) : Prop := exists k, numbered fs k p.

(** A dependency declared by the file with path [p]. *)
Definition declared_by (fs : file_list) (p : path) (d : dependency) : Prop :=
  exists info, In (p, info) fs /\ (In d (use_deps info) \/ In d (build_deps info)).

Definition declared (fs : file_list) (d : dependency) : Prop := exists p, declared_by fs p d.

(** [d'] is [d], except that it refers to the file of that name if there is one. *)
Definition dependency_resolved (fs : file_list) (d d' : dependency) : Prop :=
  dep_name d' = dep_name d /\ dep_origin d' = dep_origin d /\ dep_props d' = dep_props d /\
  (forall k, numbered fs k (dep_name d) -> dep_ref d' = Some k) /\
  (~ known fs (dep_name d) -> dep_ref d' = dep_ref d).

(** [g] is [fs] with all dependencies resolved and nothing else changed. *)
Definition file_resolved (fs : file_list) (e e' : path * source_file_info) : Prop :=
  fst e' = fst e /\
  Forall2 (dependency_resolved fs) (use_deps (snd e)) (use_deps (snd e')) /\
  Forall2 (dependency_resolved fs) (build_deps (snd e)) (build_deps (snd e')) /\
  child_targets_use_deps (snd e') = child_targets_use_deps (snd e) /\
  targets (snd e') = targets (snd e) /\
  compiler_default (snd e') = compiler_default (snd e) /\
  si_compiler (snd e') = si_compiler (snd e) /\
  si_origin (snd e') = si_origin (snd e) /\
  si_policy (snd e') = si_policy (snd e) /\
  use_target_deps (snd e') = use_target_deps (snd e).

Definition files_resolved (fs g : file_list) : Prop := Forall2 (file_resolved fs) fs g.

(** No dependency has been given a reference yet. *)
Definition unresolved (fs : file_list) : Prop := forall d, declared fs d -> dep_ref d = None.

(** The file with path [p] has a use or build dependency on that with path [q]. *)
Definition file_depends (fs : file_list) (p q : path) : Prop :=
  known fs q /\ exists d, declared_by fs p d /\ dep_name d = q.

(** Reflexive transitive closure: what [p] needs, including [p] itself. *)
Inductive file_reachable (fs : file_list) : path -> path -> Prop :=
| reach_self : forall p, file_reachable fs p p
| reach_step : forall p q r, file_depends fs p q -> file_reachable fs q r -> file_reachable fs p r.

(** [p] needs itself. *)
Definition file_on_cycle (fs : file_list) (p : path) : Prop :=
  exists q, file_depends fs p q /\ file_reachable fs q p.
