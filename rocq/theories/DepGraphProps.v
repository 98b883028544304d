(** Properties C04, C05 and C06: resolving dependencies between files. *)

From Coq Require Import Ascii String List Arith Sorted.
From Verif Require Import Str Path SMap PathProofs DbModel GraphModel GraphSpec.
From Verif Require Import DepGraphModel DepGraphSpec DepGraphProofs.
Import ListNotations.

(** C04. Strict construction succeeds iff every declared dependency names a file
    in the list; every dependency then refers to the file it names. *)
Theorem C04_strict_resolution : forall fs, sorted_map fs ->
    (exists g, make_graph false fs = Some g /\ files_resolved fs g /\
               forall d, declared fs d -> known fs (dep_name d)) \/
    (make_graph false fs = None /\ exists d, declared fs d /\ ~ known fs (dep_name d)).
Proof. exact make_graph_strict. Qed.
Print Assumptions C04_strict_resolution.

Theorem C04_lenient_resolution : forall fs, sorted_map fs ->
    exists g, make_graph true fs = Some g /\ files_resolved fs g.
Proof. exact make_graph_lenient. Qed.
Print Assumptions C04_lenient_resolution.

(** C05. *)
Theorem C05_lookup_finds_the_named_file : forall ign fs g name k,
    sorted_map fs -> make_graph ign fs = Some g ->
    (get_node g name = Some k <-> numbered fs k name).
Proof. exact get_node_spec. Qed.
Print Assumptions C05_lookup_finds_the_named_file.

Theorem C05_lookup_of_unknown_file : forall ign fs g name,
    sorted_map fs -> make_graph ign fs = Some g ->
    (get_node g name = None <-> ~ known fs name).
Proof. exact get_node_none. Qed.
Print Assumptions C05_lookup_of_unknown_file.

(** C06. A dependency with an empty name is never reported (the placeholder for
    it is a node like the others). *)
Theorem C06_recursive_dependencies_exact : forall ign fs g root p,
    sorted_map fs -> unresolved fs -> make_graph ign fs = Some g -> numbered fs root p ->
    ((exists q, file_reachable fs p q /\ file_on_cycle fs q) /\
     get_use_deps_recursive g root = DepsCyclic) \/
    ((~ exists q, file_reachable fs p q /\ file_on_cycle fs q) /\
     exists ds, get_use_deps_recursive g root = DepsFound ds /\
       NoDup (map dep_name ds) /\
       (forall q, In q (map dep_name ds) <-> file_reachable fs p q /\ q <> p /\ q <> empty_path) /\
       (forall d, In d ds -> exists k, dep_ref d = Some k /\ numbered fs k (dep_name d)) /\
       (forall d, In d ds -> exists q d0, file_reachable fs p q /\ declared_by fs q d0 /\
                                          dependency_resolved fs d0 d) /\
       (forall l1 d l2, ds = l1 ++ d :: l2 -> forall q, file_depends fs (dep_name d) q ->
                        q <> empty_path -> In q (map dep_name l1))).
Proof. exact use_deps_recursive_spec. Qed.
Print Assumptions C06_recursive_dependencies_exact.

(** * A concrete project *)

Local Open Scope string_scope.

Definition file (s : string) : path := parse_path (lit s).
Definition on (o : origin) (s : string) : dependency := mk_dependency None (file s) o [].
Definition source (u b : list dependency) : source_file_info :=
  set_build_deps b (set_use_deps u (placeholder_info Project no_compiler)).

(** An application including a header, which includes another one. *)
Definition small_project : file_list :=
  [(file "app", source [] [on Project "app.cpp"]);
   (file "app.cpp", source [on Project "lib/a.hpp"; on Project "lib/b.hpp"] []);
   (file "lib/a.hpp", source [on Project "lib/b.hpp"] []);
   (file "lib/b.hpp", source [on System "vector"] []);
   (file "vector", source [] [])].

Example small_project_sorted : sorted_map small_project.
Proof. repeat constructor. Qed.

Example small_project_unresolved : unresolved small_project.
Proof.
  intros d [p [info [Hin Hd]]]. simpl in Hin.
  repeat (destruct Hin as [Hin|Hin]; [inversion Hin; subst; simpl in Hd;
    intuition (subst; auto)|]). contradiction.
Qed.

Example small_project_deps :
  option_map (fun g => get_use_deps_recursive g 0) (make_graph false small_project) =
  Some (DepsFound [mk_dependency (Some 4) (file "vector") System [];
                   mk_dependency (Some 3) (file "lib/b.hpp") Project [];
                   mk_dependency (Some 2) (file "lib/a.hpp") Project [];
                   mk_dependency (Some 1) (file "app.cpp") Project []]).
Proof. vm_compute. reflexivity. Qed.

Example small_project_numbering : numbered small_project 2 (file "lib/a.hpp").
Proof. reflexivity. Qed.

(** Without the placeholder for the system header construction fails. *)
Example small_project_incomplete : make_graph false (firstn 4 small_project) = None.
Proof. vm_compute. reflexivity. Qed.
