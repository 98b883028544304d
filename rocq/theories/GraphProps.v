(** Properties C01, C02 and C03: visiting dependency graphs. *)

From Coq Require Import List Arith Lia Relations.
From Verif Require Import GraphModel GraphSpec GraphProofs.
Import ListNotations.

(** C01. When visiting in topological order returns normally, every node has
    been reported exactly once, after everything it depends on. *)
Theorem C01_dependencies_visited_first :
  forall (E : Type) (eref : E -> option nat) (g : list (list E)) cs,
    refs_in_range eref g ->
    visitNodesInTopoOrder eref g = Completed cs ->
    NoDup (map fst cs) /\
    (forall v, In v (map fst cs) <-> v < length g) /\
    dependencies_first eref g (map fst cs).
Proof. exact topo_order. Qed.
Print Assumptions C01_dependencies_visited_first.

(** Even when a cycle is found, what has been reported so far is in order. *)
Theorem C01_dependencies_visited_first_until_error :
  forall (E : Type) (eref : E -> option nat) (g : list (list E)) cs,
    refs_in_range eref g ->
    visitNodesInTopoOrder eref g = CycleError cs ->
    NoDup (map fst cs) /\ dependencies_first eref g (map fst cs).
Proof. exact topo_prefix. Qed.
Print Assumptions C01_dependencies_visited_first_until_error.

(** C02. Visiting always ends, without undefined behaviour; it ends with the
    cycle error if and only if there is a cycle. *)
Theorem C02_cycle_error_iff_cycle :
  forall (E : Type) (eref : E -> option nat) (g : list (list E)),
    refs_in_range eref g ->
    (has_cycle eref g /\ exists cs, visitNodesInTopoOrder eref g = CycleError cs) \/
    (~ has_cycle eref g /\ exists cs, visitNodesInTopoOrder eref g = Completed cs).
Proof. exact topo_cycle. Qed.
Print Assumptions C02_cycle_error_iff_cycle.

(** C03. Traversal from a single node. *)
Theorem C03_traversal_reports_reachable_nodes :
  forall (E : Type) (eref : E -> option nat) (g : list (list E)) root,
    refs_in_range eref g -> root < length g ->
    ((exists u, reachable eref g root u /\ on_cycle eref g u) /\
     exists cs, processGraphNodeRecursive eref g root = CycleError cs) \/
    ((~ exists u, reachable eref g root u /\ on_cycle eref g u) /\
     exists cs, processGraphNodeRecursive eref g root = Completed (cs ++ [(root, None)]) /\
                NoDup (map fst (cs ++ [(root, None)])) /\
                (forall v, In v (map fst (cs ++ [(root, None)])) <-> reachable eref g root v) /\
                dependencies_first eref g (map fst (cs ++ [(root, None)])) /\
                (forall v oe, In (v, oe) cs ->
                   exists e u, oe = Some e /\ reachable eref g root u /\ edge_between eref g u v e)).
Proof. exact from_root_ok. Qed.
Print Assumptions C03_traversal_reports_reachable_nodes.

(** * Concrete instances *)

(** Node 0 depends on 1 and 2 (twice on 2, once on something unresolved), 1
    depends on 3, 2 depends on 1, 3 on nothing, 4 on 0. *)
Definition sample : list (list (option nat)) :=
  [[Some 2; None; Some 1; Some 2]; [Some 3]; [Some 1]; []; [Some 0]].

Example sample_in_range : refs_in_range (fun x => x) sample.
Proof.
  intros u v [e [es [H1 [H2 H3]]]].
  destruct u as [|[|[|[|[|u]]]]]; simpl in H1; try discriminate; inversion H1; subst; simpl in *;
    repeat (destruct H2 as [H2|H2]; [subst; inversion H2; subst; simpl; lia|]);
    try contradiction.
  destruct u; discriminate.
Qed.

Example sample_completes :
  exists cs, visitNodesInTopoOrder (fun x => x) sample = Completed cs /\ map fst cs = [3; 1; 2; 0; 4].
Proof. eexists. split; vm_compute; reflexivity. Qed.

Example sample_from_2 :
  processGraphNodeRecursive (fun x => x) sample 2
  = Completed [(3, Some (Some 3)); (1, Some (Some 1)); (2, None)].
Proof. vm_compute. reflexivity. Qed.

(** The same graph with an extra edge from 3 back to 2. *)
Definition sample_cyclic : list (list (option nat)) :=
  [[Some 2; None; Some 1; Some 2]; [Some 3]; [Some 1]; [Some 2]; [Some 0]].

Example sample_cyclic_reported :
  exists cs, visitNodesInTopoOrder (fun x => x) sample_cyclic = CycleError cs.
Proof. eexists. vm_compute. reflexivity. Qed.

Example sample_cyclic_cycle : has_cycle (fun x => x) sample_cyclic.
Proof.
  exists 1. unfold on_cycle.
  apply t_trans with 3; [|apply t_trans with 2]; apply t_step.
  - exists (Some 3), [Some 3]. simpl. auto.
  - exists (Some 2), [Some 2]. simpl. auto.
  - exists (Some 1), [Some 1]. simpl. auto.
Qed.
