(** Vocabulary for statements about graphs. Independent of the model: a graph
    is just a list of adjacency lists. *)

From Coq Require Import List Arith Relations.
Import ListNotations.

Section Spec.
  Variable E : Type.
  Variable eref : E -> option nat.

  (** There is a (resolved) edge [e] from node [u] to node [v]. *)
  Definition edge_between (g : list (list E)) (u v : nat) (e : E) : Prop :=
    exists es, nth_error g u = Some es /\ In e es /\ eref e = Some v.

  Definition depends (g : list (list E)) (u v : nat) : Prop :=
    exists e, edge_between g u v e.

  (** [v] can be reached from [u] by following zero or more edges. *)
  Definition reachable (g : list (list E)) : nat -> nat -> Prop :=
    clos_refl_trans nat (depends g).

  (** [u] depends on itself through one or more edges. *)
  Definition on_cycle (g : list (list E)) (u : nat) : Prop :=
    clos_trans nat (depends g) u u.

  Definition has_cycle (g : list (list E)) : Prop := exists u, on_cycle g u.

  (** All resolved references are node numbers. *)
  Definition refs_in_range (g : list (list E)) : Prop :=
    forall u v, depends g u v -> v < length g.

  (** In [l] every node comes after all the nodes it depends on. *)
  Definition dependencies_first (g : list (list E)) (l : list nat) : Prop :=
    forall l1 u l2, l = l1 ++ u :: l2 -> forall v, depends g u v -> In v l1.
End Spec.

Arguments edge_between {E} eref g u v e.
Arguments depends {E} eref g u v.
Arguments reachable {E} eref g _ _.
Arguments on_cycle {E} eref g u.
Arguments has_cycle {E} eref g.
Arguments refs_in_range {E} eref g.
Arguments dependencies_first {E} eref g l.
