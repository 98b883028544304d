(** Model of [core/utils/graphutils.hpp]: topological visiting of a dependency
    graph with an explicit stack.

    A graph is a list of nodes; node number [k] is the [k]-th element, and it is
    represented by its list of outgoing edges in the order in which
    [visitEdges] enumerates them. [eref] is the C++ function [reference(edge)];
    [None] stands for a reference that is not [valid] (graphutils.hpp:25-28,
    source_file_id.hpp:36-39). *)

From Coq Require Import List Arith.
Import ListNotations.

(** graphutils.hpp:17-22 *)
Inductive mark := Init | InProgress | Done.

(** How a traversal can end. [Undefined] is an out of bounds access of
    [visited] or of the node vector; [OutOfFuel] only exists because the model
    of the while loop is fuelled. *)
Inductive outcome (St : Type) :=
| Finished (s : St)
| Cyclic (s : St)      (* throws "Cyclic dependency detected" *)
| Undefined
| OutOfFuel.
Arguments Finished {St} s.
Arguments Cyclic {St} s.
Arguments Undefined {St}.
Arguments OutOfFuel {St}.

Section Traversal.
  Variable E : Type.
  Variable eref : E -> option nat.

  Definition graph := list (list E).

  (** Assignment [visited[k] = m] (graphutils.hpp:69, 74). *)
  Fixpoint set_mark (k : nat) (m : mark) (vis : list mark) : list mark :=
    match vis, k with
    | [], _ => []
    | _ :: vis', 0 => m :: vis'
    | x :: vis', S k' => x :: set_mark k' m vis'
    end.

  (** State of the loop in graphutils.hpp:45-80: the shared marks, the stack
      (head of the list is the top) and the calls made so far to [cb], most
      recent first. *)
  Record dfs_state := mk_dfs {
    visited : list mark;
    stack : list (nat * option E);
    calls : list (nat * option E)
  }.

  (** [processEdge], graphutils.hpp:53-68, applied to all edges in order
      (visitEdges, graphutils.hpp:70). Returns the stack with the new entries
      pushed. *)
  Fixpoint process_edges (vis : list mark) (es : list E) (stk : list (nat * option E))
    : outcome (list (nat * option E)) :=
    match es with
    | [] => Finished stk
    | e :: es' =>
        match eref e with
        | None => process_edges vis es' stk
        | Some v =>
            match nth_error vis v with
            | None => Undefined
            | Some Init => process_edges vis es' ((v, Some e) :: stk)
            | Some InProgress => Cyclic stk
            | Some Done => process_edges vis es' stk
            end
        end
    end.

  (** One iteration of the loop, graphutils.hpp:47-79. [inl] continues. *)
  Definition dfs_step (g : graph) (s : dfs_state) (top : nat * option E)
             (rest : list (nat * option E)) : outcome dfs_state :=
    match nth_error (visited s) (fst top) with
    | None => Undefined
    | Some Init =>
        let vis := set_mark (fst top) InProgress (visited s) in
        match nth_error g (fst top) with
        | None => Undefined
        | Some es =>
            match process_edges vis es (stack s) with
            | Finished stk => Finished (mk_dfs vis stk (calls s))
            | Cyclic stk => Cyclic (mk_dfs vis stk (calls s))
            | Undefined => Undefined
            | OutOfFuel => OutOfFuel
            end
        end
    | Some InProgress =>
        Finished (mk_dfs (set_mark (fst top) Done (visited s)) rest (top :: calls s))
    | Some Done => Finished (mk_dfs (visited s) rest (calls s))
    end.

  (** graphutils.hpp:45-80 *)
  Fixpoint dfs_loop (fuel : nat) (g : graph) (s : dfs_state) : outcome dfs_state :=
    match stack s with
    | [] => Finished s
    | top :: rest =>
        match fuel with
        | 0 => OutOfFuel
        | S fuel' =>
            match dfs_step g s top rest with
            | Finished s' => dfs_loop fuel' g s'
            | Cyclic s' => Cyclic s'
            | Undefined => Undefined
            | OutOfFuel => OutOfFuel
            end
        end
    end.

  (** Number of loop iterations that always suffices. *)
  Definition edge_count (g : graph) : nat :=
    fold_right (fun es n => length es + n) 0 g.
  Definition loop_bound (g : graph) : nat := 1 + 2 * length g + edge_count g.

  (** [graphutils_detail::processGraphNodeRecursive], graphutils.hpp:30-85,
      with marks and calls threaded through. *)
  Definition process_from (g : graph) (root : nat) (vis : list mark)
             (cs : list (nat * option E)) : outcome dfs_state :=
    match nth_error vis root with
    | None => Undefined
    | Some Init => dfs_loop (loop_bound g) g (mk_dfs vis [(root, None)] cs)
    | Some InProgress => Cyclic (mk_dfs vis [] cs)
    | Some Done => Finished (mk_dfs vis [] cs)
    end.

  (** What a caller sees: the calls to [cb] in the order they were made, and
      how the traversal ended. *)
  Inductive visit_result :=
  | Completed (cs : list (nat * option E))
  | CycleError (cs : list (nat * option E))
  | VisitUndefined
  | VisitOutOfFuel.

  Definition to_result (o : outcome dfs_state) : visit_result :=
    match o with
    | Finished s => Completed (rev (calls s))
    | Cyclic s => CycleError (rev (calls s))
    | Undefined => VisitUndefined
    | OutOfFuel => VisitOutOfFuel
    end.

  (** [Maike::processGraphNodeRecursive], graphutils.hpp:88-99. *)
  Definition processGraphNodeRecursive (g : graph) (root : nat) : visit_result :=
    to_result (process_from g root (repeat Init (length g)) []).

  (** [visitNodesInTopoOrder], graphutils.hpp:101-113; [visitNodes] enumerates
      the nodes in index order (dependency_graph.hpp:63-68). *)
  Fixpoint visit_nodes (g : graph) (roots : list nat) (vis : list mark)
           (cs : list (nat * option E)) : outcome dfs_state :=
    match roots with
    | [] => Finished (mk_dfs vis [] cs)
    | r :: roots' =>
        match process_from g r vis cs with
        | Finished s => visit_nodes g roots' (visited s) (calls s)
        | other => other
        end
    end.

  Definition visitNodesInTopoOrder (g : graph) : visit_result :=
    to_result (visit_nodes g (seq 0 (length g)) (repeat Init (length g)) []).
End Traversal.

Arguments mk_dfs {E} visited stack calls.
Arguments visited {E} d.
Arguments stack {E} d.
Arguments calls {E} d.
Arguments Completed {E} cs.
Arguments CycleError {E} cs.
Arguments VisitUndefined {E}.
Arguments VisitOutOfFuel {E}.
Arguments process_edges {E} eref vis es stk.
Arguments dfs_step {E} eref g s top rest.
Arguments dfs_loop {E} eref fuel g s.
Arguments edge_count {E} g.
Arguments loop_bound {E} g.
Arguments process_from {E} eref g root vis cs.
Arguments to_result {E} o.
Arguments processGraphNodeRecursive {E} eref g root.
Arguments visit_nodes {E} eref g roots vis cs.
Arguments visitNodesInTopoOrder {E} eref g.
