(** Model of [core/db/dependency_graph]: resolving references between files. *)

From Coq Require Import List Arith Bool.
From Verif Require Import Str Path SMap DbModel GraphModel.
Import ListNotations.

(** std::lower_bound on the positions [first .. first+len): the first position
    whose key is not less than [x], by bisection. [fuel] bounds the number of
    iterations; [len] is always enough. *)
Fixpoint lower_bound (fuel : nat) (ks : list path) (x : path) (first len : nat) : nat :=
  match fuel with
  | 0 => first
  | S fuel' =>
      match len with
      | 0 => first
      | S _ =>
          let half := Nat.div2 len in
          match nth_error ks (first + half) with
          | None => first
          | Some k =>
              if path_ltb k x then lower_bound fuel' ks x (S (first + half)) (len - half - 1)
              else lower_bound fuel' ks x first half
          end
      end
  end.

(** find, dependency_graph.cpp:26-34. The nodes are in the order of the map,
    and the id of a node is its position (dependency_graph.cpp:62-70). *)
Definition find_node (ks : list path) (x : path) : option nat :=
  let i := lower_bound (length ks) ks x 0 (length ks) in
  match nth_error ks i with
  | Some k => if negb (path_ltb x k) then Some i else None
  | None => None
  end.

(** resolve, dependency_graph.cpp:36-55. [None]: throws "Failed to resolve". *)
Definition resolve (ks : list path) (ignore_errors : bool) (d : dependency) : option dependency :=
  match find_node ks (dep_name d) with
  | None => if ignore_errors then Some d else None
  | Some k => Some (mk_dependency (Some k) (dep_name d) (dep_origin d) (dep_props d))
  end.

(** std::for_each over a vector of dependencies, dependency_graph.cpp:78-87 *)
Fixpoint resolve_all (ks : list path) (ignore_errors : bool) (ds : list dependency)
  : option (list dependency) :=
  match ds with
  | [] => Some []
  | d :: ds' =>
      match resolve ks ignore_errors d with
      | None => None
      | Some d' => match resolve_all ks ignore_errors ds' with
                   | None => None
                   | Some r => Some (d' :: r)
                   end
      end
  end.

(** dependency_graph.cpp:72-90 *)
Fixpoint resolve_files (ks : list path) (ignore_errors : bool) (fs : file_list) : option file_list :=
  match fs with
  | [] => Some []
  | (p, info) :: fs' =>
      match resolve_all ks ignore_errors (use_deps info),
            resolve_all ks ignore_errors (build_deps info) with
      | Some u, Some b =>
          match resolve_files ks ignore_errors fs' with
          | None => None
          | Some r => Some ((p, set_build_deps b (set_use_deps u info)) :: r)
          end
      | _, _ => None
      end
  end.

(** The constructor, dependency_graph.cpp:58-91. The graph is its list of
    files with resolved references; node [k] is the [k]-th file. *)
Definition make_graph (ignore_errors : bool) (fs : file_list) : option file_list :=
  resolve_files (map fst fs) ignore_errors fs.

(** getNode, dependency_graph.cpp:94-101: [None] for a node that is not valid. *)
Definition get_node (g : file_list) (name : path) : option nat := find_node (map fst g) name.

(** visitEdges, source_file_record.hpp:64-73 *)
Definition visit_edges (info : source_file_info) : list dependency := use_deps info ++ build_deps info.

(** visitEdges with UseDepsOnly, source_file_record.hpp:75-81 *)
Definition visit_use_edges (info : source_file_info) : list dependency := use_deps info.

(** The graph as seen by core/utils/graphutils.hpp. *)
Definition edges_of (g : file_list) : list (list dependency) := map (fun e => visit_edges (snd e)) g.

(** getUseDepsRecursive, dependency_graph.cpp:103-114, for the node with the
    given id. *)
Inductive deps_result :=
| DepsFound (ds : list dependency)
| DepsCyclic
| DepsUndefined.

Definition keep_named (cs : list (nat * option dependency)) : list dependency :=
  flat_map (fun c => match snd c with
                     | Some d => if path_eqb (dep_name d) empty_path then [] else [d]
                     | None => []
                     end) cs.

Definition get_use_deps_recursive (g : file_list) (node : nat) : deps_result :=
  match processGraphNodeRecursive dep_ref (edges_of g) node with
  | Completed cs => DepsFound (keep_named cs)
  | CycleError _ => DepsCyclic
  | VisitUndefined | VisitOutOfFuel => DepsUndefined
  end.
