(** Model of [core/db/source_file_list] and [core/source_tree_loader/main.cpp]:
    from the scanned source files to the dependency graph of a project. *)

From Coq Require Import List Bool.
From Verif Require Import Str Path SMap JsonModel DbModel GraphModel DepGraphModel.
Import ListNotations.

(** The exceptions that can be thrown; [Undefined] is undefined behaviour. *)
Inductive load_error :=
| DuplicateTarget (name : path)        (* source_file_list.cpp:51-57 *)
| CyclicDependency                     (* graphutils.hpp:63 *)
| FailedToResolve                      (* dependency_graph.cpp:46-50 *)
| UndefinedBehaviour.

Inductive load_result (A : Type) :=
| Loaded (a : A)
| Failed (e : load_error).
Arguments Loaded {A} a.
Arguments Failed {A} e.

Definition then_load {A B} (r : load_result A) (f : A -> load_result B) : load_result B :=
  match r with Loaded a => f a | Failed e => Failed e end.

(** insertPlaceholderIfExternal, source_file_list.hpp:19-26 *)
Definition insert_placeholder_if_external (d : dependency) (m : file_list) : file_list :=
  if is_external (dep_origin d)
  then map_insert (dep_name d) (placeholder_info (dep_origin d) no_compiler) m
  else m.

(** insertPlaceholdersForExternalEntries (dependencies), source_file_list.cpp:12-18 *)
Definition insert_placeholders (ds : list dependency) (m : file_list) : file_list :=
  fold_left (fun m d => insert_placeholder_if_external d m) ds m.

(** insertPlaceholdersForExternalEntries (file), source_file_list.cpp:20-32 *)
Definition insert_placeholders_of (item : path * source_file_info) (m : file_list) : file_list :=
  insert_placeholders (use_deps (snd item))
    (fold_left (fun m t => insert_placeholders (ti_use_deps t) m) (targets (snd item)) m).

(** createPlaceholdersForExternalEntries, source_file_list.cpp:34-42 *)
Definition create_placeholders (fs : file_list) : file_list :=
  fold_left (fun m item => insert_placeholders_of item m) fs [].

(** target.hpp:11-40. [t_info] is the target as declared. *)
Record target := mk_target { t_source : path; t_info : target_info }.

Definition target_list := smap target.

(** insertUnique, source_file_list.cpp:44-62 *)
Definition insert_unique (t : target_info) (src : path) (ts : target_list) : load_result target_list :=
  let name := lexically_normal (ti_name t) in
  match map_find name ts with
  | Some _ => Failed (DuplicateTarget name)
  | None => Loaded (map_insert name (mk_target src t) ts)
  end.

(** collectTargets (one file), source_file_list.cpp:64-75 *)
Fixpoint collect_targets_of (src : path) (l : list target_info) (ts : target_list)
  : load_result target_list :=
  match l with
  | [] => Loaded ts
  | t :: l' =>
      if negb (path_eqb src (ti_name t))
      then then_load (insert_unique t src ts) (collect_targets_of src l')
      else collect_targets_of src l' ts
  end.

(** collectTargets, source_file_list.cpp:77-85 *)
Fixpoint collect_targets_from (fs : file_list) (ts : target_list) : load_result target_list :=
  match fs with
  | [] => Loaded ts
  | (p, info) :: fs' => then_load (collect_targets_of p (targets info) ts) (collect_targets_from fs')
  end.

Definition collect_targets (fs : file_list) : load_result target_list := collect_targets_from fs [].

(** makeSourceFileInfo, source_file_list.cpp:87-117 *)
Definition inherited_deps (g : file_list) (name : path) (cs : list (nat * option dependency))
  : list dependency :=
  flat_map (fun c => match nth_error g (fst c) with
                     | Some (_, info) =>
                         filter (fun d => negb (path_eqb (dep_name d) name)) (child_targets_use_deps info)
                     | None => []
                     end) cs.

Definition generated_info (use : list dependency) (src : path) : source_file_info :=
  set_build_deps [mk_dependency None src Project []]
                 (set_use_deps use (placeholder_info Generated no_compiler)).

Definition make_source_file_info (name : path) (t : target) (g : file_list)
  : load_result source_file_info :=
  match get_node g (t_source t) with
  | None => Failed UndefinedBehaviour
  | Some node =>
      match processGraphNodeRecursive dep_ref (edges_of g) node with
      | Completed cs =>
          Loaded (generated_info (ti_use_deps (t_info t) ++ inherited_deps g name cs) (t_source t))
      | CycleError _ => Failed CyclicDependency
      | VisitUndefined | VisitOutOfFuel => Failed UndefinedBehaviour
      end
  end.

(** makeSourceFileInfos, source_file_list.cpp:119-125. The graph is made from a
    copy of the list. *)
Fixpoint insert_source_file_infos (ts : target_list) (g fs : file_list) : load_result file_list :=
  match ts with
  | [] => Loaded fs
  | (name, t) :: ts' =>
      then_load (make_source_file_info name t g)
                (fun info => insert_source_file_infos ts' g (map_insert name info fs))
  end.

Definition make_source_file_infos (ts : target_list) (fs : file_list) : load_result file_list :=
  match make_graph true fs with
  | None => Failed FailedToResolve
  | Some g => insert_source_file_infos ts g fs
  end.

(** Replaces the value of an existing entry. *)
Fixpoint map_update {V} (k : path) (v : V) (m : smap V) : smap V :=
  match m with
  | [] => []
  | (k', v') :: m' => if path_eqb k k' then (k', v) :: m' else (k', v') :: map_update k v m'
  end.

(** addTargetDepsToSourceFiles, source_file_list.cpp:127-144: the entries are
    updated one after the other, in the order of the map. *)
Definition target_use_deps (m : file_list) (ts : list target_info) : list dependency :=
  flat_map (fun t => match map_find (ti_name t) m with
                     | None => []
                     | Some info => use_deps info
                     end) ts.

Definition add_target_deps_to (m : file_list) (k : path) : file_list :=
  match map_find k m with
  | None => m
  | Some info =>
      if use_target_deps info
      then map_update k (set_use_deps (use_deps info ++ target_use_deps m (targets info)) info) m
      else m
  end.

Definition add_target_deps (fs : file_list) : file_list :=
  fold_left add_target_deps_to (map fst fs) fs.

(** load, source_tree_loader/main.cpp:7-23, after the directory scan. *)
Definition load_project (src_files : file_list) : load_result (target_list * file_list) :=
  then_load (collect_targets src_files) (fun ts =>
  then_load (make_source_file_infos ts src_files) (fun fs1 =>
  let fs2 := add_target_deps (map_merge fs1 (create_placeholders fs1)) in
  match make_graph false fs2 with
  | None => Failed FailedToResolve
  | Some g => Loaded (ts, g)
  end)).
