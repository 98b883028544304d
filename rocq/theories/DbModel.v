(** Data types of [core/db]. *)

From Coq Require Import List Ascii String Bool.
From Verif Require Import Str Path SMap JsonModel.
Import ListNotations.

(** source_file_origin.hpp:12-18 *)
Inductive origin := Project | Generated | System | PkgConfig.

(** isExternal, source_file_origin.hpp:20-23 *)
Definition is_external (o : origin) : bool :=
  match o with System | PkgConfig => true | Project | Generated => false end.

(** property.hpp:11-32 *)
Record property := mk_property { prop_name : str; prop_value : str }.

(** dependency.hpp:19-66. [dep_ref] is [None] for a reference that is not
    valid (source_file_id.hpp:13-43). *)
Record dependency := mk_dependency {
  dep_ref : option nat;
  dep_name : path;
  dep_origin : origin;
  dep_props : list property
}.

(** compiler.hpp:17-92 *)
Record compiler := mk_compiler {
  recipe : path;
  comp_origin : option origin;
  comp_config : compound;
  use_get_tags : bool
}.

Definition no_compiler : compiler := mk_compiler empty_path None [] false.

(** target_info.hpp:17-38 *)
Record target_info := mk_target_info { ti_name : path; ti_use_deps : list dependency }.

(** rebuild_policy.hpp:12-16 *)
Inductive rebuild_policy := Always | OnlyIfOutOfDate.

(** source_file_info.hpp:29-150 *)
Record source_file_info := mk_source_file_info {
  use_deps : list dependency;
  build_deps : list dependency;
  child_targets_use_deps : list dependency;
  targets : list target_info;
  compiler_default : option compiler;
  si_compiler : compiler;
  si_origin : origin;
  si_policy : rebuild_policy;
  use_target_deps : bool
}.

(** SourceFileInfo(origin, compiler), source_file_info.hpp:35-42 *)
Definition placeholder_info (o : origin) (c : compiler) : source_file_info :=
  mk_source_file_info [] [] [] [] None c o OnlyIfOutOfDate false.

(** The setters useDeps and buildDeps, source_file_info.hpp:68-72 and 83-87 *)
Definition set_use_deps (d : list dependency) (s : source_file_info) : source_file_info :=
  mk_source_file_info d (build_deps s) (child_targets_use_deps s) (targets s) (compiler_default s)
                      (si_compiler s) (si_origin s) (si_policy s) (use_target_deps s).

Definition set_build_deps (d : list dependency) (s : source_file_info) : source_file_info :=
  mk_source_file_info (use_deps s) d (child_targets_use_deps s) (targets s) (compiler_default s)
                      (si_compiler s) (si_origin s) (si_policy s) (use_target_deps s).

(** DependencyGraph::SourceFileList, dependency_graph.hpp:22 *)
Definition file_list := smap source_file_info.
