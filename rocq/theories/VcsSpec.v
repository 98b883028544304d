(** Vocabulary for the version information. *)

From Coq Require Import Ascii String ZArith.
From Coq Require Import List.
From Verif Require Import Str MakeModel VcsModel.
Import ListNotations.

(** The recipe is run again and again for the same source directory, without a repository. In
    between, any file may change, except for the file in __buildcache. [t] is the last target. *)
Inductive later_runs {data : Type} (dump : data -> str) (load : str -> option data) (source_dir : str) : files -> files -> str -> Prop :=
| one_run : forall F0 F repository writable can_make cwd t others F',
    F (cache_name source_dir) = F0 (cache_name source_dir) -> repository (cwd ++ lit "/.git") = None ->
    vcslog data dump load repository writable can_make cwd source_dir (t :: others) F = (F', 0%Z) ->
    later_runs dump load source_dir F0 F' t
| another_run : forall F0 F1 F repository writable can_make cwd t0 t others F',
    later_runs dump load source_dir F0 F1 t0 ->
    F (cache_name source_dir) = F1 (cache_name source_dir) -> repository (cwd ++ lit "/.git") = None ->
    vcslog data dump load repository writable can_make cwd source_dir (t :: others) F = (F', 0%Z) ->
    later_runs dump load source_dir F0 F' t.
