(** Model of recipes/vcslog.py. *)

From Coq Require Import Ascii String ZArith.
From Coq Require Import List.
From Verif Require Import Str MakeModel.
Import ListNotations.

Section Vcslog.
  (** What is recorded about a repository: lines 13-30 *)
  Variable data : Type.
  (** json.dump and json.load; [None]: raises *)
  Variable dump : data -> str.
  Variable load : str -> option data.
  (** The repository at the given path, if it can be read *)
  Variable repository : str -> option data.
  Variable writable : str -> bool.
  (** Whether os.mkdir does not raise anything else than FileExistsError *)
  Variable can_make : str -> bool.

  Definition cache_dir (source_dir : str) : str := source_dir ++ lit "/__buildcache".
  Definition cache_name (source_dir : str) : str := source_dir ++ lit "/__buildcache/vcslog.json".

  (** get, vcslog.py:21-31. Relative paths are relative to the working directory. *)
  Definition get_log (cwd cache : str) (F : files) : option data :=
    match repository (cwd ++ lit "/.git") with
    | Some d => Some d
    | None => match F cache with Some text => load text | None => None end
    end.

  (** The main part, vcslog.py:39-56, with 'compile' *)
  Definition vcslog (cwd source_dir : str) (targets : list str) (F : files) : files * Z :=
    match targets with
    | [] => (F, 255%Z)
    | target :: _ =>
        match get_log cwd (cache_name source_dir) F with
        | None => (F, 255%Z)
        | Some d =>
            if writable target then
              let F := set_file target (dump d) F in
              if can_make (cache_dir source_dir) then
                if writable (cache_name source_dir) then (set_file (cache_name source_dir) (dump d) F, 0%Z) else (F, 255%Z)
              else (F, 255%Z)
            else (F, 255%Z)
        end
    end.
End Vcslog.
