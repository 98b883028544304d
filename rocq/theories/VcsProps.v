(** Property C85: version information. *)

From Coq Require Import Ascii String ZArith.
From Coq Require Import List.
From Verif Require Import Str MakeModel VcsModel VcsSpec VcsProofs.
Import ListNotations.

(** C85. The recipe has been run with a repository in the working directory: the target has
    the data of this repository. If it is run later without a repository, such as in a release
    that includes __buildcache, then the target has the same data. *)
Theorem C85_recorded_partial : forall (data : Type) dump (load : str -> option data) repository writable can_make cwd source_dir t others F F' d,
    repository (cwd ++ lit "/.git") = Some d ->
    vcslog data dump load repository writable can_make cwd source_dir (t :: others) F = (F', 0%Z) ->
    F' t = Some (dump d) /\ forall q, q <> t -> q <> source_dir ++ lit "/__buildcache/vcslog.json" -> F' q = F q.
Proof. exact recorded. Qed.
Print Assumptions C85_recorded_partial.

Theorem C85_kept : forall (data : Type) dump (load : str -> option data), (forall d, load (dump d) = Some d) ->
    forall repository writable can_make cwd source_dir t others F F1 d F2 t2,
    repository (cwd ++ lit "/.git") = Some d ->
    vcslog data dump load repository writable can_make cwd source_dir (t :: others) F = (F1, 0%Z) ->
    later_runs dump load source_dir F1 F2 t2 ->
    F2 t2 = Some (dump d).
Proof. exact kept. Qed.
Print Assumptions C85_kept.

(** * Examples and counterexamples *)

Local Open Scope string_scope.
Local Open Scope list_scope.

Definition always (q : str) : bool := true.

(** The repository of the project is not used if maike is started from another directory. *)
Theorem C85_repository_refuted : exists repository cwd source_dir t F F' (own other : str),
    source_dir <> cwd /\ repository (source_dir ++ lit "/.git") = Some own /\ own <> other /\
    vcslog str (fun d => d) Some repository always always cwd source_dir [t] F = (F', 0%Z) /\ F' t = Some other.
Proof.
  exists (fun q => if str_eqb q (lit "/p/.git") then Some (lit "own") else if str_eqb q (lit "/home/.git") then Some (lit "other") else None),
    (lit "/home"), (lit "/p"), (lit "/t/maike.vcslog"), (fun _ => None).
  eexists. exists (lit "own"), (lit "other"). split; [discriminate|]. split; [reflexivity|]. split; [discriminate|].
  split; [reflexivity|]. reflexivity.
Qed.
Print Assumptions C85_repository_refuted.

(** Two runs, with a repository, and without *)
Definition first_run : files * Z :=
  vcslog str (fun d => d) Some (fun _ => Some (lit "v1")) always always (lit "/p") (lit "/p") [lit "/p/t/log"] (fun _ => None).

Example recorded_and_kept : snd first_run = 0%Z /\ fst first_run (lit "/p/t/log") = Some (lit "v1") /\
  exists F', later_runs (fun d => d) Some (lit "/p") (fst first_run) F' (lit "/q/log") /\ F' (lit "/q/log") = Some (lit "v1").
Proof.
  split; [reflexivity|]. split; [reflexivity|]. eexists. split.
  - apply (one_run (fun d => d) Some (lit "/p") (fst first_run) (fst first_run) (fun _ => None) always always (lit "/x") (lit "/q/log") []);
      [reflexivity|reflexivity|]. reflexivity.
  - reflexivity.
Qed.
