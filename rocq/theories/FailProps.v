(** Property C81: building again after a failure. *)

From Coq Require Import Ascii String ZArith.
From Coq Require Import List.
From Verif Require Import Str Path SMap DbModel DepGraphSpec FileListModel FileListSpec.
From Verif Require Import SchedModel SchedSpec TaskListModel TaskListSpec BuildModel BuildSpec FailSpec FailProofs FailRun.
From Verif Require Import RecipeModel MakeModel MakeSpec MakeProofs.
From Verif Require Import DepGraphProps FileListProps SchedProps BuildProps MakeProps.
Import ListNotations.

(** C81. During a build, a recipe has failed, and at that time, the targets were not up
    to date. Then a build of what is left behind does not return normally without running the
    recipe again, with success. Missing: recipes that fail after they have made all of
    their targets. *)
Theorem C81_run_again_partial : forall fs g, loaded fs g -> proper_names fs g ->
    forall rs tasks, task_list g rs tasks -> forall ws1 ws2, idle_pool ws1 -> idle_pool ws2 ->
    forall cs1 tr1 s1 cs2 tr2 s2 n force1 D0 D1 dec1 left1 force2 T D2 dec2 left2,
    run (task_reads g) cs1 (init rs tasks ws1) = Some (tr1, s1) ->
    noted_build g force1 anything D0 tr1 D1 dec1 left1 ->
    run (task_reads g) cs2 (init rs tasks ws2) = Some (tr2, s2) -> ph s2 = Returned n ->
    noted_build g force2 (since T D1) D1 tr2 D2 dec2 left2 ->
    forall v o D, In (v, o, D) left1 -> ~ current g D v -> not_after T g v D1 ->
    invoked dec2 v /\ In (Finish v Succeeds) tr2.
Proof. exact rebuilt_after_failure. Qed.
Print Assumptions C81_run_again_partial.

(** The same if the build has been interrupted, or the recipe could not be started: whatever
    is not up to date is built. *)
Theorem C81_interrupted_partial : forall fs g, loaded fs g -> proper_names fs g ->
    forall rs tasks, task_list g rs tasks -> forall ws, idle_pool ws ->
    forall cs tr s n force T D1 D2 dec left,
    run (task_reads g) cs (init rs tasks ws) = Some (tr, s) -> ph s = Returned n ->
    noted_build g force (since T D1) D1 tr D2 dec left ->
    forall v, In v tasks -> not_after T g v D1 -> ~ current g D1 v -> invoked dec v /\ In (Finish v Succeeds) tr.
Proof. exact rebuilt. Qed.
Print Assumptions C81_interrupted_partial.

(** If a recipe fails, but leaves its targets up to date, then it is never run again,
    unless that is required by some rebuild policy. *)
Theorem C81_forgotten : forall fs g, loaded fs g -> proper_names fs g ->
    forall rs tasks, task_list g rs tasks -> forall ws1 ws2, idle_pool ws1 -> idle_pool ws2 ->
    forall cs1 tr1 s1 cs2 tr2 s2 force D0 D1 dec1 left1 D2 dec2,
    run (task_reads g) cs1 (init rs tasks ws1) = Some (tr1, s1) ->
    noted_build g force anything D0 tr1 D1 dec1 left1 ->
    run (task_reads g) cs2 (init rs tasks ws2) = Some (tr2, s2) ->
    building g false D1 tr2 D2 dec2 ->
    forall v o D, In (v, o, D) left1 -> current g D v -> ~ affected_by_policy g v -> ~ invoked dec2 v.
Proof. exact forgotten. Qed.
Print Assumptions C81_forgotten.

(** A build fails because of a recipe; the next one succeeds, and runs no recipe. *)
Theorem C81_failure_refuted : exists fs g rs tasks ws cs1 tr1 s1 D0 D1 dec1 left1 v cs2 tr2 s2 D2 dec2 left2,
    loaded fs g /\ proper_names fs g /\ task_list g rs tasks /\ idle_pool ws /\
    run (task_reads g) cs1 (init rs tasks ws) = Some (tr1, s1) /\
    noted_build g false anything D0 tr1 D1 dec1 left1 /\
    invoked dec1 v /\ In (Finish v Fails) tr1 /\ ph s1 = Threw v /\
    run (task_reads g) cs2 (init rs tasks ws) = Some (tr2, s2) /\
    noted_build g false anything D1 tr2 D2 dec2 left2 /\
    ph s2 = Returned 3 /\ forall u, ~ invoked dec2 u.
Proof. exact failure_forgotten. Qed.
Print Assumptions C81_failure_refuted.

(** Such a recipe is cxx_compiler.py, for programs that are run after they have been built,
    such as tests: if it fails though the compiler succeeds, then this is because of the program,
    or of clang-tidy, and all targets have been made. *)
Theorem C81_test_program : forall run writable args source t others link execute sanitize F F' code content,
    makes run args F t content ->
    leaves_alone run [t] (t :: others) ->
    leaves_alone run ([lit "clang-tidy"; source; lit "--"; lit "-Wno-unknown-warning-option"] ++ args) (t :: others) ->
    cxx_compiler run writable false args source (t :: others) link execute sanitize F = (F', code) ->
    snd (copy_all writable t others (fst (run args F))) = true ->
    code <> 0%Z -> (execute = true \/ sanitize = true) /\ forall q, In q (t :: others) -> F' q = Some content.
Proof. exact check_failed. Qed.
Print Assumptions C81_test_program.

(** * Examples *)

Local Open Scope string_scope.

(** The linker fails without having written anything, and is run again. *)
Example linker_again :
  loaded linked_project linked_graph /\ proper_names linked_project linked_graph /\
  task_list linked_graph (fst link_setup) (snd link_setup) /\ idle_pool two_workers /\
  (exists s, run (task_reads linked_graph) (link_choices Fails) (init (fst link_setup) (snd link_setup) two_workers)
               = Some (link_events Fails, s) /\ ph s = Threw 6) /\
  (exists dec left, noted_build linked_graph false anything objects_built (link_events Fails) objects_built dec left /\
                    invoked dec 6 /\ In (6, Fails, objects_built) left) /\
  (exists s, run (task_reads linked_graph) (link_choices Succeeds) (init (fst link_setup) (snd link_setup) two_workers)
               = Some (link_events Succeeds, s) /\ ph s = Returned 3) /\
  (exists dec left, noted_build linked_graph false (since 11 objects_built) objects_built (link_events Succeeds) everything_built dec left) /\
  ~ current linked_graph objects_built 6 /\ not_after 11 linked_graph 6 objects_built.
Proof.
  split; [exact linked_loaded|]. split; [exact linked_names|]. split; [exact link_task_list|]. split; [exact two_workers_idle|].
  split; [exact (link_run Fails (or_intror eq_refl))|]. split; [exact (link_fails false)|].
  split; [exact (link_run Succeeds (or_introl eq_refl))|]. split; [exact link_again|].
  split; [exact link_not_current|exact link_not_after].
Qed.

Example linker_forgotten : current linked_graph everything_built 6 /\ ~ affected_by_policy linked_graph 6 /\
  (exists dec left, noted_build linked_graph false anything objects_built (link_events Fails) everything_built dec left /\
                    invoked dec 6 /\ In (6, Fails, everything_built) left).
Proof.
  split; [apply (BuildProofs.not_needed_current linked_graph _ false); vm_compute; reflexivity|].
  split; [exact link_not_affected|exact (link_fails true)].
Qed.

Example test_fails : makes (tools 3) test_args some_files (lit "out/t") (lit "x") /\
  snd (cxx_compiler (tools 3) (fun _ => true) false test_args (lit "t.cpp") [lit "out/t"; lit "out/u"] true true false some_files) = 3%Z.
Proof. split; [apply tools_make|vm_compute; reflexivity]. Qed.
