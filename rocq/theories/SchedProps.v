(** Properties C07 to C11, C47 and C48: running a list of tasks. *)

From Coq Require Import Ascii String List Arith Permutation.
From Verif Require Import Str Path SMap PathProofs DbModel DepGraphModel DepGraphSpec DepGraphProps.
From Verif Require Import FileListModel FileListSpec FileListProps.
From Verif Require Import SchedModel SchedSpec SchedProofs TaskListModel TaskListSpec TaskListProofs.
Import ListNotations.

(** C07. In terms of numbered tasks... *)
Theorem C07_dependencies_succeed_first : forall reads rs tasks ws cs tr s,
    task_setup reads rs tasks -> idle_pool ws ->
    run reads cs (init rs tasks ws) = Some (tr, s) ->
    forall tr1 v tr2, tr = tr1 ++ Start v :: tr2 ->
    forall d, In d (reads v) -> In d tasks -> In (Finish d Succeeds) tr1.
Proof.
  exact (fun reads rs tasks ws cs tr s Hs Hw Hr =>
           started_ready reads rs tasks ws Hs Hw tr s (run_exec reads cs _ _ _ Hr)).
Qed.
Print Assumptions C07_dependencies_succeed_first.

(** ... and in terms of the files of a project: when work on [p] starts, all
    files it directly or indirectly needs have been built. *)
Theorem C07_project_dependencies_built_first : forall fs g, loaded fs g ->
    forall rs tasks, task_list g rs tasks ->
    forall ws, idle_pool ws ->
    forall cs tr s, run (task_reads g) cs (init rs tasks ws) = Some (tr, s) ->
    forall tr1 v tr2 p, tr = tr1 ++ Start v :: tr2 -> numbered g v p ->
    forall d q, numbered g d q -> file_needs g p q -> builds g q -> In (Finish d Succeeds) tr1.
Proof. exact project_started_ready. Qed.
Print Assumptions C07_project_dependencies_built_first.

(** C08 *)
Theorem C08_no_task_started_twice : forall reads rs tasks ws cs tr s,
    task_setup reads rs tasks -> idle_pool ws ->
    run reads cs (init rs tasks ws) = Some (tr, s) ->
    NoDup (started tr) /\ (forall v, In v (started tr) -> In v tasks) /\ NoDup (finished tr).
Proof.
  exact (fun reads rs tasks ws cs tr s Hs Hw Hr =>
    let E := run_exec reads cs _ _ _ Hr in
    conj (proj1 (started_tasks reads rs tasks ws Hs Hw tr s E))
         (conj (proj2 (started_tasks reads rs tasks ws Hs Hw tr s E)) (finish_once reads rs tasks ws Hs Hw tr s E))).
Qed.
Print Assumptions C08_no_task_started_twice.

Theorem C08_all_tasks_done_on_return : forall reads rs tasks ws cs tr s n,
    task_setup reads rs tasks -> idle_pool ws ->
    run reads cs (init rs tasks ws) = Some (tr, s) -> ph s = Returned n ->
    n = length tasks /\ Permutation tasks (started tr) /\ forall v, In v tasks -> In (Finish v Succeeds) tr.
Proof.
  exact (fun reads rs tasks ws cs tr s n Hs Hw Hr =>
           returned_all reads rs tasks ws Hs Hw tr s n (run_exec reads cs _ _ _ Hr)).
Qed.
Print Assumptions C08_all_tasks_done_on_return.

Theorem C08_project_built : forall fs g rs tasks ws, loaded fs g ->
    make_task_list g = Some (rs, tasks) -> idle_pool ws ->
    forall cs tr s n, run (task_reads g) cs (init rs tasks ws) = Some (tr, s) -> ph s = Returned n ->
    NoDup (started tr) /\ n = length (started tr) /\
    (forall v p, numbered g v p -> (In v (started tr) <-> builds fs p)) /\
    (forall v, In v (started tr) -> In (Finish v Succeeds) tr).
Proof. exact project_built. Qed.
Print Assumptions C08_project_built.

(** C09 *)
Theorem C09_failure_stops_dependents : forall reads rs tasks ws cs tr s,
    task_setup reads rs tasks -> idle_pool ws ->
    run reads cs (init rs tasks ws) = Some (tr, s) ->
    forall d o, In (Finish d o) tr -> o <> Succeeds ->
    (forall v, waits_for reads tasks v d -> ~ In (Start v) tr) /\
    (final (ph s) -> exists u, ph s = Threw u /\ (In (Finish u Fails) tr \/ In (Finish u Throws) tr)).
Proof.
  exact (fun reads rs tasks ws cs tr s Hs Hw Hr d o Hd Ho =>
    let E := run_exec reads cs _ _ _ Hr in
    conj (dependents_not_started reads rs tasks ws Hs Hw tr s E d o Hd Ho)
         (fun Hf => match failure_reported reads rs tasks ws Hs Hw tr s d o E Hf Hd Ho with
                    | ex_intro _ u Hu => ex_intro _ u (conj Hu (proj2 (threw_failed reads rs tasks ws Hs Hw tr s u E Hu)))
                    end)).
Qed.
Print Assumptions C09_failure_stops_dependents.

Theorem C09_project_failure : forall fs g, loaded fs g ->
    forall rs tasks, task_list g rs tasks ->
    forall ws, idle_pool ws ->
    forall cs tr s, run (task_reads g) cs (init rs tasks ws) = Some (tr, s) ->
    forall d o q, In (Finish d o) tr -> o <> Succeeds -> numbered g d q ->
    (forall v p, numbered g v p -> file_needs g p q -> ~ In (Start v) tr) /\
    (forall n, ph s <> Returned n).
Proof. exact project_failure. Qed.
Print Assumptions C09_project_failure.

(** C10. If every task records its result, [process] ends, whatever the order in
    which the threads run. *)
Theorem C10_process_ends : forall reads rs tasks ws cs tr s,
    task_setup reads rs tasks -> idle_pool ws ->
    run reads cs (init rs tasks ws) = Some (tr, s) -> harmless reads tasks tr ->
    always_ends reads tasks s.
Proof.
  exact (fun reads rs tasks ws cs tr s Hs Hw Hr =>
           process_ends reads rs tasks ws tr s Hs Hw (run_exec reads cs _ _ _ Hr)).
Qed.
Print Assumptions C10_process_ends.

Theorem C10_project_ends : forall fs g, loaded fs g ->
    forall rs tasks, task_list g rs tasks ->
    forall ws, idle_pool ws ->
    forall cs tr s, run (task_reads g) cs (init rs tasks ws) = Some (tr, s) ->
    harmless (task_reads g) tasks tr -> always_ends (task_reads g) tasks s.
Proof. exact project_ends. Qed.
Print Assumptions C10_project_ends.

(** C11 is false: after this a call to [process] does not end, whatever happens. *)
Theorem C11_ends_after_exception_refuted : exists reads rs tasks ws cs tr s,
    task_setup reads rs tasks /\ idle_pool ws /\
    run reads cs (init rs tasks ws) = Some (tr, s) /\ In (Finish 0 Throws) tr /\
    forall cs' tr' s', run reads cs' s = Some (tr', s') -> ~ final (ph s').
Proof. exact thrown_stuck. Qed.
Print Assumptions C11_ends_after_exception_refuted.

(** The same happens whenever another task waits for the one that throws, unless
    some third task fails in the usual way. *)
Theorem C11_never_ends : forall reads rs tasks ws cs tr s,
    task_setup reads rs tasks -> idle_pool ws ->
    run reads cs (init rs tasks ws) = Some (tr, s) ->
    forall v t, In (Finish v Throws) tr -> In t tasks -> In v (reads t) ->
    (forall u, ~ In (Finish u Fails) tr) -> ~ final (ph s).
Proof.
  exact (fun reads rs tasks ws cs tr s Hs Hw Hr =>
           thrown_never_final reads rs tasks ws Hs Hw tr s (run_exec reads cs _ _ _ Hr)).
Qed.
Print Assumptions C11_never_ends.

(** It does end, with an exception, if nobody waits for the tasks that throw. *)
Theorem C11_ends_after_exception_partial : forall reads rs tasks ws cs tr s,
    task_setup reads rs tasks -> idle_pool ws ->
    run reads cs (init rs tasks ws) = Some (tr, s) ->
    forall v, In (Finish v Throws) tr -> harmless reads tasks tr ->
    always_ends reads tasks s /\
    (final (ph s) -> exists u, ph s = Threw u /\ (In (Finish u Fails) tr \/ In (Finish u Throws) tr)).
Proof.
  exact (fun reads rs tasks ws cs tr s Hs Hw Hr v Hv Hh =>
    conj (C10_process_ends reads rs tasks ws cs tr s Hs Hw Hr Hh)
         (proj2 (C09_failure_stops_dependents reads rs tasks ws cs tr s Hs Hw Hr v Throws Hv
                   (fun E : Throws = Succeeds => eq_ind Throws (fun o => match o with Throws => True | _ => False end) I _ E)))).
Qed.
Print Assumptions C11_ends_after_exception_partial.

(** C47 *)
Theorem C47_tasks_of_a_project : forall fs g, loaded fs g ->
    ((exists p, file_on_cycle g p) /\ make_task_list g = None) \/
    ((~ exists p, file_on_cycle g p) /\
     exists rs tasks, make_task_list g = Some (rs, tasks) /\
       task_setup (task_reads g) rs tasks /\
       (forall v p, numbered g v p -> (In v tasks <-> builds g p)) /\
       (forall v, In v tasks -> exists p, numbered g v p) /\
       (forall v p, numbered g v p ->
          forall d, In d (task_reads g v) <-> exists q, numbered g d q /\ file_needs g p q)).
Proof. exact make_task_list_spec. Qed.
Print Assumptions C47_tasks_of_a_project.

Theorem C47_tasks_of_a_target : forall fs g, loaded fs g ->
    forall src, known g src ->
    ((exists q, file_reachable g src q /\ file_on_cycle g q) /\ make_target_task_list g src = None) \/
    ((~ exists q, file_reachable g src q /\ file_on_cycle g q) /\
     exists rs tasks, make_target_task_list g src = Some (rs, tasks) /\
       task_setup (task_reads g) rs tasks /\
       (forall v p, numbered g v p -> (In v tasks <-> builds g p /\ file_reachable g src p)) /\
       (forall v, In v tasks -> exists p, numbered g v p) /\
       (forall v p, In v tasks -> numbered g v p ->
          forall d, In d (task_reads g v) <-> exists q, numbered g d q /\ file_needs g p q)).
Proof. exact make_target_task_list_spec. Qed.
Print Assumptions C47_tasks_of_a_target.

Theorem C47_target_built : forall fs g rs tasks ws src, loaded fs g -> known g src ->
    make_target_task_list g src = Some (rs, tasks) -> idle_pool ws ->
    forall cs tr s n, run (task_reads g) cs (init rs tasks ws) = Some (tr, s) -> ph s = Returned n ->
    NoDup (started tr) /\ n = length (started tr) /\
    (forall v p, numbered g v p -> (In v (started tr) <-> builds fs p /\ file_reachable g src p)) /\
    (forall v, In v (started tr) -> In (Finish v Succeeds) tr).
Proof. exact target_built. Qed.
Print Assumptions C47_target_built.

Theorem C47_nothing_else_started : forall fs g rs tasks ws src, loaded fs g -> known g src ->
    make_target_task_list g src = Some (rs, tasks) -> idle_pool ws ->
    forall cs tr s, run (task_reads g) cs (init rs tasks ws) = Some (tr, s) ->
    forall v p, In (Start v) tr -> numbered g v p -> builds fs p /\ file_reachable g src p.
Proof. exact target_only. Qed.
Print Assumptions C47_nothing_else_started.

(** C48 *)
Theorem C48_no_thread_left_behind : forall reads rs tasks ws cs tr s,
    task_setup reads rs tasks -> idle_pool ws ->
    run reads cs (init rs tasks ws) = Some (tr, s) -> final (ph s) ->
    locals_unused s /\ Permutation (started tr) (finished tr) /\ submitted tr = started tr.
Proof.
  exact (fun reads rs tasks ws cs tr s Hs Hw Hr Hf =>
    let E := run_exec reads cs _ _ _ Hr in
    conj (final_locals reads rs tasks ws Hs Hw tr s E Hf) (final_finished reads rs tasks ws Hs Hw tr s E Hf)).
Qed.
Print Assumptions C48_no_thread_left_behind.

(** * Concrete cases *)

Local Open Scope string_scope.

(** An application made from two object files, and something unrelated. *)
Definition linked_project : file_list :=
  [(file "app.cpp", source_file [on Project "lib/a.hpp"] [] [mk_target_info (file "app.o") []] false);
   (file "lib/a.cpp", source_file [on Project "lib/a.hpp"] [] [mk_target_info (file "lib/a.o") []] false);
   (file "lib/a.hpp", source_file [on System "vector"] [] [] false);
   (file "link", source_file [on Generated "app.o"; on Generated "lib/a.o"] [] [mk_target_info (file "app") []] false);
   (file "unrelated", source_file [] [] [mk_target_info (file "log") []] false)].

Definition linked_graph : file_list :=
  match load_project linked_project with Loaded (_, g) => g | Failed _ => [] end.

Example linked_files : map fst linked_graph =
  [file "app"; file "app.cpp"; file "app.o"; file "lib/a.cpp"; file "lib/a.hpp"; file "lib/a.o"; file "link";
   file "log"; file "unrelated"; file "vector"].
Proof. vm_compute. reflexivity. Qed.

Example linked_loaded : loaded linked_project linked_graph.
Proof.
  split; [|split].
  - split; [repeat constructor|]. intros p info H. simpl in H.
    walk_entries H; repeat split; intros; intuition (subst; simpl in *; intuition auto).
  - unfold linked_graph. destruct (load_project linked_project) as [[ts g]|e] eqn:E; [eauto|].
    vm_compute in E. discriminate.
  - intros [k Hk]. unfold numbered in Hk. rewrite linked_files in Hk. vm_compute in Hk.
    do 10 (destruct k as [|k]; [discriminate|]). destruct k; discriminate.
Qed.

Example linked_tasks : option_map snd (make_task_list linked_graph) = Some [3; 1; 6; 8].
Proof. vm_compute. reflexivity. Qed.

Example linked_target_tasks : option_map snd (make_target_task_list linked_graph (file "link")) = Some [3; 1; 6].
Proof. vm_compute. reflexivity. Qed.

Example linked_reads : task_reads linked_graph 6 = [9; 4; 3; 5; 1; 2] /\ task_reads linked_graph 1 = [9; 4].
Proof. split; vm_compute; reflexivity. Qed.

(** Two threads, the first one asleep. *)
Definition two_workers : list worker := [WSleeping; WChecking].

Example two_workers_idle : idle_pool two_workers.
Proof. split; [discriminate|]. intros w [<-|[<-|[]]]; auto. Qed.

(** A schedule: [process] goes first whenever it can, then the first worker, and
    then the second one. *)
Fixpoint greedy (reads : nat -> list nat) (outcome : nat -> task_outcome) (n : nat) (s : state) : list choice :=
  match n with
  | 0 => []
  | S n' =>
      let result i := match nth_error (workers s) i with Some (WRunning v) => outcome v | _ => Succeeds end in
      let candidates := [ByProcess 0; ByProcess 1; ByWorker 0 (result 0); ByWorker 1 (result 1)] in
      match find (fun c => match step reads c s with Some _ => true | None => false end) candidates with
      | None => []
      | Some c => match step reads c s with
                  | Some (_, s') => c :: greedy reads outcome n' s'
                  | None => []
                  end
      end
  end.

Definition linked_run (outcome : nat -> task_outcome) : option (list label * phase) :=
  match make_target_task_list linked_graph (file "link") with
  | None => None
  | Some (rs, tasks) =>
      let s0 := init rs tasks two_workers in
      match run (task_reads linked_graph) (greedy (task_reads linked_graph) outcome 200 s0) s0 with
      | None => None
      | Some (tr, s) => Some (tr, ph s)
      end
  end.

Example linked_success :
  linked_run (fun _ => Succeeds) =
  Some ([Submit 3; Submit 1; Start 3; Finish 3 Succeeds; Start 1; Finish 1 Succeeds;
         Submit 6; Start 6; Finish 6 Succeeds], Returned 3).
Proof. vm_compute. reflexivity. Qed.

(** lib/a.cpp fails: nothing is linked. *)
Example linked_failure :
  linked_run (fun v => if Nat.eqb v 3 then Fails else Succeeds) =
  Some ([Submit 3; Submit 1; Start 3; Finish 3 Fails; Start 1; Finish 1 Succeeds], Threw 3).
Proof. vm_compute. reflexivity. Qed.

(** lib/a.cpp throws without recording a result: [process] waits forever. *)
Example linked_throws :
  linked_run (fun v => if Nat.eqb v 3 then Throws else Succeeds) =
  Some ([Submit 3; Submit 1; Start 3; Finish 3 Throws; Start 1; Finish 1 Succeeds], EventSleep).
Proof. vm_compute. reflexivity. Qed.

(** Nobody waits for the last task. *)
Example linked_last_throws :
  linked_run (fun v => if Nat.eqb v 6 then Throws else Succeeds) =
  Some ([Submit 3; Submit 1; Start 3; Finish 3 Succeeds; Start 1; Finish 1 Succeeds;
         Submit 6; Start 6; Finish 6 Throws], Threw 6).
Proof. vm_compute. reflexivity. Qed.

Example linked_harmless :
  harmless (task_reads linked_graph) [3; 1; 6] [Start 6; Finish 6 Throws].
Proof.
  intros v [H|[H|[]]]; inversion H; subst. intros t [<-|[<-|[<-|[]]]] Hin; vm_compute in Hin; intuition discriminate.
Qed.
