(** Properties C14 - C18 and C50: deciding what to build. *)

From Coq Require Import Ascii String ZArith.
From Coq Require Import List.
From Verif Require Import Str Path SMap PathProofs DbModel DepGraphModel DepGraphSpec FileListModel FileListSpec.
From Verif Require Import SchedModel SchedSpec TaskListModel TaskListSpec BuildModel BuildSpec BuildProofs.
From Verif Require Import DepGraphProps FileListProps SchedProps.
Import ListNotations.

(** C14. A task passes its command to the invoker (once) exactly when needed.
    Otherwise it does nothing, and succeeds, unless the question whether the
    targets are up to date has no answer. A task that ran its recipe succeeds if
    and only if the recipe exits with status zero. *)
Theorem C14_recipe_run_when_needed : forall command world disk_of invoke force src info deps c w w' cs o,
    run_task command world disk_of invoke force src info deps c w = (w', cs, o) ->
    let needed := force = true \/ si_policy info = Always \/
                  ~ up_to_date (disk_of w) src (targets info) deps in
    (cs = [] /\ w' = w /\
     ((o = Succeeds /\ ~ needed) \/
      (o = Throws /\ force = false /\ si_policy info <> Always /\
       undecidable (disk_of w) src (targets info) deps))) \/
    (cs = [c] /\ needed /\ w' = fst (invoke c w) /\
     (o = Succeeds <-> snd (invoke c w) = Some (ExitCode 0)) /\
     (o = Throws <-> snd (invoke c w) = None)).
Proof. exact run_task_spec. Qed.
Print Assumptions C14_recipe_run_when_needed.

(** A build with recompilation forced that returns has run every recipe. *)
Theorem C14_forced_build_runs_everything : forall fs g, loaded fs g ->
    forall rs tasks, task_list g rs tasks -> forall ws, idle_pool ws ->
    forall D cs tr s n D' dec,
    run (task_reads g) cs (init rs tasks ws) = Some (tr, s) -> ph s = Returned n ->
    building g true D tr D' dec ->
    forall v, In v tasks -> invoked dec v.
Proof. exact forced_complete. Qed.
Print Assumptions C14_forced_build_runs_everything.

(** C15. *)
Theorem C15_up_to_date_exact : forall D src info deps, ~ undecidable D src (targets info) deps ->
    exists b, is_up_to_date D src info deps = Some b /\ (b = true <-> up_to_date D src (targets info) deps).
Proof. exact up_to_date_decided. Qed.
Print Assumptions C15_up_to_date_exact.

(** An exception is thrown only if there is a reason. *)
Theorem C15_up_to_date_throws : forall D src info deps, is_up_to_date D src info deps = None ->
    undecidable D src (targets info) deps.
Proof.
  exact (fun D src info deps H =>
    match is_up_to_date D src info deps as r return
      match r with
      | None => undecidable D src (targets info) deps
      | Some true => up_to_date D src (targets info) deps
      | Some false => ~ up_to_date D src (targets info) deps
      end -> r = None -> undecidable D src (targets info) deps
    with
    | None => fun Hs _ => Hs
    | Some _ => fun _ E => match E with eq_refl => I end
    end (up_to_date_spec D src info deps) H).
Qed.
Print Assumptions C15_up_to_date_throws.

(** In a project: when a task has nothing to do, each of its targets is newer than
    its source file and everything which that file needs, directly or not. *)
Theorem C15_up_to_date_project : forall fs g, loaded fs g ->
    forall rs tasks, task_list g rs tasks ->
    forall D v p info, In v tasks -> nth_error g v = Some (p, info) ->
    current g D v -> forall t, In t (targets info) ->
    directory D (ti_name t) \/
    (newer D (ti_name t) p /\
     forall q, file_needs g p q -> internal g q -> ~ directory D q -> newer D (ti_name t) q).
Proof. exact project_up_to_date. Qed.
Print Assumptions C15_up_to_date_project.

(** C16. *)
Theorem C16_ages_compared : forall D a b,
    ((~ present D a /\ ~ present D b) /\ is_older D a b = None /\ is_newer D a b = None) \/
    ((present D a \/ present D b) /\
     exists o n, is_older D a b = Some o /\ is_newer D a b = Some n /\
       (o = true <-> newer D b a) /\ (n = true <-> newer D a b) /\ (o = true -> n = true -> False) /\
       (o = false -> n = false -> exists t, stamped D a t /\ stamped D b t)).
Proof. exact ages_compared. Qed.
Print Assumptions C16_ages_compared.

(** C17. After a build that returned, everything is current. *)
Theorem C17_build_leaves_everything_current : forall fs g, loaded fs g -> proper_names fs g ->
    forall rs tasks, task_list g rs tasks -> forall ws, idle_pool ws ->
    forall force cs tr s n D0 D dec,
    run (task_reads g) cs (init rs tasks ws) = Some (tr, s) -> ph s = Returned n ->
    building g force D0 tr D dec ->
    forall v, In v tasks -> current g D v.
Proof. exact built_all_current. Qed.
Print Assumptions C17_build_leaves_everything_current.

(** A second build, at any stage, has run only recipes that have to be run
    always, or that need what such a recipe makes. If there are none, no file has
    been changed. *)
Theorem C17_second_build_does_nothing : forall fs g, loaded fs g -> proper_names fs g ->
    forall rs tasks, task_list g rs tasks -> forall ws1 ws2, idle_pool ws1 -> idle_pool ws2 ->
    forall force cs1 tr1 s1 n D0 D1 dec1 cs2 tr2 s2 D2 dec2,
    run (task_reads g) cs1 (init rs tasks ws1) = Some (tr1, s1) -> ph s1 = Returned n ->
    building g force D0 tr1 D1 dec1 ->
    run (task_reads g) cs2 (init rs tasks ws2) = Some (tr2, s2) ->
    building g false D1 tr2 D2 dec2 ->
    (forall v, invoked dec2 v -> affected_by_policy g v) /\
    ((forall v, In v tasks -> ~ always_rebuilt g v) -> (forall v, ~ invoked dec2 v) /\ forall q, D2 q = D1 q).
Proof.
  exact (fun fs g Hl Hn rs tasks Ht ws1 ws2 H1 H2 force cs1 tr1 s1 n D0 D1 dec1 cs2 tr2 s2 D2 dec2 R1 P1 B1 R2 B2 =>
    rebuild_nothing fs g Hl Hn rs tasks Ht ws2 H2 D1 cs2 tr2 s2 D2 dec2
      (built_all_current fs g Hl Hn rs tasks Ht ws1 H1 force cs1 tr1 s1 n D0 D1 dec1 R1 P1 B1) R2 B2).
Qed.
Print Assumptions C17_second_build_does_nothing.

(** C18. *)
Theorem C18_dry_run_starts_nothing : forall command world run_process c w,
    local_execve command world run_process true c w = (w, Some (ExitCode 0)).
Proof. exact dry_run_no_effect. Qed.
Print Assumptions C18_dry_run_starts_nothing.

Theorem C18_dry_run_task : forall command world run_process disk_of force src info deps c w w' cs o,
    run_task command world disk_of (local_execve command world run_process true) force src info deps c w = (w', cs, o) ->
    w' = w /\ o <> Fails.
Proof. exact dry_run_task. Qed.
Print Assumptions C18_dry_run_task.

(** C50. If everything is current, and then [x], which is not built, changes in any
    way, nothing is rebuilt unless it is made from [x]. *)
Theorem C50_rebuild_minimal : forall fs g, loaded fs g -> proper_names fs g ->
    forall rs tasks, task_list g rs tasks -> forall ws, idle_pool ws ->
    forall x D0 D1 cs tr s D2 dec,
    (forall v, In v tasks -> current g D0 v) -> same_except x D0 D1 -> (forall u, ~ target_of g u x) ->
    run (task_reads g) cs (init rs tasks ws) = Some (tr, s) ->
    building g false D1 tr D2 dec ->
    forall v, invoked dec v -> affected_by_policy g v \/ made_from g v x.
Proof. exact rebuild_minimal. Qed.
Print Assumptions C50_rebuild_minimal.

(** A build that returns has rebuilt everything that was outdated when it started. *)
Theorem C50_rebuild_complete : forall fs g, loaded fs g -> proper_names fs g ->
    forall rs tasks, task_list g rs tasks -> forall ws, idle_pool ws ->
    forall force D1 cs tr s n D2 dec,
    run (task_reads g) cs (init rs tasks ws) = Some (tr, s) -> ph s = Returned n ->
    building g force D1 tr D2 dec ->
    forall v, In v tasks -> outdated g D1 v -> invoked dec v.
Proof. exact rebuild_complete. Qed.
Print Assumptions C50_rebuild_complete.

(** * Examples *)

Local Open Scope string_scope.

Definition write (p : path) (t : Z) (D : disk) : disk := fun q => if path_eqb q p then PlainFile t else D q.

(** Only source files, and a directory. *)
Definition nothing_built : disk :=
  write (file "app.cpp") 1 (write (file "lib/a.cpp") 2 (write (file "lib/a.hpp") 3
    (write (file "link") 1 (write (file "unrelated") 2
      (fun q => if path_eqb q (file "lib") then Directory 9 else Missing))))).

Definition object_1_built := write (file "lib/a.o") 10 nothing_built.
Definition objects_built := write (file "app.o") 11 object_1_built.
Definition everything_built := write (file "app") 12 objects_built.

(** C14, C15: what to do before, during and after. *)
Example decisions :
  map (task_needs_run linked_graph nothing_built false) [1; 3; 6] = [Some true; Some true; Some true] /\
  map (task_needs_run linked_graph objects_built false) [1; 3; 6] = [Some false; Some false; Some true] /\
  map (task_needs_run linked_graph everything_built false) [1; 3; 6] = [Some false; Some false; Some false] /\
  map (task_needs_run linked_graph (write (file "lib/a.hpp") 12 everything_built) false) [1; 3; 6; 8] =
    [Some true; Some true; Some true; Some true] /\
  map (task_needs_run linked_graph (write (file "app.cpp") 14 everything_built) false) [1; 3; 6] =
    [Some true; Some false; Some true].
Proof. repeat split; vm_compute; reflexivity. Qed.

(** Neither the target nor the source file exists. *)
Example no_decision : task_needs_run linked_graph (fun _ => Missing) false 1 = None.
Proof. vm_compute. reflexivity. Qed.

Example not_undecidable : ~ undecidable objects_built (file "link") [mk_target_info (file "app") []]
                              [on Project "lib/a.hpp"; on Generated "app.o"].
Proof.
  intros [[H _]|(d & [<-|[<-|[]]] & _ & H)].
  - apply H. exists 1%Z. left. vm_compute. reflexivity.
  - vm_compute in H. discriminate.
  - vm_compute in H. discriminate.
Qed.

(** C16 *)
Example ages :
  is_older objects_built (file "app.cpp") (file "app.o") = Some true /\
  is_newer objects_built (file "app.cpp") (file "app.o") = Some false /\
  is_older objects_built (file "app") (file "app.o") = Some true /\
  is_older objects_built (file "link") (file "app.cpp") = Some false /\
  is_newer objects_built (file "link") (file "app.cpp") = Some false /\
  is_older objects_built (file "app") (file "log") = None.
Proof. repeat split; vm_compute; reflexivity. Qed.

Lemma write_other : forall p t D q, q <> p -> write p t D q = D q.
Proof. intros p t D q H. unfold write. destruct (path_eqb q p) eqn:E; auto. apply path_eqb_eq in E. contradiction. Qed.

Lemma is_target : forall g v q,
    match nth_error g v with
    | Some (_, info) => existsb (fun t => path_eqb (ti_name t) q) (targets info)
    | None => false
    end = true -> target_of g v q.
Proof.
  intros g v q H. destruct (nth_error g v) as [[p info]|] eqn:E; [|discriminate].
  apply existsb_exists in H. destruct H as [t [Ht H]]. apply path_eqb_eq in H. exists p, info, t. auto.
Qed.

Lemma no_target : forall (g : file_list) x,
    forallb (fun e => forallb (fun t => negb (path_eqb (ti_name t) x)) (targets (snd e))) g = true ->
    forall u, ~ target_of g u x.
Proof.
  intros g x H u (p & info & t & Hn & Ht & E). rewrite forallb_forall in H.
  pose proof (H _ (nth_error_In _ _ Hn)) as H'. rewrite forallb_forall in H'. pose proof (H' t Ht) as H2.
  rewrite (proj2 (path_eqb_eq _ _) E) in H2. discriminate.
Qed.

Ltac running_now := split; [simpl; tauto|]; intros o H; simpl in H;
  repeat (destruct H as [H|H]; [discriminate H|]); destruct H.

(** C17: the schedule of [linked_success], starting with nothing built. *)
Example first_build :
  building linked_graph false nothing_built
    [Submit 3; Submit 1; Start 3; Finish 3 Succeeds; Start 1; Finish 1 Succeeds; Submit 6; Start 6; Finish 6 Succeeds]
    everything_built [(6, Some true); (1, Some true); (3, Some true)].
Proof.
  set (g := linked_graph). set (D := nothing_built).
  assert (B2 : building g false D [Submit 3; Submit 1] D []).
  { apply (building_submits g false D [Submit 3] D [] 1). apply (building_submits g false D [] D [] 3). constructor. }
  assert (B3 : building g false D [Submit 3; Submit 1; Start 3] D [(3, Some true)]).
  { assert (E : task_needs_run g D false 3 = Some true) by (vm_compute; reflexivity). rewrite <- E.
    exact (building_starts g false D _ D _ 3 B2). }
  assert (B3' : building g false D [Submit 3; Submit 1; Start 3] object_1_built [(3, Some true)]).
  { apply (building_writes g false D _ D object_1_built _ 3 B3); [left; reflexivity|running_now|].
    intros q Hq. apply write_other. intros ->. apply Hq. apply is_target. vm_compute. reflexivity. }
  assert (B4 : building g false D [Submit 3; Submit 1; Start 3; Finish 3 Succeeds] object_1_built [(3, Some true)]).
  { apply (building_finishes g false D _ _ _ 3 Succeeds B3'); [running_now| |intros [H|[]]; discriminate].
    intros _ _. apply (not_needed_current g _ false). vm_compute. reflexivity. }
  assert (B5 : building g false D [Submit 3; Submit 1; Start 3; Finish 3 Succeeds; Start 1] object_1_built
                 [(1, Some true); (3, Some true)]).
  { assert (E : task_needs_run g object_1_built false 1 = Some true) by (vm_compute; reflexivity). rewrite <- E.
    exact (building_starts g false D _ _ _ 1 B4). }
  assert (B5' : building g false D [Submit 3; Submit 1; Start 3; Finish 3 Succeeds; Start 1] objects_built
                 [(1, Some true); (3, Some true)]).
  { apply (building_writes g false D _ object_1_built objects_built _ 1 B5); [left; reflexivity|running_now|].
    intros q Hq. apply write_other. intros ->. apply Hq. apply is_target. vm_compute. reflexivity. }
  assert (B6 : building g false D [Submit 3; Submit 1; Start 3; Finish 3 Succeeds; Start 1; Finish 1 Succeeds; Submit 6]
                 objects_built [(1, Some true); (3, Some true)]).
  { apply (building_submits g false D [Submit 3; Submit 1; Start 3; Finish 3 Succeeds; Start 1; Finish 1 Succeeds] _ _ 6).
    apply (building_finishes g false D _ _ _ 1 Succeeds B5'); [running_now| |intros [H|[H|[]]]; discriminate].
    intros _ _. apply (not_needed_current g _ false). vm_compute. reflexivity. }
  assert (B7 : building g false D [Submit 3; Submit 1; Start 3; Finish 3 Succeeds; Start 1; Finish 1 Succeeds; Submit 6; Start 6]
                 objects_built [(6, Some true); (1, Some true); (3, Some true)]).
  { assert (E : task_needs_run g objects_built false 6 = Some true) by (vm_compute; reflexivity). rewrite <- E.
    exact (building_starts g false D _ _ _ 6 B6). }
  assert (B7' : building g false D [Submit 3; Submit 1; Start 3; Finish 3 Succeeds; Start 1; Finish 1 Succeeds; Submit 6; Start 6]
                 everything_built [(6, Some true); (1, Some true); (3, Some true)]).
  { apply (building_writes g false D _ objects_built everything_built _ 6 B7); [left; reflexivity|running_now|].
    intros q Hq. apply write_other. intros ->. apply Hq. apply is_target. vm_compute. reflexivity. }
  apply (building_finishes g false D _ _ _ 6 Succeeds B7'); [running_now| |intros [H|[H|[H|[]]]]; discriminate].
  intros _ _. apply (not_needed_current g _ false). vm_compute. reflexivity.
Qed.

Example linked_names : proper_names linked_project linked_graph.
Proof.
  split.
  - intros p [k Hk]. unfold numbered in Hk. rewrite linked_files in Hk.
    do 10 (destruct k as [|k]; [vm_compute in Hk; inversion Hk; vm_compute; reflexivity|]). destruct k; discriminate.
  - intros p info t H Ht. simpl in H. walk_entries H; simpl in Ht;
      repeat (destruct Ht as [<-|Ht]; [split; [vm_compute; reflexivity|right; intro X; vm_compute in X; intuition discriminate]|]); destruct Ht.
Qed.

(** C50: app.cpp changes, and then app.o, app and not lib/a.o are made again. *)
Example app_changed_outdated :
  outdated linked_graph (write (file "app.cpp") 14 everything_built) 1 /\
  outdated linked_graph (write (file "app") 0 everything_built) 6 /\
  (forall u, ~ target_of linked_graph u (file "app.cpp")).
Proof.
  assert (H1 : nth_error linked_graph 1 = Some (file "app.cpp", snd (nth 1 linked_graph (file "", source_file [] [] [] false))))
    by (vm_compute; reflexivity).
  assert (H6 : nth_error linked_graph 6 = Some (file "link", snd (nth 6 linked_graph (file "", source_file [] [] [] false))))
    by (vm_compute; reflexivity).
  split; [|split].
  - exists (file "app.cpp"), (snd (nth 1 linked_graph (file "", source_file [] [] [] false))), (mk_target_info (file "app.o") []).
    split; [exact H1|]. split; [vm_compute; left; reflexivity|].
    right. exists (file "app.cpp"), 11%Z, 14%Z. split; [left; reflexivity|].
    split; [apply no_target; vm_compute; reflexivity|].
    split; [vm_compute; reflexivity|]. split; [left; vm_compute; reflexivity|]. discriminate.
  - exists (file "link"), (snd (nth 6 linked_graph (file "", source_file [] [] [] false))), (mk_target_info (file "app") []).
    split; [exact H6|]. split; [vm_compute; left; reflexivity|].
    right. exists (file "link"), 0%Z, 1%Z. split; [left; reflexivity|].
    split; [apply no_target; vm_compute; reflexivity|].
    split; [vm_compute; reflexivity|]. split; [left; vm_compute; reflexivity|]. discriminate.
  - apply no_target; vm_compute; reflexivity.
Qed.

(** C18: a world that counts the processes which have been started. *)
Example dry_run_counts :
  local_execve nat nat (fun _ w => (S w, Some (ExitCode 1))) true 5 0 = (0, Some (ExitCode 0)) /\
  local_execve nat nat (fun _ w => (S w, Some (ExitCode 1))) false 5 0 = (1, Some (ExitCode 1)) /\
  run_task nat nat (fun _ => nothing_built) (local_execve nat nat (fun _ w => (S w, Some (ExitCode 1))) true)
    false (file "unrelated") (source_file [] [] [mk_target_info (file "log") []] false) [] 5 0 = (0, [5], Succeeds) /\
  run_task nat nat (fun _ => nothing_built) (local_execve nat nat (fun _ w => (S w, Some (ExitCode 1))) false)
    false (file "unrelated") (source_file [] [] [mk_target_info (file "log") []] false) [] 5 0 = (1, [5], Fails).
Proof. repeat split; vm_compute; reflexivity. Qed.
