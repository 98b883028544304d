(** Property C100: which recipes are run. *)

From Coq Require Import Ascii String ZArith.
From Coq Require Import List.
From Verif Require Import Str Path SMap PathProofs DbModel DepGraphModel DepGraphSpec FileListModel FileListSpec.
From Verif Require Import SchedModel SchedSpec TaskListModel TaskListSpec BuildModel BuildSpec DueSpec DueProofs.
From Verif Require Import DepGraphProps FileListProps SchedProps BuildProps FailRun.
Import ListNotations.

(** C100. A build that succeeds runs exactly the recipes of the tasks that are due, given the
    state of the files when it starts, whatever the number of threads and the order in which
    they do their work. *)
Theorem C100_exactly_due : forall fs g, loaded fs g -> proper_names fs g ->
    forall rs tasks, task_list g rs tasks ->
    forall (folder : path -> bool) (T : Z) (D0 : disk), sound_before g folder T D0 ->
    (forall u q, target_of g u q -> internal g q) ->
    forall (force : bool) (ws : list worker) (cs : list choice) (tr : list label) (s : state) (n : nat) (D : disk)
      (dec : list (nat * option bool)) (v : nat),
    idle_pool ws -> run (task_reads g) cs (init rs tasks ws) = Some (tr, s) -> ph s = Returned n ->
    fresh_build g force folder T D0 tr D dec -> In v tasks -> (invoked dec v <-> due g force folder D0 v).
Proof. exact exactly_due. Qed.
Print Assumptions C100_exactly_due.

(** Two builds run the same recipes. *)
Theorem C100_same_recipes : forall fs g, loaded fs g -> proper_names fs g ->
    forall rs tasks, task_list g rs tasks ->
    forall (folder : path -> bool) (T : Z) (D0 : disk), sound_before g folder T D0 ->
    (forall u q, target_of g u q -> internal g q) ->
    forall (force : bool) (ws1 ws2 : list worker) (cs1 cs2 : list choice) (tr1 tr2 : list label) (s1 s2 : state)
      (n1 n2 : nat) (D1 D2 : disk) (dec1 dec2 : list (nat * option bool)),
    idle_pool ws1 -> run (task_reads g) cs1 (init rs tasks ws1) = Some (tr1, s1) -> ph s1 = Returned n1 ->
    fresh_build g force folder T D0 tr1 D1 dec1 ->
    idle_pool ws2 -> run (task_reads g) cs2 (init rs tasks ws2) = Some (tr2, s2) -> ph s2 = Returned n2 ->
    fresh_build g force folder T D0 tr2 D2 dec2 ->
    forall v, invoked dec1 v <-> invoked dec2 v.
Proof. exact same_recipes. Qed.
Print Assumptions C100_same_recipes.

(** Afterwards, the targets of the tasks that were due have been made, and everything else is as
    it was. *)
Theorem C100_outcome : forall fs g, loaded fs g -> proper_names fs g ->
    forall rs tasks, task_list g rs tasks ->
    forall (folder : path -> bool) (T : Z) (D0 : disk), sound_before g folder T D0 ->
    (forall u q, target_of g u q -> internal g q) ->
    forall (force : bool) (ws : list worker) (cs : list choice) (tr : list label) (s : state) (n : nat) (D : disk)
      (dec : list (nat * option bool)) (q : path),
    idle_pool ws -> run (task_reads g) cs (init rs tasks ws) = Some (tr, s) -> ph s = Returned n ->
    fresh_build g force folder T D0 tr D dec ->
    (forall v, In v tasks -> due g force folder D0 v -> target_of g v q ->
       if folder q then directory D q else exists t, D q = PlainFile t /\ (T < t)%Z) /\
    ((forall v, In v tasks -> due g force folder D0 v -> ~ target_of g v q) -> D q = D0 q).
Proof. exact outcome_due. Qed.
Print Assumptions C100_outcome.

(** Whether or not a build succeeds, or has ended: nothing is run that is not due. *)
Theorem C100_only_due : forall fs g, loaded fs g -> proper_names fs g ->
    forall rs tasks, task_list g rs tasks ->
    forall (folder : path -> bool) (T : Z) (D0 : disk), sound_before g folder T D0 ->
    forall (force : bool) (ws : list worker) (cs : list choice) (tr : list label) (s : state) (D : disk)
      (dec : list (nat * option bool)) (v : nat),
    idle_pool ws -> run (task_reads g) cs (init rs tasks ws) = Some (tr, s) ->
    fresh_build g force folder T D0 tr D dec -> invoked dec v -> due g force folder D0 v.
Proof. exact only_due. Qed.
Print Assumptions C100_only_due.

(** * Examples *)

Local Open Scope string_scope.
Local Open Scope list_scope.

(** app.o has been lost. It is made again, and then app, though it is newer than its source
    files. lib/a.o stays as it is. *)
Definition object_lost : disk := fun q => if path_eqb q (file "app.o") then Missing else everything_built q.
Definition object_again : disk := write (file "app.o") 20 object_lost.
Definition linked_again : disk := write (file "app") 21 object_again.
Definition no_folder (q : path) : bool := false.

Lemma linked_targets : forall v q, target_of linked_graph v q ->
  In q [file "app.o"; file "lib/a.o"; file "app"; file "log"].
Proof.
  assert (A : forallb (fun e => forallb (fun t => existsb (path_eqb (ti_name t)) [file "app.o"; file "lib/a.o"; file "app"; file "log"])
                (targets (snd e))) linked_graph = true) by (vm_compute; reflexivity).
  intros v q (p & info & t & E & Ht & <-). rewrite forallb_forall in A. pose proof (A _ (nth_error_In _ _ E)) as A'.
  cbn [snd] in A'. rewrite forallb_forall in A'. pose proof (A' t Ht) as A2.
  apply existsb_exists in A2. destruct A2 as (x & X & Y). apply path_eqb_eq in Y. rewrite Y. exact X.
Qed.

Lemma linked_internal : forall u q, target_of linked_graph u q -> internal linked_graph q.
Proof.
  assert (A : forallb (fun e => forallb (fun d => negb (existsb (path_eqb (dep_name d)) [file "app.o"; file "lib/a.o"; file "app"; file "log"])
                 || negb (is_external (dep_origin d)))%bool (use_deps (snd e) ++ build_deps (snd e))) linked_graph = true) by (vm_compute; reflexivity).
  intros u q Hq d (p & info & I & Hd) Eq. apply linked_targets in Hq. rewrite forallb_forall in A. pose proof (A _ I) as A'.
  cbn [snd] in A'. rewrite forallb_forall in A'. pose proof (A' d (in_or_app _ _ _ Hd)) as A2.
  assert (X : existsb (path_eqb (dep_name d)) [file "app.o"; file "lib/a.o"; file "app"; file "log"] = true).
  { apply existsb_exists. exists q. split; [exact Hq|]. apply path_eqb_eq. exact Eq. }
  rewrite X in A2. destruct (is_external (dep_origin d)); [discriminate|reflexivity].
Qed.

Lemma lost_sound : sound_before linked_graph no_folder 12 object_lost.
Proof.
  split.
  - intros q t. unfold stamped, object_lost, everything_built, objects_built, object_1_built, nothing_built, write.
    repeat match goal with |- context [path_eqb q ?x] => destruct (path_eqb q x) end; intros [H|H]; try discriminate; injection H as <-; discriminate.
  - intros v q Hq. split; [|reflexivity]. apply linked_targets in Hq.
    repeat (destruct Hq as [<-|Hq]; [intros (t & H); vm_compute in H; discriminate|]). destruct Hq.
Qed.

Example object_lost_build :
  (exists s, run (task_reads linked_graph) (link_choices Succeeds) (init (fst link_setup) (snd link_setup) two_workers)
             = Some (link_events Succeeds, s) /\ ph s = Returned 3) /\
  fresh_build linked_graph false no_folder 12 object_lost (link_events Succeeds) linked_again [(6, Some true); (1, Some true); (3, Some false)].
Proof.
  split; [exact (link_run Succeeds (or_introl eq_refl))|].
  set (g := linked_graph). set (D := object_lost).
  assert (B3 : fresh_build g false no_folder 12 D [Submit 3; Submit 1; Start 3] D [(3, Some false)]).
  { assert (E : task_needs_run g D false 3 = Some false) by (vm_compute; reflexivity). rewrite <- E.
    apply (fresh_starts g false no_folder 12 D [Submit 3; Submit 1] D [] 3).
    apply (fresh_submits g false no_folder 12 D [Submit 3] D [] 1). apply (fresh_submits g false no_folder 12 D [] D [] 3). constructor. }
  assert (B5 : fresh_build g false no_folder 12 D [Submit 3; Submit 1; Start 3; Finish 3 Succeeds; Start 1] D
                 [(1, Some true); (3, Some false)]).
  { assert (E : task_needs_run g D false 1 = Some true) by (vm_compute; reflexivity). rewrite <- E.
    apply (fresh_starts g false no_folder 12 D [Submit 3; Submit 1; Start 3; Finish 3 Succeeds] D [(3, Some false)] 1).
    apply (fresh_finishes g false no_folder 12 D [Submit 3; Submit 1; Start 3] _ _ 3 Succeeds B3); [running_now| | |].
    - intros [H|[]]. discriminate.
    - intros [H|[]]. discriminate.
    - intros [H|[]]. discriminate. }
  assert (B5' : fresh_build g false no_folder 12 D [Submit 3; Submit 1; Start 3; Finish 3 Succeeds; Start 1] object_again
                 [(1, Some true); (3, Some false)]).
  { apply (fresh_writes g false no_folder 12 D _ D object_again _ 1 B5); [left; reflexivity|running_now|].
    intros q Hq. apply write_other. intros ->. apply Hq. apply is_target. vm_compute. reflexivity. }
  assert (B7 : fresh_build g false no_folder 12 D [Submit 3; Submit 1; Start 3; Finish 3 Succeeds; Start 1; Finish 1 Succeeds; Submit 6; Start 6]
                 object_again [(6, Some true); (1, Some true); (3, Some false)]).
  { assert (E : task_needs_run g object_again false 6 = Some true) by (vm_compute; reflexivity). rewrite <- E.
    apply (fresh_starts g false no_folder 12 D [Submit 3; Submit 1; Start 3; Finish 3 Succeeds; Start 1; Finish 1 Succeeds; Submit 6] _ _ 6).
    apply (fresh_submits g false no_folder 12 D [Submit 3; Submit 1; Start 3; Finish 3 Succeeds; Start 1; Finish 1 Succeeds] _ _ 6).
    apply (fresh_finishes g false no_folder 12 D _ _ _ 1 Succeeds B5'); [running_now| | |].
    - intros _ _. apply (BuildProofs.not_needed_current g _ false). vm_compute. reflexivity.
    - intros _ _ q (p & info & t & En & Ht & <-). vm_compute in En. injection En as <- <-. destruct Ht as [<-|[]].
      exists 20%Z. split; [vm_compute; reflexivity|reflexivity].
    - intros [H|[H|[]]]; discriminate. }
  assert (B7' : fresh_build g false no_folder 12 D [Submit 3; Submit 1; Start 3; Finish 3 Succeeds; Start 1; Finish 1 Succeeds; Submit 6; Start 6]
                 linked_again [(6, Some true); (1, Some true); (3, Some false)]).
  { apply (fresh_writes g false no_folder 12 D _ object_again linked_again _ 6 B7); [left; reflexivity|running_now|].
    intros q Hq. apply write_other. intros ->. apply Hq. apply is_target. vm_compute. reflexivity. }
  apply (fresh_finishes g false no_folder 12 D _ _ _ 6 Succeeds B7'); [running_now| | |].
  - intros _ _. apply (BuildProofs.not_needed_current g _ false). vm_compute. reflexivity.
  - intros _ _ q (p & info & t & En & Ht & <-). vm_compute in En. injection En as <- <-. destruct Ht as [<-|[]].
    exists 21%Z. split; [vm_compute; reflexivity|reflexivity].
  - intros [H|[H|[H|[]]]]; discriminate.
Qed.

(** All hypotheses are met. Two tasks are due, one of them only because of the other one. *)
Example object_lost_due :
  loaded linked_project linked_graph /\ proper_names linked_project linked_graph /\
  task_list linked_graph (fst link_setup) (snd link_setup) /\ sound_before linked_graph no_folder 12 object_lost /\
  idle_pool two_workers /\
  due linked_graph false no_folder object_lost 1 /\ current linked_graph object_lost 6 /\
  due linked_graph false no_folder object_lost 6 /\ ~ due linked_graph false no_folder object_lost 3.
Proof.
  split; [exact linked_loaded|]. split; [exact linked_names|]. split; [exact link_task_list|]. split; [exact lost_sound|].
  split; [exact two_workers_idle|].
  destruct object_lost_build as ((s & R & P) & F).
  assert (X : forall v, In v (snd link_setup) ->
            (invoked [(6, Some true); (1, Some true); (3, Some false)] v <-> due linked_graph false no_folder object_lost v)).
  { intro v. exact (exactly_due linked_project linked_graph linked_loaded linked_names _ _ link_task_list no_folder 12%Z object_lost lost_sound
                      linked_internal false two_workers _ _ s 3 _ _ v two_workers_idle R P F). }
  split; [|split; [|split]].
  - apply (X 1); [vm_compute; tauto|]. right. left. reflexivity.
  - apply (BuildProofs.not_needed_current linked_graph _ false). vm_compute. reflexivity.
  - apply (X 6); [vm_compute; tauto|]. left. reflexivity.
  - intro H. apply (X 3) in H; [|vm_compute; tauto].
    destruct H as [H|[H|[H|[]]]]; discriminate.
Qed.

(** The same build with one thread instead of two. *)
Example one_thread : idle_pool [WChecking] /\
  exists cs s, run (task_reads linked_graph) cs (init (fst link_setup) (snd link_setup) [WChecking]) = Some (link_events Succeeds, s) /\
               ph s = Returned 3.
Proof.
  split; [split; [discriminate|]; intros w [<-|[]]; auto|].
  exists (greedy (task_reads linked_graph) (fun _ => Succeeds) 200 (init (fst link_setup) (snd link_setup) [WChecking])).
  eexists. split; [vm_compute; reflexivity|reflexivity].
Qed.
