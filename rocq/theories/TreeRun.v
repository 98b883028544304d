(** A project with one file, and what happens when it is built. Helpers for examples
    and counterexamples. *)

From Coq Require Import Ascii String ZArith.
From Coq Require Import List.
From Verif Require Import Str Path SMap PathProofs DbModel JsonModel LoadModel LoadSpec ScanModel ScanSpec.
From Verif Require Import DepGraphModel DepGraphSpec FileListModel FileListSpec SchedModel SchedSpec.
From Verif Require Import TaskListModel TaskListSpec BuildModel BuildSpec TreeModel TreeSpec.
Import ListNotations.

Local Open Scope string_scope.
Local Open Scope list_scope.

Definition root_dir : path := parse_path (lit ".").
Definition out_dir : path := parse_path (lit "__targets").

(** The source directory has nothing but the file x.rule. *)
Definition tree_disk : disk := fun p =>
  if path_eqb p root_dir then Directory 0%Z
  else if path_eqb p (parse_path (lit "x.rule")) then PlainFile 1%Z
  else Missing.

Definition tree_entries (p : path) : list str * bool :=
  if path_eqb p root_dir then ([lit "x.rule"], false) else ([], false).

(** The file has one target. *)
Definition tree_tags (target : string) (text : str) : option compound :=
  Some [(lit "target", JObject [(lit "name", JString (lit target))])].

Definition tree_loader : loader :=
  mk_loader (fun text => ([], text)) (fun _ => []) (mk_compiler (parse_path (lit "/usr/lib/cc.py")) (Some System) [] false) false.

Definition tree_mkdir_compiler : compiler := mk_compiler (parse_path (lit "/usr/lib/make_directory.py")) (Some System) [] false.

Definition tree_choices : list scan_choice :=
  [MainStep; TaskStep 0; TaskStep 0; TaskStep 0; TaskStep 0; TaskStep 0; MainStep; TaskStep 1; TaskStep 1; TaskStep 0; TaskStep 0;
   MainStep; TaskStep 0; TaskStep 0; TaskStep 0; MainStep].

Definition tree_scan (target : string) : list scan_choice -> option (scan_state source_file_info) :=
  scan_tree root_dir out_dir tree_disk tree_entries (fun _ => Some []) (tree_tags target) (fun _ => None) (fun _ c => Some c)
            (fun _ _ => None) tree_mkdir_compiler [(lit ".rule", tree_loader)] (fun _ => false) (fun _ => false) true 2.
Definition tree_files (target : string) : file_list :=
  match tree_scan target tree_choices with
  | Some st => match scan_owner st with MainReturned fs => fs | _ => [] end
  | None => []
  end.

Definition tree_graph (target : string) : file_list :=
  match load_project (tree_files target) with Loaded (_, g) => g | _ => [] end.

Definition tree_workers : list worker := [WChecking].

(** The directory is built first, then the file is started. *)
Definition tree_trace : list label := [Submit 0; Start 0; Finish 0 Succeeds; Submit 3; Start 3].

Definition tree_schedule : list choice :=
  repeat (ByProcess 0) 8 ++ repeat (ByWorker 0 Succeeds) 3 ++ repeat (ByProcess 0) 7 ++ repeat (ByWorker 0 Succeeds) 2.

(** There is something with the name of the target directory. *)
Definition with_out_dir (x : file_status) : disk := fun p =>
  if path_eqb p (place out_dir []) then x else tree_disk p.

Lemma all_targets : forall (g : file_list) v q, target_of g v q ->
  match nth_error g v with Some (_, info) => In q (map ti_name (targets info)) | None => False end.
Proof. intros g v q (p & info & t & -> & Ht & <-). apply in_map, Ht. Qed.

Lemma tree_is_loaded : forall target, target = "x.o" \/ target = "sub/x.o" -> loaded (tree_files target) (tree_graph target).
Proof.
  intros target [-> | ->];
  (split; [|split];
   [split; [vm_compute; repeat constructor|]; intros p info H; vm_compute in H;
    destruct H as [H|[H|[]]]; injection H as <- <-; cbn;
    repeat split; intros; repeat match goal with H : _ \/ _ |- _ => destruct H as [H|H] | H : False |- _ => destruct H end; subst; cbn in *;
    try reflexivity; repeat match goal with H : _ \/ _ |- _ => destruct H as [H|H] | H : False |- _ => destruct H end; subst; reflexivity
   |eexists; vm_compute; reflexivity
   |intros [k Hk]; unfold numbered in Hk; vm_compute in Hk;
    do 6 (destruct k as [|k]; [discriminate|]); destruct k; discriminate]).
Qed.

Lemma tree_names : forall target, target = "x.o" \/ target = "sub/x.o" -> proper_names (tree_files target) (tree_graph target).
Proof.
  intros target [-> | ->];
  (split;
   [intros p [k Hk]; unfold numbered in Hk; vm_compute in Hk;
    do 6 (destruct k as [|k]; [injection Hk as <-; vm_compute; reflexivity|]); destruct k; discriminate
   |intros p info t H Ht; vm_compute in H;
    destruct H as [H|[H|[]]]; injection H as <- <-; cbn in Ht;
    repeat (destruct Ht as [<-|Ht]; [split; [vm_compute; reflexivity|right; intro X; vm_compute in X; intuition discriminate]|]); destruct Ht]).
Qed.

Lemma tree_dir : forall target, target = "x.o" \/ target = "sub/x.o" ->
  is_dir tree_disk (tree_graph target) 0 /\ target_of (tree_graph target) 0 (place out_dir []).
Proof.
  intros target [-> | ->];
  (split; [exists root_dir; split; [vm_compute; reflexivity|exists 0%Z; reflexivity]|];
   eexists; eexists; eexists; split; [vm_compute; reflexivity|]; split; [left; reflexivity|vm_compute; reflexivity]).
Qed.

Lemma tree_nothing_in_the_way : forall target, target = "x.o" \/ target = "sub/x.o" ->
  nothing_in_the_way tree_disk (tree_graph target) tree_disk.
Proof.
  intros target [-> | ->] v q _ H; left; apply all_targets in H;
  do 6 (destruct v as [|v]; [vm_compute in H; repeat (destruct H as [<-|H]; [vm_compute; reflexivity|]); destruct H|]);
  destruct v; vm_compute in H; destruct H.
Qed.

Lemma tree_build : forall target, target = "x.o" \/ target = "sub/x.o" ->
  forall x x', x = Missing /\ x' = Directory 5%Z \/ x = PlainFile (-1)%Z /\ x' = x ->
  project_build root_dir out_dir tree_disk (recipe tree_mkdir_compiler) (tree_files target) (tree_graph target)
    (with_out_dir x) tree_trace (with_out_dir x').
Proof.
  intros target Ht x x' Hx.
  split; [left; reflexivity|]. split; [right; split; [exists 0, [lit "__targets"]; split; [reflexivity|]; split; [|auto]|right; discriminate]|].
  { repeat constructor; try discriminate. cbn. intuition discriminate. }
  split.
  { exists tree_entries, (fun _ => Some []), (tree_tags target), (fun _ => None), (fun _ c => Some c), (fun _ _ => None),
      tree_mkdir_compiler, [(lit ".rule", tree_loader)], (fun _ => false), (fun _ => false), true, 2, tree_choices.
    assert (P : proper_entries tree_entries).
    { intro p. unfold tree_entries. destruct (path_eqb p root_dir); cbn [fst]; [|repeat constructor].
      split; [repeat constructor; try discriminate; cbn; intuition discriminate|repeat constructor; cbn; tauto]. }
    destruct Ht as [-> | ->]; (eexists; split; [exact P|]; split; [reflexivity|]; split; [vm_compute; reflexivity|vm_compute; reflexivity]). }
  split; [apply tree_is_loaded, Ht|]. split; [apply tree_names, Ht|].
  destruct (tree_dir target Ht) as (Hd & Hq).
  set (g := tree_graph target) in *.
  assert (E0 : task_needs_run g (with_out_dir x) false 0 = Some true).
  { destruct Hx as [(-> & _)|(-> & _)]; destruct Ht as [-> | ->]; vm_compute; reflexivity. }
  assert (B1 : building_tree tree_disk g false (with_out_dir x) [Submit 0; Start 0] (with_out_dir x) [(0, Some true)] []).
  { rewrite <- E0. apply (tree_starts tree_disk g false _ [Submit 0] _ [] [] 0).
    apply (tree_submits tree_disk g false _ [] _ [] [] 0). constructor. }
  assert (B2 : building_tree tree_disk g false (with_out_dir x) [Submit 0; Start 0] (with_out_dir x') [(0, Some true)] [0]).
  { apply (tree_mkdir tree_disk g false _ _ _ _ _ _ 0 (place out_dir []) B1); [left; reflexivity| |exact Hd|exact Hq|].
    - split; [cbn; tauto|]. intros o H. cbn in H. intuition discriminate.
    - destruct Hx as [(-> & ->)|(-> & ->)].
      + apply made; [reflexivity|eexists; reflexivity|]. intros p N. left. unfold with_out_dir.
        rewrite (proj2 (path_eqb_neq _ _) N). reflexivity.
      + apply already_there; [eexists; left; reflexivity|reflexivity]. }
  assert (B3 : building_tree tree_disk g false (with_out_dir x) [Submit 0; Start 0; Finish 0 Succeeds; Submit 3] (with_out_dir x') [(0, Some true)] [0]).
  { apply (tree_submits tree_disk g false _ [Submit 0; Start 0; Finish 0 Succeeds] _ _ _ 3).
    apply (tree_finishes tree_disk g false _ _ _ _ _ 0 Succeeds B2).
    - split; [cbn; tauto|]. intros o H. cbn in H. intuition discriminate.
    - intros _ _ _. left. reflexivity.
    - intros [H|[]]. discriminate H. }
  pose proof (tree_starts _ _ _ _ _ _ _ _ 3 B3) as B4.
  assert (R : exists rs tasks st, task_list g rs tasks /\ run (task_reads g) tree_schedule (init rs tasks tree_workers) = Some (tree_trace, st)).
  { subst g. destruct Ht as [-> | ->];
    (eexists; eexists; eexists; split; [left; vm_compute; reflexivity|vm_compute; reflexivity]). }
  destruct R as (rs & tasks & st & R1 & R2).
  exists rs, tasks, tree_workers, false, tree_schedule, st. eexists. eexists. split; [exact R1|]. split.
  { split; [discriminate|]. intros w [<-|[]]. auto. }
  split; [exact R2|exact B4].
Qed.

(** The target directory is written with a slash at the end. *)
Lemma with_missing : forall p, with_out_dir Missing p = tree_disk p.
Proof.
  intro p. unfold with_out_dir. destruct (path_eqb p (place out_dir [])) eqn:E; [|reflexivity].
  apply path_eqb_eq in E. subst p. reflexivity.
Qed.

Lemma subdirectory_missing :
  exists s t D r fs g D0 tr D1 v q,
    project_build s t D r fs g D0 tr D1 /\ nothing_in_the_way D g D0 /\
    In (Start v) tr /\ target_of g v q /\ D1 (parent_path q) = Missing.
Proof.
  assert (Ht : "sub/x.o" = "x.o" \/ "sub/x.o" = "sub/x.o") by (right; reflexivity).
  exists root_dir, out_dir, tree_disk, (recipe tree_mkdir_compiler), (tree_files "sub/x.o"), (tree_graph "sub/x.o"),
    (with_out_dir Missing), tree_trace, (with_out_dir (Directory 5%Z)), 3, (inside out_dir [lit "sub"; lit "x.o"]).
  split; [apply tree_build; [exact Ht|left; split; reflexivity]|]. split.
  { intros v q Hd Hq. pose proof (with_missing q) as E. destruct (tree_nothing_in_the_way _ Ht v q Hd Hq) as [H|(z & H)];
      rewrite <- E in H; [left; exact H|right; exists z; exact H]. }
  split; [cbn; tauto|]. split; [|reflexivity].
  eexists; eexists; eexists; split; [vm_compute; reflexivity|]; split; [left; reflexivity|vm_compute; reflexivity].
Qed.

Lemma file_in_the_way :
  exists s t D r fs g D0 tr D1 v f info z,
    project_build s t D r fs g D0 tr D1 /\ In (Start v) tr /\ numbered g v (inside s [f]) /\
    In (inside s [f], info) fs /\ map ti_name (targets info) = [inside t [lit "x.o"]] /\
    In (Finish 0 Succeeds) tr /\ is_dir D g 0 /\ target_of g 0 (place t []) /\ D1 (place t []) = PlainFile z.
Proof.
  assert (Ht : "x.o" = "x.o" \/ "x.o" = "sub/x.o") by (left; reflexivity).
  exists root_dir, out_dir, tree_disk, (recipe tree_mkdir_compiler), (tree_files "x.o"), (tree_graph "x.o"),
    (with_out_dir (PlainFile (-1)%Z)), tree_trace, (with_out_dir (PlainFile (-1)%Z)), 3, (lit "x.rule").
  destruct (tree_dir _ Ht) as (Hd & Hq).
  assert (Hi : exists info, nth_error (tree_files "x.o") 1 = Some (inside root_dir [lit "x.rule"], info) /\
                 map ti_name (targets info) = [inside out_dir [lit "x.o"]]).
  { eexists. split; vm_compute; reflexivity. }
  destruct Hi as (info & Hi & Hinfo). exists info, (-1)%Z.
  split; [apply tree_build; [exact Ht|right; split; reflexivity]|].
  split; [cbn; tauto|]. split; [vm_compute; reflexivity|]. split; [eapply nth_error_In, Hi|].
  split; [exact Hinfo|]. split; [cbn; tauto|]. split; [exact Hd|]. split; [exact Hq|reflexivity].
Qed.
