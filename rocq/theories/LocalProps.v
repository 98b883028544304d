(** Property C102: adding files does not affect the others. *)

From Coq Require Import Ascii String ZArith.
From Coq Require Import List.
From Verif Require Import Str Path SMap PathProofs JsonModel DbModel DepGraphModel DepGraphSpec FileListModel FileListSpec.
From Verif Require Import SchedModel TaskListModel TaskListSpec LogModel BuildModel BuildSpec DueSpec RecipeModel JobModel ScriptModel LocalSpec LocalProofs LocalBuildProofs.
From Verif Require Import DepGraphProps FileListProps SchedProps BuildProps.
From Verif Require ScriptRun ShowRun.
Import ListNotations.

(** C102. A file of the project is as it was: the same dependencies, in the same order, the
    same targets, and the same settings. Something outside of the project remains outside. *)
Theorem C102_same_files : forall fs g fs' g', loaded fs g -> loaded fs' g' -> only_adds fs g fs' -> proper_names fs' g' ->
  forall p i, In (p, i) g -> exists i', In (p, i') g' /\ (same_record i i' \/ outside i /\ outside i').
Proof. exact record_kept. Qed.
Print Assumptions C102_same_files.

(** It needs the same files, directly or indirectly. *)
Theorem C102_same_needs : forall fs g fs' g', loaded fs g -> loaded fs' g' -> only_adds fs g fs' -> proper_names fs' g' ->
  forall p q, known g p -> (file_needs g p q <-> file_needs g' p q).
Proof. exact needs_kept. Qed.
Print Assumptions C102_same_needs.

(** It is compiled by the same command, if the number of the task is not considered. *)
Theorem C102_same_command : forall fs g fs' g', loaded fs g -> loaded fs' g' -> only_adds fs g fs' -> proper_names fs' g' ->
  forall view j v v' p, without_task_id view -> numbered g v p -> numbered g' v' p ->
  task_command view j g v = task_command view j g' v'.
Proof. exact command_kept. Qed.
Print Assumptions C102_same_command.

(** It has to be compiled if and only if it would have to be compiled without the new files
    (see C100). *)
Theorem C102_same_due : forall fs g fs' g', loaded fs g -> loaded fs' g' -> only_adds fs g fs' -> proper_names fs' g' ->
  forall force folder D v v' p, numbered g v p -> numbered g' v' p ->
  (due g force folder D v <-> due g' force folder D v').
Proof. exact due_kept. Qed.
Print Assumptions C102_same_due.

(** The project can be loaded unless there is something wrong with the new files: two of their
    targets have the same name, one of them needs a file that needs itself, or something that
    was not needed before is not available. *)
Theorem C102_still_loads : forall fs g fs', loaded fs g -> scanned fs' -> only_adds fs g fs' ->
  (forall p info t, In (p, info) fs' -> In t (targets info) -> lexically_normal (ti_name t) = ti_name t) ->
  NoDup (map fst (declared_targets (added fs fs'))) ->
  (forall p q, In p (map fst (added fs fs')) -> file_reachable fs' p q -> ~ file_on_cycle fs' q) ->
  (forall d, needed fs' d -> ~ needed fs d -> available fs' (dep_name d)) ->
  exists ts g', load_project fs' = Loaded (ts, g').
Proof. exact still_loads. Qed.
Print Assumptions C102_still_loads.

Local Open Scope string_scope.
Local Open Scope list_scope.

(** A new file, which is compiled, and refers to what has been known as a system header in
    another way. All numbers change. *)
Definition bigger_project : file_list :=
  (file "a.cpp", source_file [on Project "lib/a.hpp"; on PkgConfig "vector"; on PkgConfig "zlib"] [] [mk_target_info (file "a.o") []] false) :: linked_project.

Definition bigger_graph : file_list :=
  match load_project bigger_project with Loaded (_, g) => g | Failed _ => [] end.

Example bigger_files : map fst bigger_graph =
  [file "a.cpp"; file "a.o"; file "app"; file "app.cpp"; file "app.o"; file "lib/a.cpp"; file "lib/a.hpp"; file "lib/a.o"; file "link";
   file "log"; file "unrelated"; file "vector"; file "zlib"].
Proof. vm_compute. reflexivity. Qed.

Example bigger_loaded : loaded bigger_project bigger_graph.
Proof.
  split; [|split].
  - split; [repeat constructor|]. intros p info H. simpl in H.
    walk_entries H; repeat split; intros; intuition (subst; simpl in *; intuition auto).
  - unfold bigger_graph. destruct (load_project bigger_project) as [[ts g]|e] eqn:E; [eauto|].
    vm_compute in E. discriminate.
  - intros [k Hk]. unfold numbered in Hk. rewrite bigger_files in Hk. vm_compute in Hk.
    do 13 (destruct k as [|k]; [discriminate|]). destruct k; discriminate.
Qed.

Example bigger_names : proper_names bigger_project bigger_graph.
Proof.
  split.
  - intros p [k Hk]. unfold numbered in Hk. rewrite bigger_files in Hk.
    do 13 (destruct k as [|k]; [vm_compute in Hk; inversion Hk; vm_compute; reflexivity|]). destruct k; discriminate.
  - intros p info t H Ht. simpl in H. walk_entries H; simpl in Ht;
      repeat (destruct Ht as [<-|Ht]; [split; [vm_compute; reflexivity|right; intro X; vm_compute in X; intuition discriminate]|]); destruct Ht.
Qed.

Example bigger_adds : only_adds linked_project linked_graph bigger_project.
Proof.
  split; [intros p i I; now right|]. intros p i [E|I] N.
  - injection E as <- <-. assert (K : forall x, existsb (path_eqb x) (map fst linked_graph) = false -> ~ known linked_graph x).
    { intros x X (k & H). unfold numbered in H. apply nth_error_In in H. assert (Y : existsb (path_eqb x) (map fst linked_graph) = true).
      { apply existsb_exists. exists x. split; [exact H|]. apply path_eqb_eq. reflexivity. } rewrite Y in X. discriminate X. }
    split; [apply K; vm_compute; reflexivity|]. intros t [<-|[]]. apply K. vm_compute. reflexivity.
  - destruct N. apply in_map_iff. now exists (p, i).
Qed.

(** The link step is node 6 in the one graph, and node 8 in the other. *)
Example link_numbers : numbered linked_graph 6 (file "link") /\ numbered bigger_graph 8 (file "link").
Proof. split; vm_compute; reflexivity. Qed.

(** The placeholder for "vector" is another one. *)
Example vector_placeholder :
  map_find (file "vector") linked_graph = Some (placeholder_info System no_compiler) /\
  map_find (file "vector") bigger_graph = Some (placeholder_info PkgConfig no_compiler).
Proof. split; vm_compute; reflexivity. Qed.

(** The conditions of C102_still_loads *)
Example bigger_sound :
  NoDup (map fst (declared_targets (added linked_project bigger_project))) /\
  map fst (added linked_project bigger_project) = [file "a.cpp"] /\
  (forall d, needed bigger_project d -> ~ needed linked_project d -> available bigger_project (dep_name d)).
Proof.
  split; [vm_compute; apply NoDup_cons; [intros []|apply NoDup_nil]|]. split; [vm_compute; reflexivity|]. intros d H _.
  destruct bigger_loaded as (Sc & (ts & E) & _).
  destruct (C46_loading_a_project bigger_project Sc) as [[_ (n & X & _)]|[_ [[_ X]|[_ [[_ X]|[A _]]]]]]; try congruence. exact (A d H).
Qed.
