(** Property C103: the contents of what is built. *)

From Coq Require Import Ascii String ZArith.
From Coq Require Import List.
From Verif Require Import Str Path SMap PathProofs DbModel DepGraphModel DepGraphSpec FileListModel FileListSpec.
From Verif Require Import SchedModel SchedSpec TaskListModel TaskListSpec BuildModel BuildSpec CleanSpec CleanProofs.
From Verif Require Import DepGraphProps FileListProps SchedProps BuildProps FailRun DueProps CleanRun.
Import ListNotations.

(** C103. Whatever happened to a project before, after a build that succeeds the targets have
    the contents that a build from scratch gives them. *)
Theorem C103_same_as_clean_partial : forall (content : Type) (folder : path -> bool) (fs g : file_list)
    (make : nat -> (path -> content) -> path -> content) (D1 : disk) (F1 : path -> content) (D2 : disk) (F2 : path -> content)
    (D1' : disk) (F1' : path -> content) (D2' : disk) (F2' : path -> content) (q : path),
    history folder fs g make D1 F1 -> unbuilt g folder D2 -> (forall x, not_built g x -> F2 x = F1 x) ->
    built g folder make D1 F1 D1' F1' q -> built g folder make D2 F2 D2' F2' q -> F1' q = F2' q.
Proof. exact @same_as_clean. Qed.
Print Assumptions C103_same_as_clean_partial.

(** Two copies of a project with different histories, where the source files are the same *)
Theorem C103_same_contents_partial : forall (content : Type) (folder : path -> bool) (fs g : file_list)
    (make : nat -> (path -> content) -> path -> content) (D1 : disk) (F1 : path -> content) (D2 : disk) (F2 : path -> content)
    (D1' : disk) (F1' : path -> content) (D2' : disk) (F2' : path -> content) (q : path),
    history folder fs g make D1 F1 -> history folder fs g make D2 F2 -> (forall x, not_built g x -> F1 x = F2 x) ->
    built g folder make D1 F1 D1' F1' q -> built g folder make D2 F2 D2' F2' q -> F1' q = F2' q.
Proof. exact @same_contents. Qed.
Print Assumptions C103_same_contents_partial.

(** What that is. *)
Theorem C103_right_contents_partial : forall (content : Type) (folder : path -> bool) (fs g : file_list)
    (make : nat -> (path -> content) -> path -> content) (D0 : disk) (F0 : path -> content)
    (D : disk) (F : path -> content) (q : path),
    history folder fs g make D0 F0 -> built g folder make D0 F0 D F q -> proper_content g folder make F0 q (F q).
Proof. exact @right_contents. Qed.
Print Assumptions C103_right_contents_partial.

(** At all times, after builds that did not succeed as well: a target that is newer than the
    source files that it is made from has the right contents. *)
Theorem C103_new_is_right_partial : forall (content : Type) (folder : path -> bool) (fs g : file_list)
    (make : nat -> (path -> content) -> path -> content) (D : disk) (F : path -> content) (v : nat) (q : path) (t : Z),
    history folder fs g make D F -> target_of g v q -> folder q = false -> D q = PlainFile t ->
    (forall x tx, input g folder v x -> not_built g x -> stamped D x tx -> (tx < t)%Z) ->
    proper_content g folder make F q (F q).
Proof. exact @left_right. Qed.
Print Assumptions C103_new_is_right_partial.

(** A source file is replaced, and its time stamp stays as it is. *)
Theorem C103_old_file_refuted : exists folder fs g (make : nat -> (path -> list nat) -> path -> list nat) D F x F' D1 F1 D2 D2' F2 q,
    history folder fs g make D F /\ not_built g x /\ (forall y, y <> x -> F' y = F y) /\
    built g folder make D F' D1 F1 q /\ unbuilt g folder D2 /\ built g folder make D2 F' D2' F2 q /\ F1 q <> F2 q.
Proof. exact old_file_kept. Qed.
Print Assumptions C103_old_file_refuted.

(** The settings of a recipe are changed. *)
Theorem C103_settings_refuted : exists folder fs g (make make' : nat -> (path -> list nat) -> path -> list nat) D F D1 F1 D2 D2' F2 q,
    history folder fs g make D F /\ repeatable g folder make' /\
    built g folder make' D F D1 F1 q /\ unbuilt g folder D2 /\ built g folder make' D2 F D2' F2 q /\ F1 q <> F2 q.
Proof. exact old_flags_kept. Qed.
Print Assumptions C103_settings_refuted.

(** * Examples *)

Local Open Scope string_scope.
Local Open Scope list_scope.

(** app is built, app.cpp is changed, and app is built again, where lib/a.o is used as it is. A
    build from scratch gives the same. *)
Example edited_and_built : let F := put (file "app.cpp") [7] (program 0 (object_2 0 (object_1 0 texts))) in
  history lib_only linked_project linked_graph (tool 0) app_edited F /\
  built linked_graph lib_only (tool 0) app_edited F app_built (program 0 (object_2 0 F)) (file "app") /\
  unbuilt linked_graph lib_only nothing_built /\
  built linked_graph lib_only (tool 0) nothing_built F everything_built (program 0 (object_2 0 (object_1 0 F))) (file "app") /\
  F (file "app") = [0; 1; 3; 0; 2; 3] /\ program 0 (object_2 0 F) (file "app") = [0; 7; 3; 0; 2; 3] /\
  program 0 (object_2 0 (object_1 0 F)) (file "app") = [0; 7; 3; 0; 2; 3].
Proof.
  cbv zeta. split; [exact (edited_history 0 texts [7])|]. split; [|split; [exact linked_unbuilt|split]].
  - apply (link_built 0 _ _ _ _ _ (edited_build 0 _)). right. right. left. reflexivity.
  - apply (link_built 0 _ _ _ _ _ (all_run 0 _)). right. right. left. reflexivity.
  - repeat split; vm_compute; reflexivity.
Qed.
