(** Property C76: directories for targets. *)

From Coq Require Import Ascii String ZArith.
From Coq Require Import List.
From Verif Require Import Str Path SMap PathProofs DbModel LoadModel LoadSpec DepGraphSpec FileListModel SchedModel SchedSpec.
From Verif Require Import BuildModel BuildSpec TreeModel TreeSpec TreeProofs TreeRun.
Import ListNotations.

(** C76. Whenever the recipe for a file of the directory [d] of the project may run, the
    directory that corresponds to [d] exists below the target directory. Missing:
    targets whose names have a directory part, and files that are in the way. The recipe
    for directories itself does not wait for any directory. *)
Theorem C76_directory_exists_partial : forall s t D r fs g D0 tr D1,
    project_build s t D r fs g D0 tr D1 -> nothing_in_the_way D g D0 ->
    forall v d f info, Forall ordinary (d ++ [f]) -> append (inside s d) (mk_path false [f]) <> r ->
    numbered g v (inside s (d ++ [f])) -> In (inside s (d ++ [f]), info) fs -> targets info <> [] ->
    In (Start v) tr -> directory D1 (place t d).
Proof. exact project_directory_exists. Qed.
Print Assumptions C76_directory_exists_partial.

(** Nobody makes the directory for a target called sub/x.o. *)
Theorem C76_subdirectory_refuted :
  exists s t D r fs g D0 tr D1 v q,
    project_build s t D r fs g D0 tr D1 /\ nothing_in_the_way D g D0 /\
    In (Start v) tr /\ target_of g v q /\ D1 (parent_path q) = Missing.
Proof. exact subdirectory_missing. Qed.
Print Assumptions C76_subdirectory_refuted.

(** There is a file with the name of the target directory, the task which is to
    make the target directory succeeds, and the recipe for a file runs. *)
Theorem C76_file_in_the_way_refuted :
  exists s t D r fs g D0 tr D1 v f info z,
    project_build s t D r fs g D0 tr D1 /\ In (Start v) tr /\ numbered g v (inside s [f]) /\
    In (inside s [f], info) fs /\ map ti_name (targets info) = [inside t [lit "x.o"]] /\
    In (Finish 0 Succeeds) tr /\ is_dir D g 0 /\ target_of g 0 (place t []) /\ D1 (place t []) = PlainFile z.
Proof. exact file_in_the_way. Qed.
Print Assumptions C76_file_in_the_way_refuted.

(** * Examples *)

Local Open Scope string_scope.
Local Open Scope list_scope.

Example places : place (parse_path (lit "out")) [] = parse_path (lit "out/") /\
  place (parse_path (lit "out")) [lit "a"; lit "b"] = parse_path (lit "out/a/b").
Proof. split; reflexivity. Qed.

(** A project where x.rule has the target x.o, and nothing has been built yet *)
Example first_directory :
  project_build root_dir out_dir tree_disk (recipe tree_mkdir_compiler) (tree_files "x.o") (tree_graph "x.o")
    (with_out_dir Missing) tree_trace (with_out_dir (Directory 5%Z)) /\
  nothing_in_the_way tree_disk (tree_graph "x.o") tree_disk /\
  (forall p, with_out_dir Missing p = tree_disk p) /\
  numbered (tree_graph "x.o") 3 (inside root_dir [lit "x.rule"]) /\ In (Start 3) tree_trace /\
  map fst (tree_files "x.o") = [root_dir; parse_path (lit "x.rule")].
Proof.
  assert (Ht : "x.o" = "x.o" \/ "x.o" = "sub/x.o") by (left; reflexivity).
  split; [apply tree_build; [exact Ht|left; split; reflexivity]|]. split; [apply tree_nothing_in_the_way, Ht|].
  split; [exact with_missing|]. split; [vm_compute; reflexivity|]. split; [cbn; tauto|vm_compute; reflexivity].
Qed.
