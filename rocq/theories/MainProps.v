(** The program: theorems. *)

From Coq Require Import Ascii String Bool ZArith.
From Coq Require Import List.
From Verif Require Import Str Path SMap JsonModel DbModel DepGraphModel DepGraphSpec FileListModel FileListSpec LoadSpec.
From Verif Require Import SchedModel SchedSpec TaskListModel TaskListSpec CmdModel CmdSpec MainModel MainSpec MainProofs MainExample.
Import ListNotations.

(** C65. Information about the program is printed, and nothing else happens. *)
Theorem C65_program_information : forall env accepts argv, valid accepts argv ->
  (given accepts argv Help -> main env accepts argv = ([Shown None HelpText], 0%Z)) /\
  (~ given accepts argv Help -> given accepts argv Version -> main env accepts argv = ([Shown None VersionText], 0%Z)) /\
  (~ given accepts argv Help -> ~ given accepts argv Version -> given accepts argv About ->
     main env accepts argv = ([Shown None AboutText], 0%Z)).
Proof. exact information. Qed.
Print Assumptions C65_program_information.

(** C65. Nothing is built if one of these options is given. Not included are
    --print-dep-graph-inv, --dump-database and --list-external-deps. *)
Theorem C65_no_build_partial : forall env accepts argv o e,
  In o [Help; Version; About; ConfigDump; ListTargets; PrintDepGraph] -> given accepts argv o ->
  In e (fst (main env accepts argv)) -> ~ is_build e.
Proof. exact query_no_build. Qed.
Print Assumptions C65_no_build_partial.

(** C65. Printing the configuration does not start any process. *)
Theorem C65_configdump : forall env accepts argv e, given accepts argv ConfigDump ->
  In e (fst (main env accepts argv)) -> ~ starts_process e.
Proof. exact dump_no_process. Qed.
Print Assumptions C65_configdump.

(** C65. The other queries print nothing, and build everything. *)
Theorem C65_still_builds_refuted : forall o, In o [PrintDepGraphInv; DumpDatabase; ListExternalDeps] ->
  exists env accepts argv g rs tasks force tr v, genuine env (fst (main env accepts argv)) /\ valid accepts argv /\
    given accepts argv o /\
    In (Processed g rs tasks false force tr) (fst (main env accepts argv)) /\ In (Start v) tr /\
    forall f w, ~ In (Shown f w) (fst (main env accepts argv)).
Proof.
  intros o Ho. set (env := tiny_env default_target_dir Succeeds). set (argv := [lit "--config-default"; option_name o]).
  assert (S : existsb (starts_something false) (fst (main env any_text argv)) = true)
    by (destruct Ho as [<- | [<- | [<- | []]]]; vm_compute; reflexivity).
  apply starts_test in S. destruct S as (g & rs & tasks & force & tr & v & I & J).
  exists env, any_text, argv, g, rs, tasks, force, tr, v.
  split; [apply tiny_genuine; vm_compute; reflexivity|].
  split; [apply valid_test; destruct Ho as [<- | [<- | [<- | []]]]; vm_compute; reflexivity|].
  split; [apply given_test; destruct Ho as [<- | [<- | [<- | []]]]; vm_compute; reflexivity|].
  split; [exact I|]. split; [exact J|].
  apply shown_test. destruct Ho as [<- | [<- | [<- | []]]]; vm_compute; reflexivity.
Qed.
Print Assumptions C65_still_builds_refuted.

(** C66. What is asked for goes to standard output (as it should if no file is
    given)... *)
Theorem C66_standard_output_partial : forall env accepts argv f w,
  In (Shown f w) (fst (main env accepts argv)) -> f = None.
Proof. exact shown_standard_output. Qed.
Print Assumptions C66_standard_output_partial.

(** ...even if the name of a file is given. *)
Theorem C66_file_refuted : exists env accepts argv p names, genuine env (fst (main env accepts argv)) /\ valid accepts argv /\
  has_value accepts argv ListTargets (PathValue p) /\ p <> empty_path /\
  In (Shown None (TargetNames names)) (fst (main env accepts argv)) /\
  forall f w, In (Shown f w) (fst (main env accepts argv)) -> f <> Some p.
Proof.
  set (env := tiny_env default_target_dir Succeeds). set (argv := [lit "--config-default"; lit "--list-targets=out.txt"]).
  exists env, any_text, argv, (mk_path false [lit "out.txt"]), [mk_path false [dot]; mk_path false [lit "app"]].
  split; [apply tiny_genuine; vm_compute; reflexivity|].
  split; [apply valid_test; vm_compute; reflexivity|].
  split; [apply value_test; vm_compute; reflexivity|]. split; [discriminate|].
  split; [vm_compute; tauto|]. intros f w I. rewrite (shown_standard_output _ _ _ _ _ I). discriminate.
Qed.
Print Assumptions C66_file_refuted.

(** C67. In a dry run, the tasks are processed as such... *)
Theorem C67_flags : forall env accepts argv g rs tasks d f tr,
  In (Processed g rs tasks d f tr) (fst (main env accepts argv)) ->
  (d = true <-> given accepts argv DryRun) /\ (f = true <-> given accepts argv ForceRebuild).
Proof. exact build_flags. Qed.
Print Assumptions C67_flags.

(** ...so the only processes are those that are started while the project is loaded. *)
Theorem C67_processes_partial : forall env accepts argv e, given accepts argv DryRun ->
  In e (fst (main env accepts argv)) -> starts_process e -> exists p, e = RecipeRun p.
Proof. exact dry_run_processes. Qed.
Print Assumptions C67_processes_partial.

(** C67. Recipes are run even if it is a dry run. *)
Theorem C67_recipes_run_refuted : exists env accepts argv p, genuine env (fst (main env accepts argv)) /\
  valid accepts argv /\ given accepts argv DryRun /\ In (RecipeRun p) (fst (main env accepts argv)).
Proof.
  exists (tiny_env default_target_dir Succeeds), any_text, [lit "--dry-run"; lit "--config-default"], (mk_path false [lit "cxx_compiler.py"]).
  split; [apply tiny_genuine; vm_compute; reflexivity|].
  split; [apply valid_test; vm_compute; reflexivity|]. split; [apply given_test; vm_compute; reflexivity|].
  vm_compute. tauto.
Qed.
Print Assumptions C67_recipes_run_refuted.

(** C68. The exit status is 0 or 255. *)
Theorem C68_status_values : forall env accepts argv, snd (main env accepts argv) = 0%Z \/ snd (main env accepts argv) = 255%Z.
Proof. exact status_cases. Qed.
Print Assumptions C68_status_values.

(** C68. If it is 0, and everything was to be built, then everything has been built,
    and nothing else has been started. *)
Theorem C68_success : forall env accepts argv, genuine env (fst (main env accepts argv)) ->
  snd (main env accepts argv) = 0%Z -> no_query accepts argv -> ~ given accepts argv Targets ->
  exists s td fs ts g rs tasks d f tr, In (Scanned s td fs) (fst (main env accepts argv)) /\ load_project fs = Loaded (ts, g) /\
    In (Processed g rs tasks d f tr) (fst (main env accepts argv)) /\
    (forall p, builds fs p -> completed g tr p) /\
    (forall v p, numbered g v p -> In (Start v) tr -> builds fs p).
Proof. exact success_all. Qed.
Print Assumptions C68_success.

(** C68. If any task fails, it is not 0. *)
Theorem C68_failure : forall env accepts argv, genuine env (fst (main env accepts argv)) ->
  forall g rs tasks d f tr v o, In (Processed g rs tasks d f tr) (fst (main env accepts argv)) ->
  In (Finish v o) tr -> o <> Succeeds -> snd (main env accepts argv) <> 0%Z.
Proof. exact failure_status. Qed.
Print Assumptions C68_failure.

(** C68. If it is not 0 although the arguments are valid, there is a reason: no list of
    files (because of the configuration, a recipe, or the file system), files that do not make up
    a project (see C46), a cycle, a target that does not exist, or a failed task. *)
Theorem C68_reasons : forall env accepts argv, genuine env (fst (main env accepts argv)) -> valid accepts argv ->
  no_query accepts argv -> snd (main env accepts argv) <> 0%Z ->
  let events := fst (main env accepts argv) in
  (forall s td fs, ~ In (Scanned s td fs) events) \/
  exists s td fs, In (Scanned s td fs) events /\
    ((exists e, load_project fs = Failed e) \/
     exists ts g, load_project fs = Loaded (ts, g) /\
       ((exists p, file_on_cycle g p) \/
        (exists names name, has_value accepts argv Targets (PathsValue names) /\ In name names /\
           ~ In (append td name) (map fst (declared_targets fs))) \/
        exists rs tasks d f tr v o, In (Processed g rs tasks d f tr) events /\ In (Finish v o) tr /\ o <> Succeeds)).
Proof. exact status_reasons. Qed.
Print Assumptions C68_reasons.

(** C69. If targets are given, and the exit status is 0, then each of them exists, and
    all that it needs has been built. *)
Theorem C69_targets_built : forall env accepts argv, genuine env (fst (main env accepts argv)) ->
  snd (main env accepts argv) = 0%Z -> no_query accepts argv ->
  forall names, has_value accepts argv Targets (PathsValue names) ->
  exists s td fs ts g, In (Scanned s td fs) (fst (main env accepts argv)) /\ load_project fs = Loaded (ts, g) /\
    forall name, In name names ->
      In (append td name) (map fst (declared_targets fs)) /\
      exists rs tasks d f tr, In (Processed g rs tasks d f tr) (fst (main env accepts argv)) /\
        forall p, part_of_target fs g td name p -> completed g tr p.
Proof. exact success_targets. Qed.
Print Assumptions C69_targets_built.

(** C69. Whatever the exit status, nothing else is started. *)
Theorem C69_nothing_else : forall env accepts argv, genuine env (fst (main env accepts argv)) ->
  forall names, has_value accepts argv Targets (PathsValue names) ->
  forall g rs tasks d f tr v p, In (Processed g rs tasks d f tr) (fst (main env accepts argv)) ->
  In (Start v) tr -> numbered g v p ->
  exists s td fs name, In (Scanned s td fs) (fst (main env accepts argv)) /\ In name names /\ part_of_target fs g td name p.
Proof. exact targets_only. Qed.
Print Assumptions C69_nothing_else.

(** C69. A name that does not belong to a target is an error. *)
Theorem C69_unknown_target : forall env accepts argv, genuine env (fst (main env accepts argv)) -> no_query accepts argv ->
  forall names, has_value accepts argv Targets (PathsValue names) ->
  forall s td fs name, In (Scanned s td fs) (fst (main env accepts argv)) -> In name names ->
    ~ In (append td name) (map fst (declared_targets fs)) -> snd (main env accepts argv) <> 0%Z.
Proof. exact unknown_target. Qed.
Print Assumptions C69_unknown_target.

(** C70. Each target of the project is in the list once, relative to the target
    directory. *)
Theorem C70_list : forall env accepts argv s td fs ts g, given accepts argv ListTargets ->
  In (Scanned s td fs) (fst (main env accepts argv)) -> scanned fs -> load_project fs = Loaded (ts, g) ->
  snd (main env accepts argv) = 0%Z /\
  exists names, In (Shown None (TargetNames names)) (fst (main env accepts argv)) /\
    (forall n, In n names <-> exists k, In k (map fst (declared_targets fs)) /\ n = lexically_relative k td) /\
    length names = length (declared_targets fs).
Proof. exact listing. Qed.
Print Assumptions C70_list.

(** C70. If the target directory is given by a normalised path other than ".", then
    targets inside of it can be built by their names in the list (see C69). *)
Theorem C70_names_partial : forall td l, directory_ok td -> td <> mk_path false [dot] -> Forall ordinary l -> l <> [] ->
  lexically_relative (inside td l) td = mk_path false l /\ append td (mk_path false l) = inside td l.
Proof. exact listed_name. Qed.
Print Assumptions C70_names_partial.

(** C70. Names in the list are not accepted: that of the top directory... *)
Theorem C70_directory_refuted : exists env accepts argv names name, genuine env (fst (main env accepts (lit "--list-targets" :: argv))) /\
  In (Shown None (TargetNames names)) (fst (main env accepts (lit "--list-targets" :: argv))) /\ In name names /\
  let argv' := (lit "--targets=" ++ path_string name) :: argv in
  genuine env (fst (main env accepts argv')) /\ valid accepts argv' /\ has_value accepts argv' Targets (PathsValue [name]) /\
  snd (main env accepts argv') <> 0%Z /\ forall e, In e (fst (main env accepts argv')) -> ~ is_build e.
Proof. exact directory_not_accepted. Qed.
Print Assumptions C70_directory_refuted.

(** ...and all of them, if the target directory is given as "./build". *)
Theorem C70_dot_refuted : exists env accepts names, let argv := [lit "--target-dir=./build"; lit "--config-default"] in
  In (Shown None (TargetNames names)) (fst (main env accepts (lit "--list-targets" :: argv))) /\ names <> [] /\
  forall name, In name names \/ name = mk_path false [lit "app"] ->
    let argv' := (lit "--targets=" ++ path_string name) :: argv in
    genuine env (fst (main env accepts argv')) /\ valid accepts argv' /\ has_value accepts argv' Targets (PathsValue [name]) /\
    snd (main env accepts argv') <> 0%Z /\ forall e, In e (fst (main env accepts argv')) -> ~ is_build e.
Proof. exact dot_not_accepted. Qed.
Print Assumptions C70_dot_refuted.

(** C71. The graph that is printed has an edge for each dependency of each file. *)
Theorem C71_graph : forall env accepts argv s td fs ts g, given accepts argv PrintDepGraph -> ~ given accepts argv ListTargets ->
  In (Scanned s td fs) (fst (main env accepts argv)) -> load_project fs = Loaded (ts, g) ->
  snd (main env accepts argv) = 0%Z /\
  exists edges, In (Shown None (GraphEdges edges)) (fst (main env accepts argv)) /\
    NoDup edges /\ forall p q, In (p, q) edges <-> exists d, declared_by g p d /\ dep_name d = q.
Proof. exact printed_graph. Qed.
Print Assumptions C71_graph.

(** C72. The directories are those that are given. Otherwise it is the current directory, and
    "__targets" as long as both are left out. *)
Theorem C72_directories_partial : forall env accepts argv s t fs, In (Scanned s t fs) (fst (main env accepts argv)) ->
  (forall p, has_value accepts argv SourceDir (PathValue p) -> s = p) /\
  (~ given accepts argv SourceDir -> s = mk_path false [dot]) /\
  (forall p, has_value accepts argv TargetDir (PathValue p) -> t = p) /\
  (~ given accepts argv SourceDir -> ~ given accepts argv TargetDir -> t = mk_path false [lit "__targets"]).
Proof. exact directories. Qed.
Print Assumptions C72_directories_partial.

(** C72. If only the source directory is given, another target directory is used. *)
Theorem C72_default_refuted : exists env accepts argv s t fs, valid accepts argv /\
  ~ given accepts argv TargetDir /\ In (Scanned s t fs) (fst (main env accepts argv)) /\ t <> mk_path false [lit "__targets"] /\
  t <> append s (mk_path false [lit "__targets"]).
Proof. exact other_target_directory. Qed.
Print Assumptions C72_default_refuted.

(** * Concrete cases *)

Local Open Scope string_scope.
Local Open Scope list_scope.

(** The project in MainExample.v, consisting of a directory and a source file *)
Example builds_app : builds (tiny_files default_target_dir) (mk_path false [lit "app.cpp"]).
Proof. eexists. split; [right; left; reflexivity|discriminate]. Qed.

(** C68: hypotheses are met by a run with status 0... *)
Example success_case : let argv := [lit "--config-default"] in let env := tiny_env default_target_dir Succeeds in
  genuine env (fst (main env any_text argv)) /\ snd (main env any_text argv) = 0%Z /\ no_query any_text argv /\
  ~ given any_text argv Targets /\ valid any_text argv.
Proof.
  cbv zeta. split; [apply tiny_genuine; vm_compute; reflexivity|]. split; [vm_compute; reflexivity|].
  split; [apply no_query_test; vm_compute; reflexivity|]. split; [apply not_given_test; vm_compute; reflexivity|].
  apply valid_test. vm_compute. reflexivity.
Qed.

(** ...and one in which tasks fail. *)
Example failure_case : let argv := [lit "--config-default"] in let env := tiny_env default_target_dir Fails in
  genuine env (fst (main env any_text argv)) /\ valid any_text argv /\ no_query any_text argv /\
  snd (main env any_text argv) = 255%Z /\
  exists g rs tasks d f tr, In (Processed g rs tasks d f tr) (fst (main env any_text argv)) /\ In (Finish 3 Fails) tr.
Proof.
  cbv zeta. split; [apply tiny_genuine; vm_compute; reflexivity|]. split; [apply valid_test; vm_compute; reflexivity|].
  split; [apply no_query_test; vm_compute; reflexivity|]. split; [vm_compute; reflexivity|].
  do 6 eexists. split; [vm_compute; do 8 right; left; reflexivity|vm_compute; tauto].
Qed.

(** C69: one target, in a dry run *)
Example target_case : let argv := [lit "--targets=app"; lit "--config-default"; lit "--dry-run"] in
  let env := tiny_env default_target_dir Succeeds in
  genuine env (fst (main env any_text argv)) /\ snd (main env any_text argv) = 0%Z /\ no_query any_text argv /\
  has_value any_text argv Targets (PathsValue [mk_path false [lit "app"]]) /\
  part_of_target (tiny_files default_target_dir) (tiny_graph default_target_dir) default_target_dir
    (mk_path false [lit "app"]) (mk_path false [lit "app.cpp"]) /\
  exists g rs tasks f tr, In (Processed g rs tasks true f tr) (fst (main env any_text argv)) /\ In (Start 3) tr /\ ~ In (Start 0) tr.
Proof.
  cbv zeta. split; [apply tiny_genuine; vm_compute; reflexivity|]. split; [vm_compute; reflexivity|].
  split; [apply no_query_test; vm_compute; reflexivity|]. split; [apply value_test; vm_compute; reflexivity|]. split.
  - exists (mk_target (mk_path false [lit "app.cpp"]) (mk_target_info (append default_target_dir (mk_path false [lit "app"])) [])).
    split; [vm_compute; tauto|]. split; [exact builds_app|]. apply reach_self.
  - do 5 eexists. split; [vm_compute; do 8 right; left; reflexivity|]. split; [vm_compute; tauto|]. vm_compute. intuition discriminate.
Qed.

(** C69: something that is not a target *)
Example unknown_case : let argv := [lit "--targets=lib"; lit "--config-default"] in
  let env := tiny_env default_target_dir Succeeds in
  has_value any_text argv Targets (PathsValue [mk_path false [lit "lib"]]) /\ snd (main env any_text argv) = 255%Z /\
  ~ In (append default_target_dir (mk_path false [lit "lib"])) (map fst (declared_targets (tiny_files default_target_dir))).
Proof.
  cbv zeta. split; [apply value_test; vm_compute; reflexivity|]. split; [vm_compute; reflexivity|]. vm_compute. intuition discriminate.
Qed.

(** C65: the version, although targets are given *)
Example version_case : valid any_text [lit "--version"; lit "--targets=app"] /\
  given any_text [lit "--version"; lit "--targets=app"] Version /\ ~ given any_text [lit "--version"; lit "--targets=app"] Help.
Proof.
  split; [apply valid_test; vm_compute; reflexivity|]. split; [apply given_test; vm_compute; reflexivity|].
  apply not_given_test; vm_compute; reflexivity.
Qed.

(** C70 and C71: hypotheses *)
Example list_case : forall o, In o [ListTargets; PrintDepGraph] ->
  let argv := [option_name o; lit "--config-default"] in let env := tiny_env default_target_dir Succeeds in
  given any_text argv o /\ scanned (tiny_files default_target_dir) /\
  In (Scanned (mk_path false [dot]) default_target_dir (tiny_files default_target_dir)) (fst (main env any_text argv)) /\
  exists ts g, load_project (tiny_files default_target_dir) = Loaded (ts, g).
Proof.
  intros o Ho. cbv zeta. split; [apply given_test; destruct Ho as [<- | [<- | []]]; vm_compute; reflexivity|].
  split; [apply tiny_scanned|]. split; [destruct Ho as [<- | [<- | []]]; vm_compute; tauto|].
  do 2 eexists. vm_compute. reflexivity.
Qed.

Example list_names : directory_ok default_target_dir /\ default_target_dir <> mk_path false [dot] /\
  inside default_target_dir [lit "bin"; lit "app"] = parse_path (lit "__targets/bin/app").
Proof.
  split; [|split; [discriminate|reflexivity]]. right. split; [|right; discriminate].
  exists 0, [lit "__targets"]. split; [reflexivity|]. split; [|discriminate]. constructor; [|constructor].
  repeat split; try discriminate. vm_compute. intuition discriminate.
Qed.

(** C71: the edges of a project *)
Example graph_case : graph_edges (tiny_graph default_target_dir) =
  [(mk_path false [lit "__targets"; []], mk_path false [dot]);
   (mk_path false [lit "__targets"; lit "app"], mk_path false [lit "app.cpp"])].
Proof. vm_compute. reflexivity. Qed.

(** C72: other directories *)
Example directories_case : let argv := [lit "--source-dir=src"; lit "--target-dir=build"] in
  has_value any_text argv SourceDir (PathValue (mk_path false [lit "src"])) /\
  has_value any_text argv TargetDir (PathValue (mk_path false [lit "build"])).
Proof. cbv zeta. split; apply value_test; vm_compute; reflexivity. Qed.
