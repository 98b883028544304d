(** C99: the output of a dry run is a shell script that does the build. *)

From Coq Require Import Ascii String ZArith.
From Coq Require Import List Permutation.
From Verif Require Import Str Path JsonModel DbModel DepGraphModel DepGraphSpec FileListSpec BuildModel BuildSpec LogModel LogSpec RecipeModel JobModel JobSpec ShowModel.
From Verif Require Import ValueModel SchedModel SchedSpec TaskListModel TaskListSpec WriteModel WriteSpec.
From Verif Require Import ScriptModel ScriptSpec ScriptProofs ScriptRun.
From Verif Require ShowRun SchedProps BuildProps FailRun.
Import ListNotations.

Theorem C99_script_partial : forall dump around argv j, proper_around around -> make_job around argv = JobReady j ->
  job_level j = LevelCompilationCommand ->
  no_newline (path_string (bi_source_dir (job_info j))) -> no_newline (path_string (bi_target_dir (job_info j))) ->
  forall fs g, loaded fs g -> (forall p, known g p -> one_line (path_string p)) ->
  forall tasks out, dry_run dump j g tasks out ->
  (forall v c, In v tasks -> task_command dump j g v = Some c -> Forall quotable_word (command_words c)) ->
  exists order cmds, Permutation tasks order /\
    script_commands out = Some cmds /\
    Forall2 (fun v c => option_map command_words (task_command dump j g v) = Some c) order cmds /\
    (forall l1 v l2 p, order = l1 ++ v :: l2 -> numbered g v p ->
     forall d q, numbered g d q -> file_needs g p q -> builds g q -> In d l1).
Proof. exact script_read. Qed.
Print Assumptions C99_script_partial.

Theorem C99_builds_partial : forall dump around argv j, shows_task_id dump -> proper_around around -> make_job around argv = JobReady j ->
  job_level j = LevelCompilationCommand ->
  no_newline (path_string (bi_source_dir (job_info j))) -> no_newline (path_string (bi_target_dir (job_info j))) ->
  forall fs g, loaded fs g -> proper_names fs g -> (forall p, known g p -> one_line (path_string p)) ->
  forall tasks out, dry_run dump j g tasks out ->
  (forall v c, In v tasks -> task_command dump j g v = Some c -> Forall quotable_word (command_words c)) ->
  exists cmds, script_commands out = Some cmds /\
  forall D D', script_run g (fun v c => option_map command_words (task_command dump j g v) = Some c) cmds D D' ->
  forall v, In v tasks -> current g D' v.
Proof. exact script_builds. Qed.
Print Assumptions C99_builds_partial.

(** The name of a file may add commands to the script. *)
Theorem C99_newline_refuted : exists dump around argv j fs g tasks out,
  shows_task_id dump /\ proper_around around /\ make_job around argv = JobReady j /\ job_level j = LevelCompilationCommand /\
  no_newline (path_string (bi_source_dir (job_info j))) /\ no_newline (path_string (bi_target_dir (job_info j))) /\
  loaded fs g /\ proper_names fs g /\ dry_run dump j g tasks out /\
  (forall v c, In v tasks -> task_command dump j g v = Some c -> Forall quotable_word (command_words c)) /\
  exists c, option_map command_words (task_command dump j g 1) = Some c /\ tasks = [1] /\
  script_commands out = Some [c; [lit "rm"; lit "notes.txt"]].
Proof. exact rm_case. Qed.
Print Assumptions C99_newline_refuted.

(** If there is a backslash in an argument, which there is if there is a quotation mark in
    an option or in a name, then the script passes another argument to the recipe. *)
Theorem C99_backslash_refuted : exists dump around argv j fs g tasks out,
  shows_task_id dump /\ proper_around around /\ make_job around argv = JobReady j /\ job_level j = LevelCompilationCommand /\
  no_newline (path_string (bi_source_dir (job_info j))) /\ no_newline (path_string (bi_target_dir (job_info j))) /\
  loaded fs g /\ proper_names fs g /\ dry_run dump j g tasks out /\
  (forall p, known g p -> one_line (path_string p)) /\
  exists c c', option_map command_words (task_command dump j g 1) = Some c /\ tasks = [1] /\
  script_commands out = Some [c'] /\ c' <> c.
Proof. exact quote_case. Qed.
Print Assumptions C99_backslash_refuted.

(** C53: a printed command is read by a shell as the command that is run, if and only if
    no word of it has a backslash or a single quotation mark. *)
Theorem C53_shell_exactly : forall c,
  script_commands (command_to_string c) = Some [executable c :: cmd_args c] <->
  Forall (fun w => ~ In "\"%char w /\ ~ In "'"%char w) (executable c :: cmd_args c).
Proof. exact command_read_exactly. Qed.
Print Assumptions C53_shell_exactly.

(** Two object files and a program which is made from them *)
Example link_case : shows_task_id options_text /\ proper_around ShowRun.plain_around /\
  make_job ShowRun.plain_around script_argv = JobReady script_job /\ job_level script_job = LevelCompilationCommand /\
  no_newline (path_string (bi_source_dir (job_info script_job))) /\ no_newline (path_string (bi_target_dir (job_info script_job))) /\
  loaded SchedProps.linked_project SchedProps.linked_graph /\ proper_names SchedProps.linked_project SchedProps.linked_graph /\
  (forall p, known SchedProps.linked_graph p -> one_line (path_string p)) /\
  (forall v c, In v (snd FailRun.link_setup) -> task_command options_text script_job SchedProps.linked_graph v = Some c -> Forall quotable_word (command_words c)) /\
  (exists out, dry_run options_text script_job SchedProps.linked_graph (snd FailRun.link_setup) out /\
     script_commands out = Some [link_command 3; link_command 1; link_command 6]) /\
  script_run SchedProps.linked_graph (fun v c => option_map command_words (task_command options_text script_job SchedProps.linked_graph v) = Some c)
    [link_command 3; link_command 1; link_command 6] BuildProps.objects_built BuildProps.everything_built.
Proof.
  split; [exact options_text_id|]. split; [exact ShowRun.plain_proper|]. split; [exact script_job_ready|]. split; [exact script_level|].
  split; [exact script_source_dir|]. split; [exact script_target_dir|]. split; [exact SchedProps.linked_loaded|]. split; [exact BuildProps.linked_names|].
  split; [apply one_line_names; vm_compute; reflexivity|]. split; [apply commands_quotable; vm_compute; reflexivity|].
  split; [exact link_dry_run|exact link_run_script].
Qed.

Local Open Scope string_scope.
Local Open Scope list_scope.

(** What the shell makes of a text *)
Example shell_words :
  script_commands (lit "# note
'./a b' 'x#y' c\ d # 1 | a.cpp
mkdir -p 'out'
") = Some [[lit "./a b"; lit "x#y"; lit "c d"]; [lit "mkdir"; lit "-p"; lit "out"]] /\
  script_commands (lit "echo $HOME") = None /\ script_commands (lit "'a") = None /\ script_commands (lit "if x") = None /\
  script_commands (lit "'if' a\") = None.
Proof. vm_compute. repeat split. Qed.

(** Both sides of the equivalence *)
Example printed_commands :
  script_commands (command_to_string (mk_command (lit "a b") [lit "{""x"": 1}"; lit "$y"])) = Some [[lit "a b"; lit "{""x"": 1}"; lit "$y"]] /\
  script_commands (command_to_string (mk_command (lit "tool") [lit "a\b"])) = Some [[lit "tool"; lit "a\\b"]] /\
  script_commands (command_to_string (mk_command (lit "tool") [lit "it's"])) = None.
Proof. vm_compute. repeat split. Qed.
