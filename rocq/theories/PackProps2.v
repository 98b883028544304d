(** The script in the source archive builds the project (C123). *)

From Coq Require Import Ascii String ZArith.
From Coq Require Import List.
From Verif Require Import Str Path JsonModel DbModel DepGraphModel DepGraphSpec FileListSpec BuildModel BuildSpec LogModel LogSpec RecipeModel JobModel JobSpec ShowModel.
From Verif Require Import ValueModel TaskListModel TaskListSpec ScriptModel ScriptSpec ScriptProps.
From Verif Require Import SetupModel SetupSpec PackModel PackSpec PackProofs.
Import ListNotations.

(** The arguments of maike2 in the Makefile, line 8 *)
Definition makefile_argv : list str :=
  [lit "--target-dir=__targets_bootstrap"; lit "--num-workers=1"; lit "--force-rebuild"; lit "--dry-run";
   lit "--log-level=compilation_command"; lit "--build-id=0000000000000000000000000000000000000000000000000000000000000000"].

(** C123. They are accepted, and the script does not depend on when and by whom it is made, apart
    from the time and the name of the host. *)
Theorem C123_job : forall around, proper_around around ->
  exists j, make_job around makefile_argv = JobReady j /\ job_level j = LevelCompilationCommand /\ job_workers j = 1%Z /\
    path_string (bi_source_dir (job_info j)) = lit "." /\ path_string (bi_target_dir (job_info j)) = lit "__targets_bootstrap" /\
    RecipeModel.build_id (job_info j) = repeat "0"%char 64 /\ build_host (job_info j) = host_name around /\
    start_time (job_info j) = Z.quot (now around) 1000000000.
Proof. intros around P. eexists. split; [reflexivity|]. repeat split. Qed.
Print Assumptions C123_job.

(** C123. The script in the unpacked archive makes everything that the build that was asked for has
    to make. For names in one line and words that can be quoted (C99). *)
Theorem C123_builds_partial : forall build run ls_files t t' ms, (forall u, proper (snd (build u))) ->
  make_source_archive build run ls_files t = (true, t', Some ms) ->
  forall dump around j, shows_task_id dump -> proper_around around -> make_job around makefile_argv = JobReady j ->
  forall fs g tasks, loaded fs g -> proper_names fs g -> (forall p, known g p -> one_line (path_string p)) ->
  (forall v c, In v tasks -> task_command dump j g v = Some c -> Forall quotable_word (command_words c)) ->
  (forall u out, run u = (0, out) -> dry_run dump j g tasks out) ->
  exists out cmds, unpacked ms [lit "maike-src"; lit "__buildcache"; lit "bootstrap.sh"] = Some (Some out) /\
    script_commands out = Some cmds /\
    forall D D', script_run g (fun v c => option_map command_words (task_command dump j g v) = Some c) cmds D D' ->
    forall v, In v tasks -> current g D' v.
Proof.
  intros build run ls_files t t' ms W H dump around j S P J fs g tasks L N O Q R.
  destruct (archive_script _ _ _ _ _ _ W H) as (t1 & t2 & out & _ & D & _ & _ & U).
  destruct (C123_job around P) as (j' & J' & Lv & _ & Sd & Td & _). rewrite J in J'. injection J' as <-.
  destruct (C99_builds_partial dump around makefile_argv j S P J Lv) with (fs := fs) (g := g) (tasks := tasks) (out := out) as (cmds & C & B); auto.
  - rewrite Sd. unfold no_newline. cbn. intuition discriminate.
  - rewrite Td. unfold no_newline. cbn. intuition discriminate.
  - now apply (R t2).
  - exists out, cmds. auto.
Qed.
Print Assumptions C123_builds_partial.
