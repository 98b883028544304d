(** C87: the parameters of a job are the ones given on the command line. *)

From Coq Require Import Ascii String NArith ZArith.
From Coq Require Import List.
From Verif Require Import Str Path CmdModel CmdSpec ValueModel ValueSpec JsonModel RecipeModel RecipeSpec MainModel JobModel JobSpec JobProofs.
Import ListNotations.

(** C87, in part: if the value of any option is not acceptable, the program does
    nothing and fails. Missing: values with something left over after the number, and numbers
    that do not fit into their type (C87_number_refuted, C87_range_refuted). *)
Theorem C87_rejected_partial : forall env argv1 arg argv2 o text, gives arg (option_name o) text -> c_string text ->
  ~ acceptable o text ->
  main env job_accepts (argv1 ++ arg :: argv2) = ([], 255%Z).
Proof. exact rejected_program. Qed.
Print Assumptions C87_rejected_partial.

(** C87: otherwise, the command line is not rejected. *)
Theorem C87_accepted : forall around argv l, written argv l ->
  (forall o text, In (o, text) l -> c_string text /\ acceptable o text) ->
  make_job around argv <> JobRejected.
Proof. exact accepted_job. Qed.
Print Assumptions C87_accepted.

(** C87: the number of threads is the one given last, and otherwise that of the
    processors, but at least one. *)
Theorem C87_workers : forall around argv l j, written argv l -> make_job around argv = JobReady j ->
  (forall text z, last_text l NumWorkers text -> starts_with_integer text z -> (1 <= z <= 2147483647)%Z -> job_workers j = z) /\
  (last_text l NumWorkers (lit "auto") \/ not_given l NumWorkers -> job_workers j = Z.max (nprocs around) 1).
Proof. exact workers_used. Qed.
Print Assumptions C87_workers.

(** C87: likewise the start time, in seconds. *)
Theorem C87_start_time : forall around argv l j, written argv l -> make_job around argv = JobReady j ->
  (forall text z, last_text l StartTime text -> is_integer text z -> (- 2 ^ 63 <= z * 1000000000 < 2 ^ 63)%Z ->
     start_time (job_info j) = z) /\
  (not_given l StartTime -> start_time (job_info j) = Z.quot (now around) 1000000000).
Proof. exact start_used. Qed.
Print Assumptions C87_start_time.

(** C87: likewise the id, which is always printed with digits in lower case. *)
Theorem C87_id : forall around argv l j, proper_around around -> written argv l -> make_job around argv = JobReady j ->
  (forall text rest b, last_text l BuildId (text ++ rest) -> ValueSpec.build_id b -> spells text b ->
     prints b (RecipeModel.build_id (job_info j))) /\
  (not_given l BuildId -> prints (random_id around) (RecipeModel.build_id (job_info j))).
Proof. exact id_shown. Qed.
Print Assumptions C87_id.

(** C87: likewise the settings of the log. *)
Theorem C87_log : forall around argv l j, written argv l -> make_job around argv = JobReady j ->
  (forall text x, last_text l LogLevel text -> In (text, x) level_names -> job_level j = x) /\
  (not_given l LogLevel -> job_level j = LevelSourceFileInfo) /\
  (forall text x, last_text l LogOutputFormat text -> In (text, x) format_names -> job_format j = x) /\
  (not_given l LogOutputFormat -> job_format j = if stderr_is_tty around then AnsiTerm else PlainText).
Proof. exact log_used. Qed.
Print Assumptions C87_log.

(** C87: the directories of the job are the ones that are scanned, and where targets
    are created. *)
Theorem C87_directories : forall env around argv j s t fs, make_job around argv = JobReady j ->
  In (Scanned s t fs) (fst (main env job_accepts argv)) ->
  s = bi_source_dir (job_info j) /\ t = bi_target_dir (job_info j).
Proof. exact same_directories. Qed.
Print Assumptions C87_directories.

(** C87: recipes are told these parameters. *)
Theorem C87_told : forall around argv j, proper_around around -> is_text (host_name around) -> make_job around argv = JobReady j ->
  is_text (path_string (bi_source_dir (job_info j))) -> is_text (path_string (bi_target_dir (job_info j))) ->
  exists m, build_info_to_json (job_info j) = JObject m /\
    obj_get (lit "start_time") m = Some (JInteger (start_time (job_info j))) /\
    obj_get (lit "build_id") m = Some (JString (RecipeModel.build_id (job_info j))) /\
    obj_get (lit "source_dir") m = Some (JString (path_string (bi_source_dir (job_info j)))) /\
    obj_get (lit "target_dir") m = Some (JString (path_string (bi_target_dir (job_info j)))) /\
    obj_get (lit "build_host") m = Some (JString (host_name around)).
Proof. exact job_told. Qed.
Print Assumptions C87_told.

(** C87: a recipe that starts the program with the time and the id it was told gets a
    job with the same time and the same id, at any later time and on any host. *)
Theorem C87_passed_on : forall around argv j around', proper_around around -> make_job around argv = JobReady j ->
  (exists j', make_job around' [lit "--start-time=" ++ decimal (start_time (job_info j)); lit "--build-id=" ++ RecipeModel.build_id (job_info j)]
     = JobReady j') /\
  (forall argv' l' j', written argv' l' -> make_job around' argv' = JobReady j' ->
     (last_text l' StartTime (decimal (start_time (job_info j))) -> start_time (job_info j') = start_time (job_info j)) /\
     (last_text l' BuildId (RecipeModel.build_id (job_info j)) -> RecipeModel.build_id (job_info j') = RecipeModel.build_id (job_info j))).
Proof.
  exact (fun around argv j around' P H => conj (passed_on_accepted around argv j around' P H)
    (fun argv' l' j' W H' => passed_on around argv j around' argv' l' j' P H W H')).
Qed.
Print Assumptions C87_passed_on.

(** The full statement, that a value which is not a number is rejected, is false: what
    follows the digits is ignored. *)
Theorem C87_number_refuted : exists around argv j,
  argv = [lit "--num-workers=2x"] /\ make_job around argv = JobReady j /\ job_workers j = 2%Z.
Proof.
  exact (ex_intro _ (mk_surroundings 0 (repeat 0%N 32) (lit "host") 4 false)
    (ex_intro _ _ (ex_intro _ _ (conj eq_refl (conj eq_refl eq_refl))))).
Qed.
Print Assumptions C87_number_refuted.

(** And a number that is too large is not rejected: the behaviour is undefined. *)
Theorem C87_range_refuted : exists argv, argv = [lit "--start-time=9223372037"] /\
  forall around, make_job around argv = JobUndefined.
Proof. exact (ex_intro _ _ (conj eq_refl (fun _ => eq_refl))). Qed.
Print Assumptions C87_range_refuted.

(** An id with too few digits is not rejected, the rest of it is zero. *)
Theorem C87_short_id_refuted : exists around argv j,
  argv = [lit "--build-id=12"] /\ make_job around argv = JobReady j /\
  RecipeModel.build_id (job_info j) = lit "12" ++ repeat "0"%char 62.
Proof.
  exact (ex_intro _ (mk_surroundings 0 (repeat 0%N 32) (lit "host") 4 false)
    (ex_intro _ _ (ex_intro _ _ (conj eq_refl (conj eq_refl eq_refl))))).
Qed.
Print Assumptions C87_short_id_refuted.

(** ** Examples *)

Local Open Scope string_scope.
Local Open Scope list_scope.

Definition u_around : surroundings := mk_surroundings 1605484800123456789 (repeat 171%N 32) (lit "host") 4 true.

Definition u_argv : list str :=
  [lit "--num-workers=3"; lit "--start-time=0x10"; lit "--log-level=errors"; lit "--num-workers= +2"; lit "--source-dir=src"].

Definition u_given : list (cmd_option * str) :=
  [(NumWorkers, lit "3"); (StartTime, lit "0x10"); (LogLevel, lit "errors"); (NumWorkers, lit " +2"); (SourceDir, lit "src")].

Definition u_job : job :=
  mk_job (mk_build_info 16 (concat (repeat (lit "ab") 32)) (mk_path false [lit "src"]) (mk_path false [lit "src_targets"]) (lit "host"))
    2 LevelErrors AnsiTerm.

Example u_written : written u_argv u_given.
Proof. repeat constructor; right; reflexivity. Qed.

Example u_made : make_job u_around u_argv = JobReady u_job.
Proof. reflexivity. Qed.

Example u_proper : proper_around u_around /\ is_text (host_name u_around).
Proof. split; [repeat split; try discriminate; repeat constructor|]. apply RecipeProofs.ascii_text. repeat constructor. Qed.

(** The hypotheses of C87_workers and C87_start_time *)
Example u_last : last_text u_given NumWorkers (lit " +2") /\ starts_with_integer (lit " +2") 2.
Proof.
  split.
  - exists [(NumWorkers, lit "3"); (StartTime, lit "0x10"); (LogLevel, lit "errors")], [(SourceDir, lit "src")].
    split; [reflexivity|]. repeat constructor; discriminate.
  - exists [" "%char], (lit "+2"), []. split; [reflexivity|]. split; [repeat constructor; now left|]. split; [|exact I].
    apply plus_sign. apply (numeral_one 10 "2"%char 2); [now left|repeat constructor].
Qed.

(** The hypotheses of C87_rejected_partial *)
Example u_rejected : gives (lit "--num-workers=0") (option_name NumWorkers) (lit "0") /\ c_string (lit "0") /\
  job_accepts NumWorkers (lit "0") = false /\ job_accepts NumWorkers (lit "few") = false /\
  job_accepts LogLevel (lit "Errors") = false /\ job_accepts BuildId (lit "xyz") = false /\
  job_accepts StartTime (lit "12s") = false /\ job_accepts DryRun (lit "yes") = false.
Proof. split; [now right|]. split; [intros [H | []]; discriminate H|]. repeat split. Qed.

Example u_not_acceptable : ~ acceptable LogLevel (lit "Errors").
Proof. intros [H | [H | [H | []]]]; discriminate H. Qed.

(** The id is given with capital letters, and something after it *)
Example u_id : make_job u_around [lit "--build-id=" ++ concat (repeat (lit "C0") 32) ++ lit "etc"] =
  JobReady (mk_job (mk_build_info 1605484800 (concat (repeat (lit "c0") 32)) (mk_path false [dot]) (mk_path false [lit "__targets"]) (lit "host"))
    4 LevelSourceFileInfo AnsiTerm).
Proof. reflexivity. Qed.

(** C87_passed_on: later, elsewhere *)
Example u_again : exists j, make_job (mk_surroundings 1605484900000000000 (repeat 7%N 32) (lit "other") 1 false)
    [lit "--start-time=16"; lit "--build-id=" ++ concat (repeat (lit "ab") 32)] = JobReady j /\
  start_time (job_info j) = 16%Z /\ RecipeModel.build_id (job_info j) = concat (repeat (lit "ab") 32).
Proof. eexists. split; [reflexivity|]. split; reflexivity. Qed.
