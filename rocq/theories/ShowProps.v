(** C88: what is printed about a project can be read back. C89: the options that have
    been given are reported. *)

From Coq Require Import Ascii String NArith ZArith.
From Coq Require Import List.
From Verif Require Import Str Path SMap CmdModel CmdSpec ValueModel ValueSpec JsonModel DbModel GraphModel DepGraphModel DepGraphSpec.
From Verif Require Import FileListModel FileListSpec LoadModel RecipeModel MainModel MainSpec JobModel JobSpec.
From Verif Require Import ShowModel ShowSpec ShowProofs ReportProofs MainProofs MainExample ShowRun.
Import ListNotations.

(** C88, in part: standard output consists of lines, and those that are not comments are
    the names of the targets, one for each of them. Missing: names with line breaks, and names
    that begin with a hash sign (C88_newline_refuted, C88_hash_refuted). *)
Theorem C88_targets_partial : forall env around argv j s td fs ts g, proper_around around -> make_job around argv = JobReady j ->
  given job_accepts argv ListTargets -> In (Scanned s td fs) (fst (main env job_accepts argv)) ->
  scanned fs -> load_project fs = Loaded (ts, g) -> ~ In newline (path_string s) -> ~ In newline (path_string td) ->
  (forall k, In k (map fst (declared_targets fs)) -> listable (path_string (lexically_relative k td))) ->
  exists text ls, shown_output env around argv = Some text /\ text_lines text ls /\
    (forall l, In l ls /\ is_comment l = false <->
       exists k, In k (map fst (declared_targets fs)) /\ l = path_string (lexically_relative k td)) /\
    length (filter (fun l => negb (is_comment l)) ls) = length (declared_targets fs).
Proof. exact list_read. Qed.
Print Assumptions C88_targets_partial.

(** C88, in part: as a text in the language of dot, standard output is a graph with the
    dependencies as edges. Missing: names with quotes or backslashes (C88_quote_refuted). *)
Theorem C88_graph_partial : forall env around argv j s td fs ts g, proper_around around -> make_job around argv = JobReady j ->
  given job_accepts argv PrintDepGraph -> ~ given job_accepts argv ListTargets ->
  In (Scanned s td fs) (fst (main env job_accepts argv)) -> load_project fs = Loaded (ts, g) ->
  ~ In newline (path_string s) -> ~ In newline (path_string td) ->
  (forall p d, declared_by g p d -> quotable (path_string p) /\ quotable (path_string (dep_name d))) ->
  exists text edges, shown_output env around argv = Some text /\ dot_edges text = Some edges /\
    forall a b, In (a, b) edges <-> exists p d, declared_by g p d /\ a = path_string p /\ b = path_string (dep_name d).
Proof. exact digraph_read. Qed.
Print Assumptions C88_graph_partial.

(** The full statement about targets is false: a target whose name contains a line
    break is printed as two names, neither of which is that of a target. *)
Theorem C88_newline_refuted : exists env around argv s td fs text ls,
  proper_around around /\ given job_accepts argv ListTargets /\ In (Scanned s td fs) (fst (main env job_accepts argv)) /\
  scanned fs /\ (exists ts g, load_project fs = Loaded (ts, g)) /\
  shown_output env around argv = Some text /\ text_lines text ls /\
  length (filter (fun l => negb (is_comment l)) ls) = 2 /\ length (declared_targets fs) = 1 /\
  forall l k, In l ls -> In k (map fst (declared_targets fs)) -> l <> path_string (lexically_relative k td).
Proof. exact newline_case. Qed.
Print Assumptions C88_newline_refuted.

(** And the name of a target may look like a comment. *)
Theorem C88_hash_refuted : exists env around argv s td fs text ls,
  proper_around around /\ given job_accepts argv ListTargets /\ In (Scanned s td fs) (fst (main env job_accepts argv)) /\
  scanned fs /\ (exists ts g, load_project fs = Loaded (ts, g)) /\
  shown_output env around argv = Some text /\ text_lines text ls /\
  Forall (fun l => is_comment l = true) ls /\ length (declared_targets fs) = 1.
Proof. exact hash_case. Qed.
Print Assumptions C88_hash_refuted.

(** The full statement about the graph is false: names are not escaped. *)
Theorem C88_quote_refuted : exists env around argv s td fs text,
  proper_around around /\ given job_accepts argv PrintDepGraph /\ ~ given job_accepts argv ListTargets /\
  In (Scanned s td fs) (fst (main env job_accepts argv)) /\ scanned fs /\ (exists ts g, load_project fs = Loaded (ts, g)) /\
  shown_output env around argv = Some text /\ dot_edges text = None.
Proof. exact quote_case. Qed.
Print Assumptions C88_quote_refuted.

(** C89, in part: each option that has been given is reported once, with a text such
    that giving it again with that text changes neither the parameters of the job nor what
    the program does. The start time is reported as a date. Missing: lists
    (C89_list_refuted), and the text for the start time, which is not accepted
    (C89_start_time_refuted). *)
Theorem C89_reported_partial : forall around argv j, make_job around argv = JobReady j ->
  (forall o, In o [Help; Version; About; Targets; ConfigFiles] -> ~ given job_accepts argv o) ->
  exists text (ls : list (cmd_option * str)), report argv = Reported text /\
    text = concat (map (fun x => option_name (fst x) ++ lit ": " ++ snd x ++ [newline]) ls) /\
    NoDup (map fst ls) /\ (forall o, In o (map fst ls) <-> given job_accepts argv o) /\
    (forall o s, In (o, s) ls -> o <> StartTime -> forall env around',
       make_job around' (argv ++ [option_name o ++ "="%char :: s]) = make_job around' argv /\
       main env job_accepts (argv ++ [option_name o ++ "="%char :: s]) = main env job_accepts argv) /\
    (forall s, In (StartTime, s) ls -> date_text s (start_time (job_info j))).
Proof. exact report_complete. Qed.
Print Assumptions C89_reported_partial.

(** When the program has been asked for a text about itself, nothing is reported. *)
Theorem C89_silent : forall around argv o, make_job around argv <> JobRejected ->
  In o [Help; Version; About] -> given job_accepts argv o -> report argv = Reported [].
Proof. exact report_silent. Qed.
Print Assumptions C89_silent.

(** The full statement is false: to report a list, a null pointer is used as a string. *)
Theorem C89_list_refuted : exists argv, argv = [lit "--targets=app"] /\
  (forall around, exists j, make_job around argv = JobReady j) /\ report argv = ReportUndefined.
Proof. exact (ex_intro _ _ (conj eq_refl (conj (fun around => ex_intro _ _ eq_refl) eq_refl))). Qed.
Print Assumptions C89_list_refuted.

(** And the start time is not accepted in the way it is reported. *)
Theorem C89_start_time_refuted : exists argv s, argv = [lit "--start-time=10"] /\
  report argv = Reported (lit "--start-time: " ++ s ++ [newline]) /\
  forall around, make_job around (argv ++ [lit "--start-time=" ++ s]) = JobRejected.
Proof. exact (ex_intro _ _ (ex_intro _ (lit "1970-01-01 0:00:10 UTC") (conj eq_refl (conj eq_refl (fun _ => eq_refl))))). Qed.
Print Assumptions C89_start_time_refuted.

(** ** Examples *)

(** The hypotheses of C88_targets_partial *)
Example v_list : exists j s td fs ts g, make_job plain_around list_argv = JobReady j /\ proper_around plain_around /\
  given job_accepts list_argv ListTargets /\
  In (Scanned s td fs) (fst (main (files_env good_files) job_accepts list_argv)) /\
  scanned fs /\ load_project fs = Loaded (ts, g) /\ ~ In newline (path_string s) /\ ~ In newline (path_string td) /\
  declared_targets fs <> [] /\
  (forall k, In k (map fst (declared_targets fs)) -> listable (path_string (lexically_relative k td))).
Proof. exact list_example. Qed.

(** And those of C88_graph_partial *)
Example v_graph : exists j s td fs ts g, make_job plain_around graph_argv = JobReady j /\
  given job_accepts graph_argv PrintDepGraph /\ ~ given job_accepts graph_argv ListTargets /\
  In (Scanned s td fs) (fst (main (files_env good_files) job_accepts graph_argv)) /\ load_project fs = Loaded (ts, g) /\
  ~ In newline (path_string s) /\ ~ In newline (path_string td) /\
  (exists p d, declared_by g p d) /\
  (forall p d, declared_by g p d -> quotable (path_string p) /\ quotable (path_string (dep_name d))).
Proof. exact graph_example. Qed.

Local Open Scope string_scope.
Local Open Scope list_scope.

Example v_graph_text : exists text, shown_output (files_env good_files) plain_around graph_argv = Some text /\
  dot_edges text = Some [(lit "__targets/app", lit "app.cpp"); (lit "app.cpp", lit "m")].
Proof. exact graph_text_example. Qed.

(** C89_reported_partial *)
Example v_report : report [lit "--num-workers= +2x"; lit "--source-dir=a//b"; lit "--dry"; lit "--num-workers=auto"] =
  Reported (lit "--dry-run: " ++ [newline] ++ lit "--num-workers: auto" ++ [newline] ++ lit "--source-dir: a/b" ++ [newline]).
Proof. reflexivity. Qed.

Example v_report_hypotheses :
  (exists j, make_job plain_around [lit "--num-workers= +2x"; lit "--source-dir=a//b"; lit "--dry"; lit "--num-workers=auto"] = JobReady j) /\
  forall o, In o [Help; Version; About; Targets; ConfigFiles] ->
    ~ given job_accepts [lit "--num-workers= +2x"; lit "--source-dir=a//b"; lit "--dry"; lit "--num-workers=auto"] o.
Proof. exact report_example. Qed.

(** C89_silent *)
Example v_silent : make_job plain_around [lit "--dry-run"; lit "--about"] <> JobRejected /\
  given job_accepts [lit "--dry-run"; lit "--about"] About /\ report [lit "--dry-run"] = Reported (lit "--dry-run: " ++ [newline]).
Proof. exact silent_example. Qed.
