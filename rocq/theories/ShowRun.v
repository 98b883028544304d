(** Projects for the examples about what is printed. *)

From Coq Require Import Ascii String Bool NArith ZArith.
From Coq Require Import List.
From Verif Require Import Str Path SMap PathProofs JsonModel DbModel GraphModel DepGraphModel DepGraphSpec FileListModel FileListSpec LoadModel CfgModel.
From Verif Require Import CmdModel CmdSpec ValueModel ValueSpec RecipeModel MainModel MainSpec MainProofs MainExample JobModel JobSpec JobProofs.
From Verif Require Import ShowModel ShowSpec.
Import ListNotations.

(** A source file with one target and some dependencies *)
Definition one_file (name target : string) (deps : list string) : file_list :=
  [(mk_path false [lit name],
    mk_source_file_info (map (fun d => mk_dependency None (mk_path false [lit d]) System []) deps) [] []
      [mk_target_info (mk_path false [lit "__targets"; lit target]) []] None no_compiler Project OnlyIfOutOfDate false)].

Definition files_env (fs : file_list) : environment :=
  mk_environment (fun _ => true) (fun _ => None) (fun _ cmd => Some (cmd, System)) (fun _ c => Some c)
    (fun _ _ _ _ _ => ([], Some fs)) (fun _ _ _ _ _ => ([], None)).

Definition plain_around : surroundings := mk_surroundings 0 (repeat 0%N 32) (lit "host") 4 false.

Lemma plain_proper : proper_around plain_around.
Proof. repeat split; try discriminate; repeat constructor. Qed.

Definition list_argv : list str := map lit ["--config-default"; "--list-targets"]%string.
Definition graph_argv : list str := map lit ["--config-default"; "--print-dep-graph"]%string.

Definition line_break : string := String "010" EmptyString.

Definition good_files : file_list := one_file "app.cpp" "app" ["m"%string].
Definition newline_files : file_list := one_file "app.cpp" ("a" ++ line_break ++ "b") [].
Definition hash_files : file_list := one_file "app.cpp" "#a" [].
Definition quote_files : file_list := one_file "app.cpp" "app" [String "034" EmptyString].

Lemma one_file_scanned name target deps : scanned (one_file name target deps).
Proof.
  split; [repeat constructor|]. intros p info [H | []]. injection H as <- <-. split; [reflexivity|]. cbn.
  split; [|split; [intros d []|intros t d [<- | []] []]].
  intros d I. apply in_map_iff in I. destruct I as (x & <- & _). reflexivity.
Qed.

(** The lines of a text *)
Fixpoint lines_of (s cur : str) : list str :=
  match s with
  | [] => []
  | c :: s' => if Ascii.eqb c newline then rev cur :: lines_of s' [] else lines_of s' (c :: cur)
  end.

Definition shown_lines (fs : file_list) (argv : list str) : list str :=
  match shown_output (files_env fs) plain_around argv with Some text => lines_of text [] | None => [] end.

Definition has_newline (s : str) : bool := existsb (Ascii.eqb newline) s.

Lemma has_newline_false s : has_newline s = false -> ~ In newline s.
Proof.
  intros H I. apply not_true_iff_false in H. apply H. apply existsb_exists. exists newline. split; [exact I|apply Ascii.eqb_refl].
Qed.

Lemma lines_test text ls : text = concat (map (fun l => l ++ [newline]) ls) -> existsb has_newline ls = false -> text_lines text ls.
Proof.
  intros E H. split; [exact E|]. apply Forall_forall. intros l I. apply has_newline_false.
  destruct (has_newline l) eqn:Q; [|reflexivity]. apply not_true_iff_false in H. destruct H. apply existsb_exists. now exists l.
Qed.

Definition scanned_event_of (fs : file_list) : event := Scanned (mk_path false [dot]) default_target_dir fs.

Theorem newline_case : exists env around argv s td fs text ls,
  proper_around around /\ given job_accepts argv ListTargets /\ In (Scanned s td fs) (fst (main env job_accepts argv)) /\
  scanned fs /\ (exists ts g, load_project fs = Loaded (ts, g)) /\
  shown_output env around argv = Some text /\ text_lines text ls /\
  length (filter (fun l => negb (is_comment l)) ls) = 2 /\ length (declared_targets fs) = 1 /\
  forall l k, In l ls -> In k (map fst (declared_targets fs)) -> l <> path_string (lexically_relative k td).
Proof.
  exists (files_env newline_files), plain_around, list_argv, (mk_path false [dot]), default_target_dir, newline_files. eexists.
  exists (shown_lines newline_files list_argv).
  split; [exact plain_proper|]. split; [apply given_test; vm_compute; reflexivity|]. split; [vm_compute; tauto|].
  split; [apply one_file_scanned|]. split; [eexists; eexists; vm_compute; reflexivity|]. split; [vm_compute; reflexivity|].
  split; [apply lines_test; vm_compute; reflexivity|]. split; [vm_compute; reflexivity|]. split; [vm_compute; reflexivity|].
  intros l k I [<- | []]. vm_compute in I. repeat (destruct I as [<- | I]; [vm_compute; discriminate|]). destruct I.
Qed.

Theorem hash_case : exists env around argv s td fs text ls,
  proper_around around /\ given job_accepts argv ListTargets /\ In (Scanned s td fs) (fst (main env job_accepts argv)) /\
  scanned fs /\ (exists ts g, load_project fs = Loaded (ts, g)) /\
  shown_output env around argv = Some text /\ text_lines text ls /\
  Forall (fun l => is_comment l = true) ls /\ length (declared_targets fs) = 1.
Proof.
  exists (files_env hash_files), plain_around, list_argv, (mk_path false [dot]), default_target_dir, hash_files. eexists.
  exists (shown_lines hash_files list_argv).
  split; [exact plain_proper|]. split; [apply given_test; vm_compute; reflexivity|]. split; [vm_compute; tauto|].
  split; [apply one_file_scanned|]. split; [eexists; eexists; vm_compute; reflexivity|]. split; [vm_compute; reflexivity|].
  split; [apply lines_test; vm_compute; reflexivity|]. split; [vm_compute; repeat constructor|vm_compute; reflexivity].
Qed.

Theorem quote_case : exists env around argv s td fs text,
  proper_around around /\ given job_accepts argv PrintDepGraph /\ ~ given job_accepts argv ListTargets /\
  In (Scanned s td fs) (fst (main env job_accepts argv)) /\ scanned fs /\ (exists ts g, load_project fs = Loaded (ts, g)) /\
  shown_output env around argv = Some text /\ dot_edges text = None.
Proof.
  exists (files_env quote_files), plain_around, graph_argv, (mk_path false [dot]), default_target_dir, quote_files. eexists.
  split; [exact plain_proper|]. split; [apply given_test; vm_compute; reflexivity|]. split; [apply not_given_test; vm_compute; reflexivity|].
  split; [vm_compute; tauto|].
  split; [apply one_file_scanned|]. split; [eexists; eexists; vm_compute; reflexivity|]. split; vm_compute; reflexivity.
Qed.

Theorem list_example : exists j s td fs ts g, make_job plain_around list_argv = JobReady j /\ proper_around plain_around /\
  given job_accepts list_argv ListTargets /\
  In (Scanned s td fs) (fst (main (files_env good_files) job_accepts list_argv)) /\
  scanned fs /\ load_project fs = Loaded (ts, g) /\ ~ In newline (path_string s) /\ ~ In newline (path_string td) /\
  declared_targets fs <> [] /\
  (forall k, In k (map fst (declared_targets fs)) -> listable (path_string (lexically_relative k td))).
Proof.
  eexists. exists (mk_path false [dot]), default_target_dir, good_files. eexists. eexists.
  split; [vm_compute; reflexivity|]. split; [exact plain_proper|]. split; [apply given_test; vm_compute; reflexivity|].
  split; [vm_compute; tauto|]. split; [apply one_file_scanned|]. split; [vm_compute; reflexivity|].
  split; [apply has_newline_false; reflexivity|]. split; [apply has_newline_false; reflexivity|]. split; [discriminate|].
  intros k [<- | []]. split; [apply has_newline_false; reflexivity|reflexivity].
Qed.

Definition good_graph : file_list := match load_project good_files with Loaded (_, g) => g | Failed _ => [] end.

Definition plain_text_test (s : str) : bool := forallb (fun c => negb (Ascii.eqb c "034") && negb (Ascii.eqb c "\")) s.

Lemma plain_quotable s : plain_text_test s = true -> quotable s.
Proof.
  unfold plain_text_test. rewrite forallb_forall. intro H. split; intro I; specialize (H _ I); discriminate H.
Qed.

Lemma quotable_test g :
  forallb (fun e => plain_text_test (path_string (fst e)) &&
    forallb (fun d => plain_text_test (path_string (dep_name d))) (use_deps (snd e) ++ build_deps (snd e))) g = true ->
  forall p d, declared_by g p d -> quotable (path_string p) /\ quotable (path_string (dep_name d)).
Proof.
  rewrite forallb_forall. intros H p d (info & I & D). specialize (H _ I). cbn [fst snd] in H. apply andb_prop in H. destruct H as [H1 H2].
  split; [now apply plain_quotable|]. rewrite forallb_forall in H2. apply plain_quotable, H2. now apply in_or_app.
Qed.

Theorem graph_example : exists j s td fs ts g, make_job plain_around graph_argv = JobReady j /\
  given job_accepts graph_argv PrintDepGraph /\ ~ given job_accepts graph_argv ListTargets /\
  In (Scanned s td fs) (fst (main (files_env good_files) job_accepts graph_argv)) /\ load_project fs = Loaded (ts, g) /\
  ~ In newline (path_string s) /\ ~ In newline (path_string td) /\
  (exists p d, declared_by g p d) /\
  (forall p d, declared_by g p d -> quotable (path_string p) /\ quotable (path_string (dep_name d))).
Proof.
  eexists. exists (mk_path false [dot]), default_target_dir, good_files. eexists. exists good_graph.
  split; [vm_compute; reflexivity|]. split; [apply given_test; vm_compute; reflexivity|].
  split; [apply not_given_test; vm_compute; reflexivity|]. split; [vm_compute; tauto|]. split; [vm_compute; reflexivity|].
  split; [apply has_newline_false; reflexivity|]. split; [apply has_newline_false; reflexivity|].
  split.
  - eexists. eexists. eexists. split; [vm_compute; left; reflexivity|]. right. left. reflexivity.
  - apply quotable_test. vm_compute. reflexivity.
Qed.

Theorem graph_text_example : exists text, shown_output (files_env good_files) plain_around graph_argv = Some text /\
  dot_edges text = Some [(lit "__targets/app", lit "app.cpp"); (lit "app.cpp", lit "m")].
Proof. eexists. split; vm_compute; reflexivity. Qed.

Theorem report_example :
  (exists j, make_job plain_around [lit "--num-workers= +2x"; lit "--source-dir=a//b"; lit "--dry"; lit "--num-workers=auto"] = JobReady j) /\
  forall o, In o [Help; Version; About; Targets; ConfigFiles] ->
    ~ given job_accepts [lit "--num-workers= +2x"; lit "--source-dir=a//b"; lit "--dry"; lit "--num-workers=auto"] o.
Proof.
  split; [eexists; vm_compute; reflexivity|]. intros o I. apply not_given_test.
  cbn in I. repeat (destruct I as [<- | I]; [vm_compute; reflexivity|]). destruct I.
Qed.

Theorem silent_example : make_job plain_around [lit "--dry-run"; lit "--about"] <> JobRejected /\
  given job_accepts [lit "--dry-run"; lit "--about"] About /\ report [lit "--dry-run"] = Reported (lit "--dry-run: " ++ [newline]).
Proof.
  split; [vm_compute; discriminate|]. split; [|vm_compute; reflexivity]. apply given_test. vm_compute. reflexivity.
Qed.
