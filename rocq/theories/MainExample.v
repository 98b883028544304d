(** A small project, and what the program does with it. *)

From Coq Require Import Ascii String Bool ZArith.
From Coq Require Import List.
From Verif Require Import Str Path SMap PathProofs JsonModel DbModel GraphModel DepGraphModel DepGraphSpec FileListModel FileListSpec.
From Verif Require Import LoadModel CfgModel FileListProofs SchedModel SchedSpec TaskListModel TaskListSpec.
From Verif Require Import CmdModel CmdSpec CmdProofs MainModel MainSpec MainProofs.
Import ListNotations.

Definition tiny_info (ts : list target_info) : source_file_info :=
  mk_source_file_info [] [] [] ts None no_compiler Project OnlyIfOutOfDate false.

(** The source directory, and a source file, each with one target *)
Definition tiny_files (td : path) : file_list :=
  [(mk_path false [dot], tiny_info [mk_target_info (append td (mk_path false [dot])) []]);
   (mk_path false [lit "app.cpp"], tiny_info [mk_target_info (append td (mk_path false [lit "app"])) []])].

(** One worker; [process] goes first whenever it can. *)
Fixpoint first_come (reads : nat -> list nat) (outcome : task_outcome) (n : nat) (s : state) : list choice :=
  match n with
  | 0 => []
  | S n' =>
      match step reads (ByProcess 0) s with
      | Some (_, s') => ByProcess 0 :: first_come reads outcome n' s'
      | None =>
          match step reads (ByWorker 0 outcome) s with
          | Some (_, s') => ByWorker 0 outcome :: first_come reads outcome n' s'
          | None => []
          end
      end
  end.

Definition one_worker : list worker := [WChecking].

Definition one_run (n : nat) (outcome : task_outcome) (g : file_list) (rs : list task_result) (tasks : list nat) : option (list label * state) :=
  run (task_reads g) (first_come (task_reads g) outcome n (init rs tasks one_worker)) (init rs tasks one_worker).

Definition tiny_process (n : nat) (outcome : task_outcome) (g : file_list) (rs : list task_result) (tasks : list nat) (dryrun force : bool)
  : list label * option nat :=
  match one_run n outcome g rs tasks with
  | Some (tr, s) => (tr, match ph s with Returned n => Some n | _ => None end)
  | None => ([], None)
  end.

(** There are no recipes except those in the list. *)
Definition tiny_env (td : path) (outcome : task_outcome) : environment :=
  mk_environment (fun _ => true) (fun _ => None) (fun _ cmd => Some (cmd, System)) (fun _ c => Some c)
    (fun _ _ _ _ _ => ([], Some (tiny_files td))) (tiny_process 60 outcome).

Definition any_text (o : cmd_option) (s : str) : bool := true.

Definition tiny_graph (td : path) : file_list :=
  match load_project (tiny_files td) with Loaded (_, g) => g | Failed _ => [] end.

(** A project is treated properly if both directory and project have been. *)
Definition proper_runs (n : nat) (outcome : task_outcome) (g : file_list) (l : option (list task_result * list nat)) : bool :=
  match l with
  | None => true
  | Some (rs, tasks) =>
      match one_run n outcome g rs tasks with
      | Some (_, s) => match ph s with Returned _ | Threw _ => true | _ => false end
      | None => false
      end
  end.

Lemma one_run_run : forall n outcome g rs tasks, exists cs,
  run (task_reads g) cs (init rs tasks one_worker) = one_run n outcome g rs tasks.
Proof. intros. eexists. reflexivity. Qed.

Lemma proper_runs_execution : forall n outcome g l rs tasks d f, proper_runs n outcome g l = true -> l = Some (rs, tasks) ->
  execution g rs tasks (fst (tiny_process n outcome g rs tasks d f)) (snd (tiny_process n outcome g rs tasks d f)).
Proof.
  intros n outcome g l rs tasks d f P ->. unfold proper_runs in P. unfold execution, tiny_process.
  destruct (one_run_run n outcome g rs tasks) as (cs & R).
  destruct (one_run n outcome g rs tasks) as [[tr s]|]; [|discriminate].
  exists one_worker, cs, s.
  split; [split; [discriminate|intros w [<- | []]; auto]|]. split; [exact R|]. cbn [snd].
  destruct (ph s) eqn:Ph; try discriminate; [reflexivity|eexists; reflexivity].
Qed.

Lemma tiny_scanned : forall td, scanned (tiny_files td).
Proof.
  intros td. split.
  - repeat constructor.
  - intros p info [H | [H | []]]; injection H as <- <-; (split; [reflexivity|]); cbn;
      (split; [intros d []|]); (split; [intros d []|]); intros t d [<- | []] [].
Qed.

(** What has to be computed in order to know that a run is a genuine one *)
Definition tiny_ok (td : path) (outcome : task_outcome) : bool :=
  match load_project (tiny_files td) with
  | Failed _ => false
  | Loaded (ts, g) =>
      forallb (fun p => negb (path_eqb p empty_path)) (map fst g) &&
      proper_runs 60 outcome g (make_task_list g) &&
      forallb (fun e => proper_runs 60 outcome g (make_target_task_list g (t_source (snd e)))) ts
  end.

Theorem tiny_genuine : forall td outcome accepts argv, tiny_ok td outcome = true ->
  genuine (tiny_env td outcome) (fst (main (tiny_env td outcome) accepts argv)).
Proof.
  intros td outcome accepts argv H. unfold tiny_ok in H.
  destruct (load_project (tiny_files td)) as [[ts g]|] eqn:L; [|discriminate].
  apply andb_prop in H. destruct H as [H H3]. apply andb_prop in H. destruct H as [H1 H2].
  assert (Sc : scanned (tiny_files td)) by apply tiny_scanned.
  assert (Files : forall s t fs, In (Scanned s t fs) (fst (main (tiny_env td outcome) accepts argv)) -> fs = tiny_files td)
    by (intros s t fs I; exact (scanned_result _ _ _ _ _ (tiny_files td) fs I (fun _ _ _ _ _ => eq_refl))).
  constructor.
  - intros s t fs I. rewrite (Files s t fs I). split; [exact Sc|]. intros ts' g' L'. rewrite L in L'. injection L' as <- <-.
    intros (k & K). unfold numbered in K. apply nth_error_In in K. rewrite forallb_forall in H1. specialize (H1 _ K).
    cbn in H1. discriminate.
  - intros g' rs tasks d f tr I.
    destruct (processed_event _ _ _ _ _ _ _ _ _ I) as (a & fs & ts' & _ & J & L' & _ & _ & -> & Case & _).
    rewrite (Files _ _ _ J), L in L'. injection L' as <- <-.
    destruct Case as [[_ T] | (names & name & t & _ & _ & F & T)].
    + exact (proper_runs_execution 60 _ _ _ _ _ _ _ H2 T).
    + apply map_find_in in F; [|exact (proj1 (loaded_targets _ _ _ Sc L))].
      rewrite forallb_forall in H3. exact (proper_runs_execution 60 _ _ _ _ _ _ _ (H3 _ F) T).
Qed.

(** Tests for the hypotheses of theorems *)
Definition parsed (accepts : cmd_option -> str -> bool) (argv : list str) (test : arguments -> bool) : bool :=
  match command_line (option_table accepts) argv with Some a => test a | None => false end.

Lemma given_test : forall accepts argv o, parsed accepts argv (fun a => has_option a o) = true -> given accepts argv o.
Proof.
  intros accepts argv o H. unfold parsed in H. destruct (command_line (option_table accepts) argv) as [a|] eqn:E; [|discriminate].
  now apply (has_option_iff accepts argv a o E).
Qed.

Lemma not_given_test : forall accepts argv o, parsed accepts argv (fun a => negb (has_option a o)) = true -> ~ given accepts argv o.
Proof.
  intros accepts argv o H. unfold parsed in H. destruct (command_line (option_table accepts) argv) as [a|] eqn:E; [|discriminate].
  apply (has_option_not accepts argv a o E). now apply negb_true_iff.
Qed.

Lemma valid_test : forall accepts argv, parsed accepts argv (fun _ => true) = true -> valid accepts argv.
Proof.
  intros accepts argv H. unfold parsed in H. apply accepted_valid.
  destruct (command_line (option_table accepts) argv); [discriminate|discriminate].
Qed.

Lemma no_query_test : forall accepts argv,
  parsed accepts argv (fun a => forallb (fun o => negb (has_option a o)) implemented_queries) = true -> no_query accepts argv.
Proof.
  intros accepts argv H o Ho. apply not_given_test. unfold parsed in *.
  destruct (command_line (option_table accepts) argv); [|discriminate]. rewrite forallb_forall in H. now apply H.
Qed.

Lemma value_test : forall accepts argv o v,
  match command_line (option_table accepts) argv with Some a => option_given a o | None => None end = Some v ->
  has_value accepts argv o v.
Proof.
  intros accepts argv o v H. destruct (command_line (option_table accepts) argv) as [a|] eqn:E; [|discriminate].
  now apply (given_value accepts argv a E).
Qed.

(** Tests for conclusions *)
Definition starts_something (dry : bool) (e : event) : bool :=
  match e with
  | Processed _ _ _ d _ tr => Bool.eqb d dry && existsb (fun l => match l with Start _ => true | _ => false end) tr
  | _ => false
  end.

Lemma starts_test : forall dry evs, existsb (starts_something dry) evs = true ->
  exists g rs tasks force tr v, In (Processed g rs tasks dry force tr) evs /\ In (Start v) tr.
Proof.
  intros dry evs H. apply existsb_exists in H. destruct H as (e & I & H). destruct e as [| | | |g rs tasks d force tr]; try discriminate.
  cbn in H. apply andb_prop in H. destruct H as [D H]. apply Bool.eqb_prop in D. subst d.
  apply existsb_exists in H. destruct H as (l & J & H). destruct l as [| v |]; try discriminate.
  exists g, rs, tasks, force, tr, v. split; assumption.
Qed.

Definition is_shown (e : event) : bool := match e with Shown _ _ => true | _ => false end.

Lemma shown_test : forall evs, existsb is_shown evs = false -> forall f w, ~ In (Shown f w) evs.
Proof.
  intros evs H f w I. apply Bool.not_true_iff_false in H. apply H. apply existsb_exists. exists (Shown f w). split; [exact I|reflexivity].
Qed.

Definition default_target_dir : path := mk_path false [lit "__targets"].

Definition is_processed (e : event) : bool := match e with Processed _ _ _ _ _ _ => true | _ => false end.

Lemma build_test : forall evs, existsb is_processed evs = false -> forall e, In e evs -> ~ is_build e.
Proof.
  intros evs H e I B. apply Bool.not_true_iff_false in H. apply H. apply existsb_exists. exists e. split; [exact I|].
  destruct e; try destruct B. reflexivity.
Qed.

Theorem directory_not_accepted :
  exists env accepts argv names name, genuine env (fst (main env accepts (lit "--list-targets" :: argv))) /\
  In (Shown None (TargetNames names)) (fst (main env accepts (lit "--list-targets" :: argv))) /\ In name names /\
  let argv' := (lit "--targets=" ++ path_string name) :: argv in
  genuine env (fst (main env accepts argv')) /\ valid accepts argv' /\ has_value accepts argv' Targets (PathsValue [name]) /\
  snd (main env accepts argv') <> 0%Z /\ forall e, In e (fst (main env accepts argv')) -> ~ is_build e.
Proof.
  exists (tiny_env default_target_dir Succeeds), any_text, [lit "--config-default"], [mk_path false [dot]; mk_path false [lit "app"]], (mk_path false [dot]).
  split; [apply tiny_genuine; vm_compute; reflexivity|]. split; [vm_compute; tauto|]. split; [now left|]. cbv zeta.
  split; [apply tiny_genuine; vm_compute; reflexivity|]. split; [apply valid_test; vm_compute; reflexivity|].
  split; [apply value_test; vm_compute; reflexivity|]. split; [vm_compute; discriminate|].
  apply build_test. vm_compute. reflexivity.
Qed.

Definition dot_build : path := mk_path false [dot; lit "build"].

Theorem dot_not_accepted : exists env accepts names, let argv := [lit "--target-dir=./build"; lit "--config-default"] in
  In (Shown None (TargetNames names)) (fst (main env accepts (lit "--list-targets" :: argv))) /\ names <> [] /\
  forall name, In name names \/ name = mk_path false [lit "app"] ->
    let argv' := (lit "--targets=" ++ path_string name) :: argv in
    genuine env (fst (main env accepts argv')) /\ valid accepts argv' /\ has_value accepts argv' Targets (PathsValue [name]) /\
    snd (main env accepts argv') <> 0%Z /\ forall e, In e (fst (main env accepts argv')) -> ~ is_build e.
Proof.
  exists (tiny_env dot_build Succeeds), any_text,
    [mk_path false [dotdot; lit "build"; []]; mk_path false [dotdot; lit "build"; lit "app"]]. cbv zeta.
  split; [vm_compute; tauto|]. split; [discriminate|].
  intros name [[<- | [<- | []]] | ->];
    (split; [apply tiny_genuine; vm_compute; reflexivity|]); (split; [apply valid_test; vm_compute; reflexivity|]);
    (split; [apply value_test; vm_compute; reflexivity|]); (split; [vm_compute; discriminate|]);
    apply build_test; vm_compute; reflexivity.
Qed.

Theorem other_target_directory : exists env accepts argv s t fs, valid accepts argv /\
  ~ given accepts argv TargetDir /\ In (Scanned s t fs) (fst (main env accepts argv)) /\ t <> mk_path false [lit "__targets"] /\
  t <> append s (mk_path false [lit "__targets"]).
Proof.
  set (t := mk_path false [lit "foo_targets"]).
  exists (tiny_env t Succeeds), any_text, [lit "--source-dir=foo"; lit "--config-default"], (mk_path false [lit "foo"]), t, (tiny_files t).
  split; [apply valid_test; vm_compute; reflexivity|]. split; [apply not_given_test; vm_compute; reflexivity|].
  split; [vm_compute; tauto|]. split; vm_compute; discriminate.
Qed.
