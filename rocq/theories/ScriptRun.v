(** Projects and runs for the examples about the output of a dry run. *)

From Coq Require Import Ascii String Bool NArith ZArith Lia.
From Coq Require Import List Permutation.
From Verif Require Import Str Path SMap PathProofs JsonModel DbModel GraphModel DepGraphModel DepGraphSpec FileListModel FileListSpec LoadModel CfgModel.
From Verif Require Import ValueModel ValueProofs BuildModel BuildSpec LogModel LogSpec RecipeModel JobModel JobSpec JobProofs ShowModel ShowRun.
From Verif Require Import FileListProps SchedModel SchedSpec SchedProps TaskListModel TaskListSpec WriteModel WriteSpec.
From Verif Require BuildProofs BuildProps FailRun ShowProofs.
From Verif Require Import ScriptModel ScriptSpec.
Import ListNotations.

(** * A text for JSON values, without any white space *)

Definition text_char (c : ascii) : str :=
  if Ascii.eqb c "034" then ["\"; "034"]%char else if Ascii.eqb c "\" then ["\"; "\"]%char else [c].

Definition string_text (s : str) : str := "034"%char :: concat (map text_char s) ++ ["034"%char].

Fixpoint commas (l : list str) : str :=
  match l with
  | [] => []
  | [x] => x
  | x :: l' => x ++ ","%char :: commas l'
  end.

Fixpoint json_text (j : json) : str :=
  match j with
  | JObject m => "{"%char :: commas (map (fun kv => string_text (fst kv) ++ ":"%char :: json_text (snd kv)) m) ++ ["}"%char]
  | JArray l => "["%char :: commas (map json_text l) ++ ["]"%char]
  | JString s => string_text s
  | JInteger z => decimal z
  | JReal _ => lit "0.5"
  | JTrue => lit "true"
  | JFalse => lit "false"
  | JNull => lit "null"
  end.

(** The number of the task comes first. *)
Definition options_text (j : json) : str :=
  match j with
  | JObject m =>
      match obj_get (lit "task_id") m with
      | Some (JInteger z) => decimal z ++ newline :: json_text j
      | _ => json_text j
      end
  | _ => json_text j
  end.

Lemma before_newline a b x y : ~ In newline a -> ~ In newline b -> a ++ newline :: x = b ++ newline :: y -> a = b.
Proof.
  revert b. induction a as [|c a IH]; intros [|d b] A B E; cbn [app] in E.
  - reflexivity.
  - injection E as <- _. destruct B. now left.
  - injection E as -> _. destruct A. now left.
  - injection E as <- E. f_equal. apply IH; [intro I; apply A; now right|intro I; apply B; now right|exact E].
Qed.

Lemma options_text_id : shows_task_id options_text.
Proof.
  intros m m' a b E A B. unfold options_text in E. rewrite A, B in E.
  apply before_newline in E; [|apply ShowProofs.decimal_line|apply ShowProofs.decimal_line].
  destruct (decimal_natural (Z.of_nat a) ltac:(lia)) as (_ & Va & _). destruct (decimal_natural (Z.of_nat b) ltac:(lia)) as (_ & Vb & _).
  rewrite E in Va. rewrite Vb in Va. apply Z2N.inj in Va; lia.
Qed.

(** * A schedule: two workers that write in turns *)

Section Turns.
  Variable reads : nat -> list nat.
  Variable level : log_level.
  Variable info : nat -> task_info.
  Variable result : nat -> run_result.

  Fixpoint in_turns (n : nat) (tasks : list nat) (F : state * log_state) : list full_choice :=
    match n with
    | 0 => []
    | S n' =>
        let ending i := match nth_error (workers (fst F)) i with Some (WRunning v) => task_end (result v) | _ => Succeeds end in
        let candidates := map ByLog tasks ++
          [ByPool (ByProcess 0); ByPool (ByProcess 1); ByPool (ByWorker 0 (ending 0)); ByPool (ByWorker 1 (ending 1))] in
        let enabled c := match full_step reads level info result c F with Some _ => true | None => false end in
        match find enabled candidates with
        | None => []
        | Some c => match full_step reads level info result c F with
                    | Some (_, F') => c :: in_turns n' tasks F'
                    | None => []
                    end
        end
    end.
End Turns.

Definition script_argv : list str :=
  map lit ["--dry-run"; "--force-rebuild"; "--log-level=compilation_command"]%string.

Definition no_job : job := mk_job (mk_build_info 0 [] (mk_path false []) (mk_path false []) []) 1 LevelSourceFileInfo PlainText.

Definition script_job : job := match make_job plain_around script_argv with JobReady j => j | _ => no_job end.

Definition no_task : task_info := mk_task_info (mk_command [] []) 0 [] 0 0.

Definition script_times (v : nat) : Z * Z := (Z.of_nat v, Z.of_nat (S v)).

Definition script_info (g : file_list) (v : nat) : task_info :=
  match logged options_text script_job script_times g v with Some t => t | None => no_task end.

(** With --force-rebuild, every task is needed. *)
Definition dry_result (v : nat) : run_result := invoke_if_necessary true (Some true) None.

Definition dry_choices (g : file_list) (start : state * log_state) (tasks : list nat) : list full_choice :=
  in_turns (task_reads g) (job_level script_job) (script_info g) dry_result 3000 tasks start.

Definition dry_output (g : file_list) (rs : list task_result) (tasks : list nat) : option (phase * str) :=
  let start := full_init rs tasks two_workers in
  match full_run (task_reads g) (job_level script_job) (script_info g) dry_result (dry_choices g start tasks) start with
  | Some (_, F) => Some (ph (fst F), banner script_job ++ out_text (snd F))
  | None => None
  end.

Lemma dry_output_run g rs tasks p cmds :
  option_map (fun x => (fst x, script_commands (snd x))) (dry_output g rs tasks) = Some (p, cmds) ->
  exists tr F, full_run (task_reads g) (job_level script_job) (script_info g) (fun v => invoke_if_necessary true (Some true) None)
      (dry_choices g (full_init rs tasks two_workers) tasks) (full_init rs tasks two_workers) = Some (tr, F) /\
    ph (fst F) = p /\ script_commands (banner script_job ++ out_text (snd F)) = cmds.
Proof.
  unfold dry_output, dry_result. cbv zeta.
  destruct (full_run _ _ _ _ _ _) as [[tr F]|] eqn:E; [|discriminate]. cbn [option_map fst snd]. intro H. exists tr, F.
  assert (ph (fst F) = p) by congruence. assert (script_commands (banner script_job ++ out_text (snd F)) = cmds) by congruence.
  split; [reflexivity|]. now split.
Qed.

Lemma script_job_ready : make_job plain_around script_argv = JobReady script_job.
Proof. vm_compute. reflexivity. Qed.

Lemma script_level : job_level script_job = LevelCompilationCommand.
Proof. vm_compute. reflexivity. Qed.

Lemma script_source_dir : no_newline (path_string (bi_source_dir (job_info script_job))).
Proof. apply has_newline_false. vm_compute. reflexivity. Qed.

Lemma script_target_dir : no_newline (path_string (bi_target_dir (job_info script_job))).
Proof. apply has_newline_false. vm_compute. reflexivity. Qed.

(** What is said about an argument or a name can be computed. *)
Definition has_char (c : ascii) (s : str) : bool := existsb (Ascii.eqb c) s.

Lemma has_char_false c s : has_char c s = false -> ~ In c s.
Proof.
  intros H I. apply not_true_iff_false in H. apply H. apply existsb_exists. exists c. split; [exact I|apply Ascii.eqb_refl].
Qed.

Definition quotable_test (w : str) : bool := negb (has_char "\" w) && negb (has_char "'" w) && negb (has_char "000" w).

Lemma quotable_test_true w : quotable_test w = true -> quotable_word w.
Proof.
  unfold quotable_test. intro H. apply andb_prop in H. destruct H as [H C]. apply andb_prop in H. destruct H as [A B].
  rewrite negb_true_iff in A, B, C. repeat split; now apply has_char_false.
Qed.

Definition one_line_test (w : str) : bool := negb (has_char "010" w) && negb (has_char "000" w).

Lemma one_line_names g : forallb (fun x => one_line_test (path_string (fst x))) g = true -> forall p, known g p -> one_line (path_string p).
Proof.
  intros H p [v Hv]. unfold numbered in Hv. apply nth_error_In in Hv. apply in_map_iff in Hv. destruct Hv as ([q i] & <- & I).
  rewrite forallb_forall in H. specialize (H _ I). unfold one_line_test in H. apply andb_prop in H. destruct H as [A B].
  rewrite negb_true_iff in A, B. split; now apply has_char_false.
Qed.

Definition commands_test (g : file_list) (tasks : list nat) : bool :=
  forallb (fun v => match task_command options_text script_job g v with Some c => forallb quotable_test (command_words c) | None => false end) tasks.

Lemma commands_quotable g tasks : commands_test g tasks = true ->
  forall v c, In v tasks -> task_command options_text script_job g v = Some c -> Forall quotable_word (command_words c).
Proof.
  intros H v c I E. unfold commands_test in H. rewrite forallb_forall in H. specialize (H v I). cbn beta in H. rewrite E in H.
  apply Forall_forall. intros w Iw. rewrite forallb_forall in H. apply quotable_test_true. now apply H.
Qed.

Definition logged_test (g : file_list) (tasks : list nat) : bool :=
  forallb (fun v => match logged options_text script_job script_times g v with Some _ => true | None => false end) tasks.

Lemma tasks_logged g tasks : logged_test g tasks = true ->
  forall v, In v tasks -> logged options_text script_job script_times g v = Some (script_info g v).
Proof.
  intros H v I. unfold logged_test in H. rewrite forallb_forall in H. specialize (H v I). cbn beta in H. unfold script_info.
  destruct (logged options_text script_job script_times g v); [reflexivity|discriminate].
Qed.

Lemma dry_run_of g rs tasks n cmds : task_list g rs tasks -> logged_test g tasks = true ->
  option_map (fun x => (fst x, script_commands (snd x))) (dry_output g rs tasks) = Some (Returned n, cmds) ->
  exists out, dry_run options_text script_job g tasks out /\ script_commands out = cmds.
Proof.
  intros T L H. destruct (dry_output_run g rs tasks _ _ H) as (tr & F & R & P & E).
  exists (banner script_job ++ out_text (snd F)). split; [|exact E].
  exists rs, two_workers, script_times, (script_info g), (fun _ => Some true), (fun _ => None). do 3 eexists. exists n.
  split; [exact T|]. split; [exact two_workers_idle|]. split; [exact (tasks_logged g tasks L)|]. split; [exact R|]. split; [exact P|reflexivity].
Qed.

(** * A project with one file *)

Definition one_graph (name : string) : file_list :=
  match load_project (one_file name "app" []) with Loaded (_, g) => g | Failed _ => [] end.

Definition one_setup (name : string) : list task_result * list nat :=
  match make_task_list (one_graph name) with Some x => x | None => ([], []) end.

(** The name is not that of the target, and has no special components. *)
Definition rm_name : string := "a" ++ line_break ++ "rm notes.txt #.cpp".
Definition quote_name : string := "a" ++ String "034" "b.cpp".

Lemma one_loaded name : name = rm_name \/ name = quote_name -> loaded (one_file name "app" []) (one_graph name).
Proof.
  intro N. split; [apply one_file_scanned|]. split.
  - destruct N as [-> | ->]; eexists; vm_compute; reflexivity.
  - intros [k Hk]. unfold numbered in Hk. destruct N as [-> | ->]; vm_compute in Hk;
      do 3 (destruct k as [|k]; [discriminate|]); destruct k; discriminate.
Qed.

Lemma one_names name : name = rm_name \/ name = quote_name -> proper_names (one_file name "app" []) (one_graph name).
Proof.
  intro N. split.
  - intros p [k Hk]. unfold numbered in Hk. destruct N as [-> | ->]; vm_compute in Hk;
      do 2 (destruct k as [|k]; [inversion Hk; vm_compute; reflexivity|]); destruct k; discriminate.
  - intros p info t [H | []] Ht. injection H as <- <-. cbn in Ht. destruct Ht as [<- | []].
    split; [vm_compute; reflexivity|]. right. intro X. destruct N as [-> | ->]; vm_compute in X; intuition discriminate.
Qed.

Lemma one_task_list name : name = rm_name \/ name = quote_name ->
  task_list (one_graph name) (fst (one_setup name)) (snd (one_setup name)).
Proof. intro N. left. destruct N as [-> | ->]; vm_compute; reflexivity. Qed.

Definition one_command (name : string) : list str :=
  match task_command options_text script_job (one_graph name) 1 with Some c => command_words c | None => [] end.

Lemma rm_script : option_map (fun x => (fst x, script_commands (snd x)))
    (dry_output (one_graph rm_name) (fst (one_setup rm_name)) (snd (one_setup rm_name))) =
  Some (Returned 1, Some [one_command rm_name; [lit "rm"; lit "notes.txt"]]).
Proof. vm_compute. reflexivity. Qed.

(** The second backslash is part of the argument. *)
Definition doubled (s : str) : str := concat (map (fun c => if Ascii.eqb c "\" then ["\"; "\"]%char else [c]) s).

Lemma quote_script : option_map (fun x => (fst x, script_commands (snd x)))
    (dry_output (one_graph quote_name) (fst (one_setup quote_name)) (snd (one_setup quote_name))) =
  Some (Returned 1, Some [map doubled (one_command quote_name)]).
Proof. vm_compute. reflexivity. Qed.

Lemma link_script : option_map (fun x => (fst x, script_commands (snd x)))
    (dry_output linked_graph (fst FailRun.link_setup) (snd FailRun.link_setup)) =
  Some (Returned 3, Some (map (fun v => match task_command options_text script_job linked_graph v with Some c => command_words c | None => [] end) [3; 1; 6])).
Proof. vm_compute. reflexivity. Qed.

Theorem rm_case : exists dump around argv j fs g tasks out,
  shows_task_id dump /\ proper_around around /\ make_job around argv = JobReady j /\ job_level j = LevelCompilationCommand /\
  no_newline (path_string (bi_source_dir (job_info j))) /\ no_newline (path_string (bi_target_dir (job_info j))) /\
  loaded fs g /\ proper_names fs g /\ dry_run dump j g tasks out /\
  (forall v c, In v tasks -> task_command dump j g v = Some c -> Forall quotable_word (command_words c)) /\
  exists c, option_map command_words (task_command dump j g 1) = Some c /\ tasks = [1] /\
  script_commands out = Some [c; [lit "rm"; lit "notes.txt"]].
Proof.
  assert (rm_name = rm_name \/ rm_name = quote_name) as N by now left.
  destruct (dry_run_of _ _ _ _ _ (one_task_list _ N) ltac:(vm_compute; reflexivity) rm_script) as (out & R & E).
  exists options_text, plain_around, script_argv, script_job, (one_file rm_name "app" []), (one_graph rm_name), (snd (one_setup rm_name)), out.
  split; [exact options_text_id|]. split; [exact plain_proper|]. split; [exact script_job_ready|]. split; [exact script_level|].
  split; [exact script_source_dir|]. split; [exact script_target_dir|]. split; [exact (one_loaded _ N)|]. split; [exact (one_names _ N)|].
  split; [exact R|]. split; [apply commands_quotable; vm_compute; reflexivity|].
  exists (one_command rm_name). split; [vm_compute; reflexivity|]. split; [vm_compute; reflexivity|exact E].
Qed.

Theorem quote_case : exists dump around argv j fs g tasks out,
  shows_task_id dump /\ proper_around around /\ make_job around argv = JobReady j /\ job_level j = LevelCompilationCommand /\
  no_newline (path_string (bi_source_dir (job_info j))) /\ no_newline (path_string (bi_target_dir (job_info j))) /\
  loaded fs g /\ proper_names fs g /\ dry_run dump j g tasks out /\
  (forall p, known g p -> one_line (path_string p)) /\
  exists c c', option_map command_words (task_command dump j g 1) = Some c /\ tasks = [1] /\
  script_commands out = Some [c'] /\ c' <> c.
Proof.
  assert (quote_name = rm_name \/ quote_name = quote_name) as N by now right.
  destruct (dry_run_of _ _ _ _ _ (one_task_list _ N) ltac:(vm_compute; reflexivity) quote_script) as (out & R & E).
  exists options_text, plain_around, script_argv, script_job, (one_file quote_name "app" []), (one_graph quote_name), (snd (one_setup quote_name)), out.
  split; [exact options_text_id|]. split; [exact plain_proper|]. split; [exact script_job_ready|]. split; [exact script_level|].
  split; [exact script_source_dir|]. split; [exact script_target_dir|]. split; [exact (one_loaded _ N)|]. split; [exact (one_names _ N)|].
  split; [exact R|]. split; [apply one_line_names; vm_compute; reflexivity|].
  exists (one_command quote_name), (map doubled (one_command quote_name)).
  split; [vm_compute; reflexivity|]. split; [vm_compute; reflexivity|]. split; [exact E|]. vm_compute. discriminate.
Qed.

(** * Two object files and a program *)

Definition link_command (v : nat) : list str :=
  match task_command options_text script_job linked_graph v with Some c => command_words c | None => [] end.

Lemma link_run_script : script_run linked_graph (fun v c => option_map command_words (task_command options_text script_job linked_graph v) = Some c)
  [link_command 3; link_command 1; link_command 6] BuildProps.objects_built BuildProps.everything_built.
Proof.
  assert (forall D v, task_needs_run linked_graph D false v = Some false -> current linked_graph D v) as K
    by (intros D v; apply (BuildProofs.not_needed_current linked_graph D false v)).
  apply (script_goes_on _ _ 3 _ _ _ BuildProps.objects_built); [vm_compute; reflexivity|reflexivity|apply K; vm_compute; reflexivity|].
  apply (script_goes_on _ _ 1 _ _ _ BuildProps.objects_built); [vm_compute; reflexivity|reflexivity|apply K; vm_compute; reflexivity|].
  apply (script_goes_on _ _ 6 _ _ _ BuildProps.everything_built); [vm_compute; reflexivity|intros q Hq; apply FailRun.only_app, Hq|apply K; vm_compute; reflexivity|].
  constructor.
Qed.

Lemma link_dry_run : exists out, dry_run options_text script_job linked_graph (snd FailRun.link_setup) out /\
  script_commands out = Some [link_command 3; link_command 1; link_command 6].
Proof.
  exact (dry_run_of _ _ _ _ _ FailRun.link_task_list ltac:(vm_compute; reflexivity) link_script).
Qed.
