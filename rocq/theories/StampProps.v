(** C110: the times in the compilation log. *)

From Coq Require Import Ascii String ZArith.
From Coq Require Import List Permutation.
From Verif Require Import Str Path DbModel DepGraphSpec FileListModel FileListSpec ValueModel BuildModel LogModel.
From Verif Require Import TaskListModel TaskListSpec SchedModel SchedSpec SchedProofs WriteModel WriteSpec WriteProps.
From Verif Require Import JobModel ScriptModel ScriptProofs StampModel StampSpec StampProofs StampReach.
Import ListNotations.

(** C110: a task is started after the log has been made, and completed after that. *)
Theorem C110_in_order : forall reads rs tasks ws level info dryrun needed real epoch now cs tr T,
  task_setup reads rs tasks -> idle_pool ws -> (epoch <= now)%Z ->
  timed_run reads level info dryrun needed real epoch cs (timed_init now rs tasks ws) = Some (tr, T) ->
  clock_range epoch (clock T) ->
  forall v, ended tr v ->
  (0 <= task_started (info v) <= task_completed (info v))%Z /\ (epoch + 1000 * task_completed (info v) <= clock T)%Z.
Proof.
  exact (fun reads rs tasks ws level info dryrun needed real epoch now cs tr T Hs Hw He Hr R v =>
    times_in_order reads level info dryrun needed real epoch now rs tasks ws Hs Hw He tr T v
      (timed_run_texec _ _ _ _ _ _ _ now rs tasks ws cs [] _ tr T (texec_init _ _ _ _ _ _ _ _ _ _ _) Hr) R).
Qed.
Print Assumptions C110_in_order.

(** C110: the interval in the log is one in which the command was run: it is begun after
    the thread has taken the task, not before the command is, and it ends when the command
    has ended, before the thread is done with the task. *)
Theorem C110_interval : forall reads rs tasks ws level info dryrun needed real epoch now cs tr T,
  task_setup reads rs tasks -> idle_pool ws -> (epoch <= now)%Z ->
  timed_run reads level info dryrun needed real epoch cs (timed_init now rs tasks ws) = Some (tr, T) ->
  clock_range epoch (clock T) ->
  forall v, ended tr v ->
  (forall t, In (t, PoolEvent (Start v)) tr -> (t < epoch + 1000 * (task_started (info v) + 1))%Z) /\
  (forall t, In (t, CommandBegins v) tr -> (epoch + 1000 * task_started (info v) <= t)%Z) /\
  (forall t t', In (t, CommandBegins v) tr -> In (t', CommandEnds v) tr -> (t <= t')%Z) /\
  (forall t, In (t, CommandEnds v) tr -> (t < epoch + 1000 * (task_completed (info v) + 1))%Z) /\
  (forall t o, In (t, PoolEvent (Finish v o)) tr -> (epoch + 1000 * task_completed (info v) <= t)%Z).
Proof.
  exact (fun reads rs tasks ws level info dryrun needed real epoch now cs tr T Hs Hw He Hr R v =>
    times_of_command reads level info dryrun needed real epoch now rs tasks ws Hs Hw He tr T v
      (timed_run_texec _ _ _ _ _ _ _ now rs tasks ws cs [] _ tr T (texec_init _ _ _ _ _ _ _ _ _ _ _) Hr) R).
Qed.
Print Assumptions C110_interval.

(** C110: and there is a command, unless the task is up to date, or it is a dry run. *)
Theorem C110_command_run : forall reads rs tasks ws level info dryrun needed real epoch now cs tr T,
  task_setup reads rs tasks -> idle_pool ws ->
  timed_run reads level info dryrun needed real epoch cs (timed_init now rs tasks ws) = Some (tr, T) ->
  forall v, ended tr v ->
  ((exists t, In (t, CommandBegins v) tr) <-> dryrun = false /\ needed v = Some true) /\
  ((exists t, In (t, CommandEnds v) tr) <-> dryrun = false /\ needed v = Some true).
Proof.
  exact (fun reads rs tasks ws level info dryrun needed real epoch now cs tr T Hs Hw Hr v =>
    command_run reads level info dryrun needed real epoch now rs tasks ws Hs Hw tr T v
      (timed_run_texec _ _ _ _ _ _ _ now rs tasks ws cs [] _ tr T (texec_init _ _ _ _ _ _ _ _ _ _ _) Hr)).
Qed.
Print Assumptions C110_command_run.

(** C110: what a task waits for is completed, according to the log, when the task is started. *)
Theorem C110_needed_first : forall reads rs tasks ws level info dryrun needed real epoch now cs tr T,
  task_setup reads rs tasks -> idle_pool ws -> (epoch <= now)%Z ->
  timed_run reads level info dryrun needed real epoch cs (timed_init now rs tasks ws) = Some (tr, T) ->
  clock_range epoch (clock T) ->
  forall v d, ended tr v -> In d (reads v) -> In d tasks ->
  ended tr d /\ (task_completed (info d) <= task_started (info v))%Z.
Proof.
  exact (fun reads rs tasks ws level info dryrun needed real epoch now cs tr T Hs Hw He Hr R v d =>
    times_of_needed reads level info dryrun needed real epoch now rs tasks ws Hs Hw He tr T v d
      (timed_run_texec _ _ _ _ _ _ _ now rs tasks ws cs [] _ tr T (texec_init _ _ _ _ _ _ _ _ _ _ _) Hr) R).
Qed.
Print Assumptions C110_needed_first.

(** ... and in terms of the files of a project. *)
Theorem C110_project : forall fs g, loaded fs g -> forall rs tasks, task_list g rs tasks -> forall ws, idle_pool ws ->
  forall level info dryrun needed real epoch now cs tr T, (epoch <= now)%Z ->
  timed_run (task_reads g) level info dryrun needed real epoch cs (timed_init now rs tasks ws) = Some (tr, T) ->
  clock_range epoch (clock T) ->
  forall v p d q, numbered g v p -> ended tr v -> numbered g d q -> file_needs g p q -> builds g q ->
  ended tr d /\ (task_completed (info d) <= task_started (info v))%Z.
Proof. exact project_times. Qed.
Print Assumptions C110_project.

(** C110: in no microsecond are there more tasks in progress than there are threads. *)
Theorem C110_parallel : forall reads rs tasks ws level info dryrun needed real epoch now cs tr T,
  task_setup reads rs tasks -> idle_pool ws -> (epoch <= now)%Z ->
  timed_run reads level info dryrun needed real epoch cs (timed_init now rs tasks ws) = Some (tr, T) ->
  clock_range epoch (clock T) ->
  forall l t, NoDup l -> (forall v, In v l -> ended tr v /\ in_progress info t v) -> length l <= length ws.
Proof.
  exact (fun reads rs tasks ws level info dryrun needed real epoch now cs tr T Hs Hw He Hr R l t =>
    times_parallel reads level info dryrun needed real epoch now rs tasks ws Hs Hw He tr T l t
      (timed_run_texec _ _ _ _ _ _ _ now rs tasks ws cs [] _ tr T (texec_init _ _ _ _ _ _ _ _ _ _ _) Hr) R).
Qed.
Print Assumptions C110_parallel.

(** C110: a task succeeds if there is nothing to do, or if its command does. *)
Theorem C110_success : forall reads rs tasks ws level info dryrun needed real epoch now cs tr T,
  task_setup reads rs tasks -> idle_pool ws ->
  timed_run reads level info dryrun needed real epoch cs (timed_init now rs tasks ws) = Some (tr, T) ->
  forall v, ended tr v ->
  exists r, delivered dryrun (needed v) (real v) r /\
    (In (Finish v Succeeds) (pool_trace tr) <-> r = Skipped \/ exists out err, r = Executed (ExitCode 0) out err).
Proof.
  exact (fun reads rs tasks ws level info dryrun needed real epoch now cs tr T Hs Hw Hr v =>
    marks reads level info dryrun needed real epoch now rs tasks ws tr T v
      (timed_run_texec _ _ _ _ _ _ _ now rs tasks ws cs [] _ tr T (texec_init _ _ _ _ _ _ _ _ _ _ _) Hr)).
Qed.
Print Assumptions C110_success.

(** C110: the log has these times, and what the tasks delivered. *)
Theorem C110_log : forall reads rs tasks ws level info dryrun needed real epoch now cs tr T,
  task_setup reads rs tasks -> idle_pool ws ->
  timed_run reads level info dryrun needed real epoch cs (timed_init now rs tasks ws) = Some (tr, T) ->
  final (ph (fst (full T))) ->
  exists order, NoDup order /\ (forall v, In v order <-> ended tr v) /\ dependencies_first reads tasks order /\
    forall r, (forall v, In v order -> delivered dryrun (needed v) (real v) (r v)) ->
      out_text (snd (full T)) = concat (map (out_record level info r) order) /\
      err_text (snd (full T)) = concat (map (err_record level info r) order).
Proof.
  exact (fun reads rs tasks ws level info dryrun needed real epoch now cs tr T Hs Hw Hr =>
    text_of_log reads level info dryrun needed real epoch now rs tasks ws Hs Hw tr T
      (timed_run_texec _ _ _ _ _ _ _ now rs tasks ws cs [] _ tr T (texec_init _ _ _ _ _ _ _ _ _ _ _) Hr)).
Qed.
Print Assumptions C110_log.

(** C110: the log can be written, with the times that have been read, in whatever order the threads proceed. *)
Theorem C110_possible : forall reads rs tasks ws level info dryrun needed real epoch n cs ls F,
  (0 <= n < 2 ^ 63)%Z -> (forall v, task_started (info v) = n /\ task_completed (info v) = n) ->
  full_run reads level info (outcome dryrun needed real) cs (full_init rs tasks ws) = Some (ls, F) ->
  exists cs' tr T, timed_run reads level info dryrun needed real epoch cs' (timed_init (epoch + 1000 * n) rs tasks ws) = Some (tr, T) /\
    pool_trace tr = ls /\ full T = F /\ clock T = (epoch + 1000 * n)%Z.
Proof.
  exact (fun reads rs tasks ws level info dryrun needed real epoch n cs ls F R S =>
    timeable reads level info dryrun needed real epoch n R S rs tasks ws cs ls F).
Qed.
Print Assumptions C110_possible.

(** C110: the record of a file has the number and the name of that file, its times, and its
    command. *)
Theorem C110_record : forall dump j times g v t, logged dump j times g v = Some t ->
  exists p, numbered g v p /\ task_path t = path_string p /\ task_id t = Z.of_nat v /\
    (task_started t, task_completed t) = times v /\ task_command dump j g v = Some (task_cmd t).
Proof.
  intros dump j times g v t H. destruct (logged_facts _ _ _ _ _ _ H) as (p & N & P & C). exists p.
  split; [exact N|]. split; [exact P|]. unfold logged in H. destruct (nth_error g v) as [[q i]|]; [|discriminate].
  destruct (task_command dump j g v) as [c|]; [|discriminate]. injection H as <-. cbn [task_id task_started task_completed task_cmd].
  split; [reflexivity|]. split; [now destruct (times v)|reflexivity].
Qed.
Print Assumptions C110_record.

(** ** Examples *)

Local Open Scope string_scope.
Local Open Scope list_scope.
Local Open Scope Z_scope.

Definition stamped_info (v : nat) : task_info :=
  match v with
  | 0%nat => mk_task_info (mk_command (lit "r.py") []) 4 (lit "a") 6 8
  | 1%nat => mk_task_info (mk_command (lit "r.py") []) 5 (lit "b") 9 10
  | _ => mk_task_info (mk_command (lit "r.py") []) 6 (lit "c") 65 67
  end.

Definition stamped_needed (v : nat) : option bool := Some (negb (Nat.eqb v 1)).
Definition stamped_real (v : nat) : option (exit_status * str * str) :=
  match v with
  | 0%nat => Some (ExitCode 0, lit "A", lit "w")
  | _ => Some (ExitCode 1, [], lit "no")
  end.

Notation stamped_step := (timed_step three_reads LevelSourceFileInfo stamped_info false stamped_needed stamped_real 5000).

(** Two workers; 700 nanoseconds go by with each step. *)
Fixpoint stamped_schedule (n : nat) (T : timed_state) : list timed_choice :=
  match n with
  | 0%nat => []
  | S n' =>
      let result i := match nth_error (workers (fst (full T))) i with
                      | Some (WRunning v) => task_end (outcome false stamped_needed stamped_real v) | _ => Succeeds end in
      let candidates := [Others (ByPool (ByProcess 0)); Others (ByPool (ByProcess 1)); Others (ByPool (ByWorker 0 (result 0%nat)));
                         Others (ByPool (ByWorker 1 (result 1%nat))); Living 0; Living 1; Living 2;
                         Others (ByLog 0); Others (ByLog 1); Others (ByLog 2)] in
      let enabled c := match stamped_step c T with Some _ => true | None => false end in
      match find enabled candidates with
      | None => []
      | Some c => match stamped_step c T with
                  | Some (_, T') => match stamped_step (Passing 700) T' with
                                    | Some (_, T'') => c :: Passing 700 :: stamped_schedule n' T''
                                    | None => []
                                    end
                  | None => []
                  end
      end
  end.

Definition stamped_init : timed_state := timed_init 5500 [Pending; Pending; Pending] [0; 1; 2]%nat [WChecking; WChecking].
Definition stamped_choices : list timed_choice := stamped_schedule 400 stamped_init.
Definition stamped_run : option (list (Z * event) * timed_state) :=
  timed_run three_reads LevelSourceFileInfo stamped_info false stamped_needed stamped_real 5000 stamped_choices stamped_init.

Example stamped_ends :
  match stamped_run with
  | Some (tr, T) =>
      filter (fun e => match snd e with PoolEvent (Submit _) => false | _ => true end) tr =
        [(10400, PoolEvent (Start 0)); (11100, PoolEvent (Start 1)); (12500, CommandBegins 0); (13200, CommandEnds 0);
         (39100, PoolEvent (Finish 0 Succeeds)); (62900, PoolEvent (Finish 1 Succeeds)); (68500, PoolEvent (Start 2));
         (71300, CommandBegins 2); (72000, CommandEnds 2); (94400, PoolEvent (Finish 2 Fails))] /\
      ph (fst (full T)) = Threw 2 /\
      map (started_at T) [0; 1; 2]%nat = [Some 11800; Some 14600; Some 70600] /\
      map (completed_at T) [0; 1; 2]%nat = [Some 13900; Some 15300; Some 72700] /\
      out_text (snd (full T)) =
        lit " 4 | ✓ | a | 6 | 8" ++ [newline] ++ lit " ... A" ++ lit " 5 | ✓ | b | - | - " ++ [newline] ++
        lit " 6 | ✗ | c | 65 | 67" ++ [newline] /\
      err_text (snd (full T)) = lit "w" ++ [newline] ++ lit "no" ++ [newline]
  | None => False
  end.
Proof. vm_compute. repeat split. Qed.

Definition finished_as (tr : list label) : list (nat * task_outcome) :=
  flat_map (fun l => match l with Finish v o => [(v, o)] | _ => [] end) tr.

Lemma finished_as_in tr v o : In (v, o) (finished_as tr) -> In (Finish v o) tr.
Proof.
  unfold finished_as. rewrite in_flat_map. intros (l & I & J). destruct l as [w|w|w o']; cbn in J; try contradiction.
  destruct J as [J|[]]. injection J as -> ->. exact I.
Qed.

(** What the theorems say about it. *)
Lemma stamped_claims_of cs tr T :
  timed_run three_reads LevelSourceFileInfo stamped_info false stamped_needed stamped_real 5000 cs stamped_init = Some (tr, T) ->
  clock_range 5000 (clock T) -> ended tr 2 ->
  0 <= task_started (stamped_info 2) <= task_completed (stamped_info 2) /\
  task_completed (stamped_info 0) <= task_started (stamped_info 2) /\
  forall t l, NoDup l -> (forall v, In v l -> ended tr v /\ in_progress stamped_info t v) -> (length l <= 2)%nat.
Proof.
  intros E R E2.
  assert (W : idle_pool [WChecking; WChecking]) by (split; [discriminate|]; intros w [<-|[<-|[]]]; now left).
  assert (L : 5000 <= 5500) by discriminate.
  split; [exact (proj1 (C110_in_order _ _ _ _ _ _ _ _ _ _ _ _ _ _ three_setup W L E R 2%nat E2))|].
  split; [exact (proj2 (C110_needed_first _ _ _ _ _ _ _ _ _ _ _ _ _ _ three_setup W L E R 2%nat 0%nat E2 (or_introl eq_refl) (or_introl eq_refl)))|].
  exact (fun t l => C110_parallel _ _ _ _ _ _ _ _ _ _ _ _ _ _ three_setup W L E R l t).
Qed.

Example stamped_hypotheses :
  match stamped_run with
  | Some (tr, T) => finished_as (pool_trace tr) = [(0%nat, Succeeds); (1%nat, Succeeds); (2%nat, Fails)] /\
                    Z.ltb (clock T - 5000) (2 ^ 63) = true
  | None => False
  end.
Proof. vm_compute. repeat split. Qed.
