(** C86: the compilation log as a whole, when several threads write to it. *)

From Coq Require Import Ascii String ZArith.
From Coq Require Import List Permutation.
From Verif Require Import Str Path DbModel DepGraphSpec FileListModel FileListSpec ValueModel BuildModel LogModel.
From Verif Require Import TaskListModel TaskListSpec SchedModel SchedSpec SchedProofs WriteModel WriteSpec WriteProofs.
Import ListNotations.

(** C86: when a build returns, the log has one record for each task, one after the
    other, and the record of a file is after those of everything it needs. *)
Theorem C86_one_record_each : forall fs g, loaded fs g ->
  forall rs tasks, task_list g rs tasks -> forall ws, idle_pool ws ->
  forall level info result cs tr F n,
  full_run (task_reads g) level info result cs (full_init rs tasks ws) = Some (tr, F) ->
  ph (fst F) = Returned n ->
  exists order, Permutation tasks order /\
    out_text (snd F) = concat (map (out_record level info result) order) /\
    err_text (snd F) = concat (map (err_record level info result) order) /\
    (forall l1 v l2 p, order = l1 ++ v :: l2 -> numbered g v p ->
     forall d q, numbered g d q -> file_needs g p q -> builds g q -> In d l1).
Proof. exact project_records. Qed.
Print Assumptions C86_one_record_each.

(** C86: if the build fails, this is so for the tasks whose command ended, or which
    were skipped. *)
Theorem C86_failed_build : forall reads rs tasks ws level info result cs tr F,
  task_setup reads rs tasks -> idle_pool ws ->
  full_run reads level info result cs (full_init rs tasks ws) = Some (tr, F) ->
  final (ph (fst F)) ->
  exists order, NoDup order /\
    (forall v, In v order <-> In (Finish v Succeeds) tr \/ In (Finish v Fails) tr) /\
    dependencies_first reads tasks order /\
    out_text (snd F) = concat (map (out_record level info result) order) /\
    err_text (snd F) = concat (map (err_record level info result) order).
Proof.
  exact (fun reads rs tasks ws level info result cs tr F Hs Hw Hr =>
    records_at_end reads level info result rs tasks ws Hs Hw tr F
      (full_run_fexec reads level info result rs tasks ws cs [] _ tr F (fexec_init _ _ _ _ _ _ _) Hr)).
Qed.
Print Assumptions C86_failed_build.

(** C86: at any time, what has been written are whole records, and the beginning of
    at most one more. Tasks that are done have their records. *)
Theorem C86_any_time : forall reads rs tasks ws level info result cs tr F,
  task_setup reads rs tasks -> idle_pool ws ->
  full_run reads level info result cs (full_init rs tasks ws) = Some (tr, F) ->
  exists order, NoDup order /\ (forall v, In v order -> In v (started tr) /\ In v tasks) /\
    dependencies_first reads tasks order /\
    (forall v o, In (Finish v o) tr -> o = Throws \/ In v order) /\
    whole_records level info result order (out_text (snd F)) (err_text (snd F)).
Proof.
  exact (fun reads rs tasks ws level info result cs tr F Hs Hw Hr =>
    records_whole reads level info result rs tasks ws Hs Hw tr F
      (full_run_fexec reads level info result rs tasks ws cs [] _ tr F (fexec_init _ _ _ _ _ _ _) Hr)).
Qed.
Print Assumptions C86_any_time.

(** C86: waiting for the log does not keep the build from ending. *)
Theorem C86_ends : forall reads rs tasks ws level info result cs tr F,
  task_setup reads rs tasks -> idle_pool ws ->
  (forall v, In v tasks -> result v = Raised -> not_waited_for reads tasks v) ->
  full_run reads level info result cs (full_init rs tasks ws) = Some (tr, F) ->
  build_ends reads level info result tasks F.
Proof.
  exact (fun reads rs tasks ws level info result cs tr F Hs Hw Hn Hr =>
    build_always_ends reads level info result rs tasks ws Hs Hw Hn tr F
      (full_run_fexec reads level info result rs tasks ws cs [] _ tr F (fexec_init _ _ _ _ _ _ _) Hr)).
Qed.
Print Assumptions C86_ends.

(** ** Examples *)

Local Open Scope string_scope.
Local Open Scope list_scope.

(** Two tasks without dependencies, and one that waits for both. *)
Definition three_reads (v : nat) : list nat := match v with 2 => [0; 1] | _ => [] end.

Lemma three_setup : task_setup three_reads [Pending; Pending; Pending] [0; 1; 2].
Proof.
  constructor.
  - repeat constructor; simpl; intuition discriminate.
  - intros v [<- | [<- | [<- | []]]]; reflexivity.
  - intros l1 v l2 E d Hd.
    destruct l1 as [|a [|b [|c l1]]]; inversion E; subst; simpl in Hd; try contradiction.
    + left. simpl. tauto.
    + destruct l1; discriminate.
Qed.

Definition three_info (v : nat) : task_info :=
  mk_task_info (mk_command (lit "r.py") [])
    (Z.of_nat (v + 4)) (match v with 0 => lit "a" | 1 => lit "b" | _ => lit "c" end) 1 2.

Definition three_result (v : nat) : run_result :=
  match v with
  | 0 => Executed (ExitCode 0) (lit "A") (lit "w")
  | 1 => Skipped
  | _ => Executed (ExitCode 1) [] (lit "no")
  end.

(** Two workers, which try to write in turns: [process] goes first, then the log of
    the tasks, then the pool. *)
Fixpoint in_turns (n : nat) (F : state * log_state) : list full_choice :=
  match n with
  | 0 => []
  | S n' =>
      let result i := match nth_error (workers (fst F)) i with Some (WRunning v) => task_end (three_result v) | _ => Succeeds end in
      let first := if Nat.even n then [ByLog 0; ByLog 1] else [ByLog 1; ByLog 0] in
      let candidates := [ByPool (ByProcess 0); ByPool (ByProcess 1); ByPool (ByWorker 0 (result 0)); ByPool (ByWorker 1 (result 1))]
                          ++ first ++ [ByLog 2] in
      let enabled c := match full_step three_reads LevelSourceFileInfo three_info three_result c F with Some _ => true | None => false end in
      match find enabled candidates with
      | None => []
      | Some c => match full_step three_reads LevelSourceFileInfo three_info three_result c F with
                  | Some (_, F') => c :: in_turns n' F'
                  | None => []
                  end
      end
  end.

Definition three_run (n : nat) : option (list label * phase * str * str) :=
  let F0 := full_init [Pending; Pending; Pending] [0; 1; 2] [WChecking; WChecking] in
  match full_run three_reads LevelSourceFileInfo three_info three_result (in_turns n F0) F0 with
  | None => None
  | Some (tr, F) => Some (tr, ph (fst F), out_text (snd F), err_text (snd F))
  end.

Example three_ends :
  match three_run 400 with
  | Some (tr, p, out, err) =>
      p = Threw 2 /\
      filter (fun l => match l with Submit _ => false | _ => true end) tr =
        [Start 0; Start 1; Finish 1 Succeeds; Finish 0 Succeeds; Start 2; Finish 2 Fails] /\
      out = lit " 5 | ✓ | b | - | - " ++ [newline] ++
            lit " 4 | ✓ | a | 1 | 2" ++ [newline] ++ lit " ... A" ++ lit " 6 | ✗ | c | 1 | 2" ++ [newline] /\
      err = lit "w" ++ [newline] ++ lit "no" ++ [newline]
  | None => False
  end.
Proof. vm_compute. repeat split. Qed.
