(** Properties of tools that run at the same time. [capacity] is the size of a
    pipe. [tool i] is what the tool that is started by call number [i] does, or
    [None] if it can not be launched. *)

From Coq Require Import Ascii String Bool Arith Lia.
From Coq Require Import List.
From Verif Require Import Str ForkModel ForkSpec ForkProofs ForkRun.
Import ListNotations.

(** C73: whatever other tools do at the same time, a call that returns has captured
    exactly what its own tool wrote, and that tool has ended. *)
Theorem C73_separate : forall capacity number tool s i,
  reachable capacity number tool s -> returned s i ->
  exists actions, tool i = Some actions /\
    out_captured (calls s i) = output actions /\ err_captured (calls s i) = error_output actions /\ exited s i.
Proof. exact separate. Qed.
Print Assumptions C73_separate.

(** C73: a call says that the tool can not be launched only if that is so. *)
Theorem C73_failed : forall capacity number tool s i,
  reachable capacity number tool s -> launch_failed s i -> tool i = None.
Proof. exact failed. Qed.
Print Assumptions C73_failed.

(** C73: calls and tools never wait for each other in a circle: until all calls have
    ended, something can happen, ... *)
Theorem C73_no_deadlock : forall capacity number tool s, 0 < capacity ->
  reachable capacity number tool s -> (forall i, i < number -> ended s i) \/ exists t, step capacity number tool s t.
Proof. exact no_deadlock. Qed.
Print Assumptions C73_no_deadlock.

(** ... and this does not go on forever. *)
Theorem C73_bounded : forall capacity number tool n s, steps capacity number tool n start s ->
  n <= total (fun i => 14 + 2 * length_of (tool i)) number.
Proof. exact bounded. Qed.
Print Assumptions C73_bounded.

(** C74: a call whose tool has ended can return, no matter what other tools do,
    provided that none of those which are running has got a descriptor of one of
    its pipes. *)
Theorem C74_prompt_partial : forall capacity number tool s i actions,
  reachable capacity number tool s -> exited s i -> tool i = Some actions ->
  (forall k, running s k -> ~ inherited s k i) ->
  exists t, own_steps capacity number tool i s t /\ returned t i.
Proof. exact prompt. Qed.
Print Assumptions C74_prompt_partial.

(** That happens exactly when the process is created while the call has its pipes
    open, *)
Theorem C74_inherited : forall capacity number tool s t k i,
  reachable capacity number tool s -> step capacity number tool s t -> creates s t k ->
  (inherited t k i <-> i <> k /\ has_pipes_open s i).
Proof. intros capacity number tool s t k i R. exact (created capacity number tool s t k i (reachable_inv _ _ _ _ R)). Qed.
Print Assumptions C74_inherited.

(** and then, the call does not return before that other process has ended. *)
Theorem C74_waits : forall capacity number tool s1 s2 s3 k i n,
  reachable capacity number tool s1 -> step capacity number tool s1 s2 -> creates s1 s2 k ->
  has_pipes_open s1 i -> i <> k ->
  steps capacity number tool n s2 s3 -> running s3 k -> ~ returned s3 i.
Proof. exact waits. Qed.
Print Assumptions C74_waits.

(** Hence, a call can not always return when its tool has ended. *)
Theorem C74_prompt_refuted : exists capacity number tool s i actions,
  0 < capacity /\ reachable capacity number tool s /\ exited s i /\ tool i = Some actions /\
  forall t, own_steps capacity number tool i s t -> ~ returned t i.
Proof.
  exists 1, 2, two_tools, run14, 0, [PutOut "a"%char].
  split; [lia|]. split; [exact reach14|]. split; [reflexivity|]. split; [reflexivity|].
  intros t O. assert (E := own_others _ _ _ _ _ _ O 1 (Nat.neq_succ_0 0)).
  apply (held 1 2 two_tools t 1 0 (own_reachable _ _ _ _ _ _ O reach14)).
  - unfold running. rewrite E. reflexivity.
  - unfold inherited. rewrite E. left. reflexivity.
Qed.
Print Assumptions C74_prompt_refuted.

(** C75: when a call has ended, its tool has exited, and the system has been asked
    how, if the tool could be launched. *)
Theorem C75_cleaned_up_partial : forall capacity number tool s i actions,
  reachable capacity number tool s -> ended s i -> tool i = Some actions ->
  stage_of (calls s i) <> ForkFailed -> exited s i /\ waited_for s i.
Proof. exact cleaned_up. Qed.
Print Assumptions C75_cleaned_up_partial.

(** Otherwise, the process is still there, dead or alive, when all calls have
    ended: *)
Theorem C75_cleaned_up_refuted : exists capacity number tool s i,
  reachable capacity number tool s /\ (forall j, j < number -> ended s j) /\
  exited s i /\ ~ waited_for s i /\ ~ (exists t, step capacity number tool s t).
Proof.
  exists 1, 1, no_tool, fail8, 0.
  split; [exact ends8|]. split; [|split; [reflexivity|split; [exact (fun H => H)|]]].
  - intros j Hj. right. left. assert (j = 0) by lia. subst j. reflexivity.
  - intros (t & T). inversion T as [s i y Hi S Es Et|s i y Hi S Es Et|s i y Hi S Es Et];
      assert (i = 0) by lia; subst i; inversion S; discriminate.
Qed.
Print Assumptions C75_cleaned_up_refuted.

Theorem C75_still_running_refuted : exists capacity number tool s i,
  reachable capacity number tool s /\ (forall j, j < number -> ended s j) /\ running s i.
Proof.
  exists 1, 1, no_tool, fail7, 0. split; [exact ends7|]. split; [|reflexivity].
  intros j Hj. right. left. assert (j = 0) by lia. subst j. reflexivity.
Qed.
Print Assumptions C75_still_running_refuted.

(** ** Examples *)

Local Open Scope string_scope.
Local Open Scope list_scope.

(** Two tools that run at the same time, from beginning to end *)
Example a_complete_run : reachable 1 2 two_tools run32 /\ returned run32 0 /\ returned run32 1 /\
  out_captured (calls run32 0) = lit "a" /\ err_captured (calls run32 1) = lit "b".
Proof. split; [exact reach32|]. repeat split. Qed.

Example both_at_once : reachable 1 2 two_tools run12 /\ running run12 0 /\ running run12 1.
Proof. split; [exact reach12|]. split; reflexivity. Qed.

(** A call that waits for another tool than its own *)
Example a_call_waits : creates run3 run4 1 /\ has_pipes_open run3 0 /\ exited run14 0 /\ running run14 1.
Proof. repeat split. Qed.

(** ... and one that does not: nobody has inherited anything of call 1. *)
Example a_call_need_not_wait : exited run16 1 /\ ~ returned run16 1 /\ forall k, running run16 k -> ~ inherited run16 k 1.
Proof.
  split; [reflexivity|]. split; [discriminate|]. intros k H.
  destruct k as [|[|k]]; discriminate H.
Qed.

Example a_tool_that_is_missing : reachable 1 1 no_tool fail7 /\ launch_failed fail7 0.
Proof. split; [exact ends7|reflexivity]. Qed.
