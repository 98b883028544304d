(** Properties of running processes. [capacity] is the size of a pipe. *)

From Coq Require Import Ascii String ZArith Bool Lia.
From Coq Require Import List.
From Verif Require Import Str BuildModel ExecModel ExecSpec ExecProofs.
Import ListNotations.

(** C55: when execve returns, everything that the process wrote has been captured,
    separately for the two outputs, no matter how it was interleaved. *)
Theorem C55_captured : forall capacity actions s, reachable capacity actions s -> returned s ->
  out_captured s = written_out actions /\ err_captured s = written_err actions.
Proof. intros capacity actions s [n H]. exact (captured capacity n actions s H). Qed.
Print Assumptions C55_captured.

(** C55: a process that does not wait for input may write as much as it likes: until
    execve has returned something can always go on, ... *)
Theorem C55_no_deadlock : forall capacity actions s, 0 < capacity -> ~ In WaitForInput actions ->
  reachable capacity actions s -> ~ returned s -> exists s', step capacity s s'.
Proof. intros capacity actions s C N [n H]. exact (progress capacity C n actions s N H). Qed.
Print Assumptions C55_no_deadlock.

(** ... and it does not go on forever. *)
Theorem C55_bounded : forall capacity actions n s, steps capacity n (start actions) s ->
  n <= 2 * length actions + 7.
Proof. intros capacity actions n s. exact (bounded capacity n actions s). Qed.
Print Assumptions C55_bounded.

(** C55: the end of a process is reported as it was. *)
Theorem C55_exit_code : forall code, (0 <= code < 256)%Z ->
  exit_status_of (status_exited code) = Some (ExitCode code).
Proof. exact decode_exited. Qed.
Print Assumptions C55_exit_code.

Theorem C55_killed : forall signal core, (0 < signal < 127)%Z ->
  exit_status_of (status_killed signal core) = Some (KilledBy signal).
Proof. exact decode_killed. Qed.
Print Assumptions C55_killed.

(** C56: a process that waits for input, or the end of it, never gets any further,
    and execve does not return: the pipe is not closed before the process has
    exited. *)
Theorem C56_input_refuted : forall capacity actions s, In WaitForInput actions ->
  reachable capacity actions s -> ~ returned s /\ exited s = false.
Proof.
  intros capacity actions s I [n H]. destruct (input_stuck capacity n actions s I H) as (_ & X & P).
  split; [|exact X]. unfold returned. destruct P as [-> | ->]; discriminate.
Qed.
Print Assumptions C56_input_refuted.

(** ** Examples *)

Local Open Scope string_scope.
Local Open Scope list_scope.

Definition writer : list action := [PutOut "a"; PutErr "x"; PutOut "b"]%char.

(** A complete execution, with pipes for a single byte. *)
Example an_execution : exists s, reachable 1 writer s /\ returned s /\ out_captured s = lit "ab" /\ err_captured s = lit "x".
Proof.
  eexists. split; [|split; [|split]].
  - exists 13. unfold writer, start.
    eapply steps_more; [|apply caller_join_err]. eapply steps_more; [|apply caller_join_out].
    eapply steps_more; [|apply err_end]. eapply steps_more; [|apply caller_waitpid]. eapply steps_more; [|apply out_end].
    eapply steps_more; [|apply caller_write]. eapply steps_more; [|apply child_exit].
    eapply steps_more; [|apply (out_read 1 [] false ["b"%char] []); [discriminate|cbv; lia]].
    eapply steps_more; [|apply (err_read 1 [] false _ ["x"%char] []); [discriminate|cbv; lia]].
    eapply steps_more; [|apply (child_out 1 "b"%char [] false []); cbv; lia].
    eapply steps_more; [|apply (out_read 1 _ false ["a"%char] []); [discriminate|cbv; lia]].
    eapply steps_more; [|apply (child_err 1 "x"%char _ false _ []); cbv; lia].
    eapply steps_more; [|apply (child_out 1 "a"%char _ false []); cbv; lia]. apply steps_none.
  - reflexivity.
  - reflexivity.
  - reflexivity.
Qed.

Example a_reader : In WaitForInput [PutOut "a"%char; WaitForInput].
Proof. right. now left. Qed.

Example some_statuses : map exit_status_of [0; 256; 32512; 9; 139]%Z =
  [Some (ExitCode 0); Some (ExitCode 1); Some (ExitCode 127); Some (KilledBy 9); Some (KilledBy 11)].
Proof. vm_compute. reflexivity. Qed.
