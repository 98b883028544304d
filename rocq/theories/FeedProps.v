(** Property C104: tools that get input. *)

From Coq Require Import Ascii String.
From Coq Require Import List.
From Verif Require Import Str FeedModel FeedSpec FeedProofs.
Import ListNotations.

(** C104. When execve returns, the tool has read and written what it reads and writes
    when it is given the input by hand, however its steps, the threads and the pipes
    are interleaved, and all that it has written has been captured. *)
Theorem C104_delivered : forall capacity p input s, reachable capacity p input s -> returned s ->
    behave p (Some input) = Some (mk_effect (got (ins s)) (out_captured (outs s)) (err_captured (outs s))).
Proof. intros capacity p input s [n H]. exact (delivered capacity n p input s H). Qed.
Print Assumptions C104_delivered.

(** At any time, what it has read is the beginning of the input. *)
Theorem C104_in_order : forall capacity p input s, reachable capacity p input s -> prefix_of (got (ins s)) input.
Proof. intros capacity p input s [n H]. exact (inv_got p input s (invariant_steps capacity n p input s H)). Qed.
Print Assumptions C104_in_order.

(** If it asks for no more than there is, then execve returns: there is a step in every
    state before that, and the number of steps is bounded. *)
Theorem C104_no_deadlock_partial : forall capacity p input s, 0 < capacity -> behave p (Some input) <> None ->
    reachable capacity p input s -> ~ returned s -> exists s', step capacity s s'.
Proof. intros capacity p input s C B [n H]. exact (progress capacity C n p input s B H). Qed.
Print Assumptions C104_no_deadlock_partial.

Theorem C104_bounded : forall capacity p input n s, steps capacity n (start p input) s ->
    n <= 2 * actions p (Some input) + 2 * length input + 8.
Proof. intros capacity p input n s. exact (bounded capacity n p input s). Qed.
Print Assumptions C104_bounded.

Theorem C104_returns_partial : forall capacity p input, 0 < capacity -> behave p (Some input) <> None ->
    exists s, reachable capacity p input s /\ returned s.
Proof.
  intros capacity p input C B. destruct (can_return capacity C 0 p input _ B (steps_none capacity _)) as (k & s & H & _ & R).
  exists s. split; [exists k; exact H|exact R].
Qed.
Print Assumptions C104_returns_partial.

(** A tool that asks for more does not see the end of its input: execve never returns. *)
Theorem C104_end_refuted : forall capacity p input s, behave p (Some input) = None -> reachable capacity p input s -> ~ returned s.
Proof.
  intros capacity p input s B H R. rewrite (C104_delivered capacity p input s H R) in B. discriminate.
Qed.
Print Assumptions C104_end_refuted.

(** In particular, this goes for filters, which copy their input until it ends. *)
Fixpoint filter_up_to (n : nat) : program :=
  match n with
  | O => Exit
  | S n' => Get (fun x => match x with Some c => PutOut c (filter_up_to n') | None => Exit end)
  end.

Lemma filter_behaves : forall input n, length input < n -> behave (filter_up_to n) (Some input) = None.
Proof.
  intros input. induction input as [|c input IH]; intros [|n] H; try (inversion H; fail).
  - reflexivity.
  - cbn. rewrite IH; [reflexivity|]. apply le_S_n. exact H.
Qed.

Theorem C104_filter_refuted : forall capacity n input s, length input < n ->
    reachable capacity (filter_up_to n) input s -> ~ returned s.
Proof. intros capacity n input s H. apply C104_end_refuted, filter_behaves, H. Qed.
Print Assumptions C104_filter_refuted.

(** * Examples *)

(** A shell that is told to print something, and to exit *)
Definition shell : program :=
  Get (fun x => match x with
                | Some c => PutOut c (Get (fun y => match y with Some d => PutErr d Exit | None => Exit end))
                | None => Exit
                end).

Example shell_behaves :
  behave shell (Some (lit "ab, and so on")) = Some (mk_effect (lit "ab") (lit "a") (lit "b")) /\
  behave shell (Some (lit "a")) = None /\ behave (CloseIn shell) (Some (lit "a")) = Some (mk_effect [] [] []).
Proof. repeat split. Qed.

Example shell_runs : exists s, reachable 1 shell (lit "ab, and so on") s /\ returned s /\
    got (ins s) = lit "ab" /\ out_captured (outs s) = lit "a" /\ err_captured (outs s) = lit "b".
Proof.
  destruct (C104_returns_partial 1 shell (lit "ab, and so on")) as (s & H & R); [repeat constructor|discriminate|].
  exists s. split; [exact H|]. split; [exact R|]. pose proof (C104_delivered _ _ _ _ H R) as E. cbn in E.
  injection E as <- <- <-. repeat split.
Qed.

(** A filter does get its input. *)
Example filter_reads : behave (filter_up_to 3) (Some (lit "abc")) = Some (mk_effect (lit "abc") (lit "abc") []).
Proof. reflexivity. Qed.
