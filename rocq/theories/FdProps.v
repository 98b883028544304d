(** C120: the standard streams of a tool. C121: no file descriptor is left open. *)

From Coq Require Import List Arith Bool Lia.
From Verif Require Import FdModel FdSpec FdProofs.
Import ListNotations.

(** C120. If maike has its own standard streams, and does not close them, each tool that it starts
    has the pipes that have been made for it as its standard streams. Apart from these, it has
    the descriptors that maike had, except for the pipes of this call, and those to be closed. *)
Theorem C120_streams : forall limit (may_close : nat -> Prop) t s, (forall fd d, t fd = Some d -> ~ ours d) ->
  (forall fd, fd < 3 -> t fd <> None /\ ~ may_close fd) -> reached limit may_close t s -> at_place s = Forking ->
  streams (tool_of s) /\
  (forall fd d, 3 <= fd -> (tool_of s fd = Some d <-> open_in s fd = Some d /\ ~ ours d /\ cloexec d = false)).
Proof. exact tool_streams. Qed.
Print Assumptions C120_streams.

(** C120. If the tool can not be launched, the reason is written to the pipe made for that. *)
Theorem C120_report : forall limit (may_close : nat -> Prop) t s, (forall fd d, t fd = Some d -> ~ ours d) ->
  (forall fd, fd < 3 -> t fd <> None /\ ~ may_close fd) -> reached limit may_close t s -> at_place s = Forking ->
  exists fd, snd (child_of s) = Some fd /\ fst (child_of s) fd = Some (mk_descriptor (WriteEnd ErrorPipe) true).
Proof. exact tool_report. Qed.
Print Assumptions C120_report.

(** C120. Without other threads, the streams are right if and only if maike has a standard input. *)
Theorem C120_alone : forall limit t s, alone limit t s -> at_place s = Forking -> (streams (tool_of s) <-> t 0 <> None).
Proof. exact alone_streams. Qed.
Print Assumptions C120_alone.

(** C121. When a call has ended, in whatever way, its pipes are closed, whatever other threads do. *)
Theorem C121_nothing_left : forall limit (may_close : nat -> Prop) t s, (forall fd d, t fd = Some d -> ~ ours d) ->
  reached limit may_close t s -> at_place s = Ended -> forall fd d, open_in s fd = Some d -> ~ ours d.
Proof. exact nothing_left. Qed.
Print Assumptions C121_nothing_left.

(** C121. A call neither closes nor opens descriptors other than those of its pipes. *)
Theorem C121_others : forall limit (may_close : nat -> Prop) t s fails s', (forall fd d, t fd = Some d -> ~ ours d) ->
  reached limit may_close t s -> call_step limit fails s = Some s' ->
  forall fd d, ~ ours d -> (open_in s fd = Some d <-> open_in s' fd = Some d).
Proof. exact others_kept. Qed.
Print Assumptions C121_others.

(** C121. Hence, without other threads, everything is as it was. *)
Theorem C121_restored : forall limit t s, (forall fd d, t fd = Some d -> ~ ours d) -> alone limit t s -> at_place s = Ended ->
  forall fd, open_in s fd = t fd.
Proof. exact restored. Qed.
Print Assumptions C121_restored.

(** ** Examples *)

(** The calls made by this thread, and what another one opens and closes *)
Inductive act := Step (fails : bool) | OpenOther (fd : nat) | CloseOther (fd : nat).

Definition perform (limit : nat) (a : act) (s : call) : option call :=
  match a with
  | Step fails => call_step limit fails s
  | OpenOther fd =>
      match open_in s fd with
      | None => Some (mk_call (set (open_in s) fd (Some (mk_descriptor (Other fd) false))) (pipes s) (at_place s))
      | Some _ => None
      end
  | CloseOther fd =>
      match open_in s fd with
      | Some (mk_descriptor (Other _) _) => Some (mk_call (set (open_in s) fd None) (pipes s) (at_place s))
      | _ => None
      end
  end.

Fixpoint play (limit : nat) (l : list act) (s : call) : option call :=
  match l with
  | [] => Some s
  | a :: l' => match perform limit a s with Some s' => play limit l' s' | None => None end
  end.

Lemma play_reached limit t l : forall s s', reached limit (fun _ => True) t s -> play limit l s = Some s' -> reached limit (fun _ => True) t s'.
Proof.
  induction l as [|a l IH]; intros s s' R H; [injection H as <-; exact R|]. cbn [play] in H.
  destruct (perform limit a s) as [s1|] eqn:P; [|discriminate]. apply (IH s1); [|exact H]. clear IH H. destruct a as [f|fd|fd]; cbn [perform] in P.
  - eapply reached_step; eassumption.
  - destruct (open_in s fd) eqn:O; [discriminate|]. injection P as <-. apply reached_others; [exact R|]. apply other_open; [exact O|intro X; exact X].
  - destruct (open_in s fd) as [[[w|w|n] c]|] eqn:O; try discriminate. injection P as <-. apply reached_others; [exact R|].
    eapply other_close; [exact O|intro X; exact X|exact I].
Qed.

Lemma play_alone limit t n : forall s s', alone limit t s -> play limit (repeat (Step false) n) s = Some s' -> alone limit t s'.
Proof.
  induction n as [|n IH]; intros s s' A H; [injection H as <-; exact A|]. cbn [repeat play perform] in H.
  destruct (call_step limit false s) as [s1|] eqn:S; [|discriminate]. apply (IH s1); [|exact H]. eapply alone_step; eassumption.
Qed.

(** Processes that have certain descriptors *)
Definition with_open (fds : list nat) : table :=
  fun n => if existsb (Nat.eqb n) fds then Some (mk_descriptor (Other n) false) else None.

Lemma with_open_others fds : forall fd d, with_open fds fd = Some d -> ~ ours d.
Proof. intros fd d H. unfold with_open in H. destruct (existsb _ _); [|discriminate]. injection H as <-. intro X. exact X. Qed.

Definition first (n : nat) (t : table) : list (option descriptor) := map t (seq 0 n).
Definition plain_r w := Some (mk_descriptor (ReadEnd w) false).
Definition plain_w w := Some (mk_descriptor (WriteEnd w) false).
Definition other n := Some (mk_descriptor (Other n) false).

(** A process is about to be created. *)
Example fd_fork :
  option_map (fun s => (at_place s, first 12 (open_in s), first 12 (tool_of s))) (play 20 (repeat (Step false) 4) (call_start (with_open [0; 1; 2; 4]))) =
  Some (Forking,
        [other 0; other 1; other 2; plain_r StdinPipe; other 4; plain_w StdinPipe; plain_r StdoutPipe; plain_w StdoutPipe;
         plain_r StderrPipe; plain_w StderrPipe; plain_r ErrorPipe; plain_w ErrorPipe],
        [plain_r StdinPipe; plain_w StdoutPipe; plain_w StderrPipe; None; other 4; None; None; None; None; None; None; None]).
Proof. vm_compute. reflexivity. Qed.

(** The descriptors while maike talks to the tool, and afterwards *)
Example fd_talk :
  option_map (fun s => (at_place s, first 12 (open_in s))) (play 20 (repeat (Step false) 10) (call_start (with_open [0; 1; 2]))) =
  Some (Talking, [other 0; other 1; other 2; None; plain_w StdinPipe; plain_r StdoutPipe; None; plain_r StderrPipe; None; plain_r ErrorPipe; None; None]).
Proof. vm_compute. reflexivity. Qed.

Example fd_end :
  option_map (fun s => (at_place s, first 12 (open_in s))) (play 20 (repeat (Step false) 16) (call_start (with_open [0; 1; 2]))) =
  Some (Ended, [other 0; other 1; other 2; None; None; None; None; None; None; None; None; None]).
Proof. vm_compute. reflexivity. Qed.

(** There are too few descriptors for the third pipe, or the tool can not be launched. *)
Example fd_limit :
  option_map (fun s => (at_place s, first 8 (open_in s))) (play 8 (repeat (Step false) 8) (call_start (with_open [0; 1; 2]))) =
  Some (Ended, [other 0; other 1; other 2; None; None; None; None; None]).
Proof. vm_compute. reflexivity. Qed.

Example fd_no_launch :
  option_map (fun s => (at_place s, first 12 (open_in s))) (play 20 (repeat (Step false) 6 ++ [Step true] ++ repeat (Step false) 5) (call_start (with_open [0; 1; 2]))) =
  Some (Ended, [other 0; other 1; other 2; None; None; None; None; None; None; None; None; None]).
Proof. vm_compute. reflexivity. Qed.

(** C120. Wrong: a tool has standard streams of its own whatever maike has. If maike is started
    without a standard input, so are the tools. *)
Theorem C120_closed_refuted : ~ forall limit t s, (forall fd d, t fd = Some d -> ~ ours d) -> alone limit t s -> at_place s = Forking -> streams (tool_of s).
Proof.
  intro H.
  destruct (play 20 (repeat (Step false) 4) (call_start (with_open [1; 2]))) as [s|] eqn:P; [|vm_compute in P; discriminate].
  assert (A : alone 20 (with_open [1; 2]) s) by (eapply play_alone; [apply alone_start|exact P]).
  assert (F : at_place s = Forking) by (vm_compute in P; injection P as <-; reflexivity).
  apply (C120_alone _ _ _ A F); [|reflexivity]. exact (H _ _ _ (with_open_others _) A F).
Qed.
Print Assumptions C120_closed_refuted.

(** C120. Wrong: a standard input suffices if there are other threads. The numbers 1 and 2 are used
    by a pipe of another call, which ends before the third pipe is made. *)
Definition third_pipe : list act :=
  [OpenOther 1; OpenOther 2; Step false; Step false; CloseOther 1; CloseOther 2; Step false; Step false].

Theorem C120_threads_refuted : ~ forall limit (may_close : nat -> Prop) t s, (forall fd d, t fd = Some d -> ~ ours d) -> t 0 <> None ->
  reached limit may_close t s -> at_place s = Forking -> streams (tool_of s).
Proof.
  intro H. destruct (play 20 third_pipe (call_start (with_open [0]))) as [s|] eqn:P; [|vm_compute in P; discriminate].
  assert (R : reached 20 (fun _ => True) (with_open [0]) s) by (eapply play_reached; [apply reached_start|exact P]).
  assert (F : at_place s = Forking) by (vm_compute in P; injection P as <-; reflexivity).
  assert (Z0 : with_open [0] 0 <> None) by discriminate.
  destruct (H _ _ _ _ (with_open_others [0]) Z0 R F) as (_ & _ & X).
  vm_compute in P. injection P as <-. vm_compute in X. discriminate.
Qed.
Print Assumptions C120_threads_refuted.

(** C120. Wrong: the reason is always written to the right pipe. In this case, the number of the
    pipe made for it is 2, which is what the standard error stream becomes. *)
Definition fourth_pipe : list act :=
  [OpenOther 1; OpenOther 2; Step false; Step false; Step false; CloseOther 1; CloseOther 2; Step false].

Theorem C120_report_refuted : ~ forall limit (may_close : nat -> Prop) t s, (forall fd d, t fd = Some d -> ~ ours d) -> t 0 <> None ->
  reached limit may_close t s -> at_place s = Forking ->
  exists fd d, snd (child_of s) = Some fd /\ fst (child_of s) fd = Some d /\ object_of d = WriteEnd ErrorPipe.
Proof.
  intro H. destruct (play 20 fourth_pipe (call_start (with_open [0]))) as [s|] eqn:P; [|vm_compute in P; discriminate].
  assert (R : reached 20 (fun _ => True) (with_open [0]) s) by (eapply play_reached; [apply reached_start|exact P]).
  assert (F : at_place s = Forking) by (vm_compute in P; injection P as <-; reflexivity).
  assert (Z0 : with_open [0] 0 <> None) by discriminate.
  destruct (H _ _ _ _ (with_open_others [0]) Z0 R F) as (fd & d & X & Y & Z).
  vm_compute in P. injection P as <-. vm_compute in X. injection X as <-. vm_compute in Y. injection Y as <-. discriminate.
Qed.
Print Assumptions C120_report_refuted.
