(** A complete run of two tools at the same time, for use in examples and as a
    witness: the process of call 1 is created when call 0 has created its pipes. *)

From Coq Require Import Ascii List Bool Arith Lia.
From Verif Require Import Str ForkModel ForkSpec.
Import ListNotations.
Local Open Scope char_scope.

Definition two_tools (i : nat) : option (list action) :=
  match i with
  | 0 => Some [PutOut "a"]
  | 1 => Some [PutErr "b"]
  | _ => None
  end.

Definition advance (s : state) (i : nat) (y : call) : state :=
  mk_state (calls (update s i y)) (forked i (calls s i) y (forks s)).

Lemma go : forall capacity number tool s t,
  reachable capacity number tool s -> step capacity number tool s t -> reachable capacity number tool t.
Proof. intros capacity number tool s t (n & H) T. exists (S n). eapply steps_more; eassumption. Qed.

Lemma two_start : reachable 1 2 two_tools start.
Proof. exists 0. constructor. Qed.

Ltac all_calls := let j := fresh "j" in intro j; destruct j as [|[|j]]; reflexivity.
Ltac closed := split; [reflexivity|]; split; [reflexivity|]; let j := fresh "j" in intro j; destruct j as [|[|j]]; first [reflexivity|discriminate|(intros _; reflexivity)].

Definition run1 : state := advance start 0 (set_stage (calls start 0) Piped).
Lemma reach1 : reachable 1 2 two_tools run1.
Proof. apply (go _ _ _ _ _ two_start). unfold run1, advance. apply by_thread; [lia|]. apply make_pipes; reflexivity. Qed.

Definition run2 : state := advance run1 1 (set_stage (calls run1 1) Piped).
Lemma reach2 : reachable 1 2 two_tools run2.
Proof. apply (go _ _ _ _ _ reach1). unfold run2, advance. apply by_thread; [lia|]. apply make_pipes; reflexivity. Qed.

Definition run3 : state := advance run2 1 (set_stage (calls run2 1) Locked).
Lemma reach3 : reachable 1 2 two_tools run3.
Proof. apply (go _ _ _ _ _ reach2). unfold run3, advance. apply by_thread; [lia|]. apply lock; [reflexivity|all_calls]. Qed.

Definition run4 : state := advance run3 1 (mk_call Forked Starting (errno_written (calls run3 1)) (out_pipe (calls run3 1)) (err_pipe (calls run3 1)) (out_reading (calls run3 1)) (err_reading (calls run3 1)) (out_captured (calls run3 1)) (err_captured (calls run3 1)) (others holds_error run3 1) (others holds_output run3 1)).
Lemma reach4 : reachable 1 2 two_tools run4.
Proof. apply (go _ _ _ _ _ reach3). unfold run4, advance. apply by_thread; [lia|]. apply fork; reflexivity. Qed.

Definition run5 : state := advance run4 1 (set_stage (calls run4 1) Closed).
Lemma reach5 : reachable 1 2 two_tools run5.
Proof. apply (go _ _ _ _ _ reach4). unfold run5, advance. apply by_thread; [lia|]. apply close_error; reflexivity. Qed.

Definition run6 : state := advance run5 1 (set_stage (calls run5 1) ReadingError).
Lemma reach6 : reachable 1 2 two_tools run6.
Proof. apply (go _ _ _ _ _ reach5). unfold run6, advance. apply by_thread; [lia|]. apply unlock; reflexivity. Qed.

Definition run7 : state := update run6 1 (set_child (calls run6 1) (Running [PutErr "b"])).
Lemma reach7 : reachable 1 2 two_tools run7.
Proof. apply (go _ _ _ _ _ reach6). unfold run7. apply by_child; [lia|]. apply exec; reflexivity. Qed.

Definition run8 : state := advance run7 0 (set_stage (calls run7 0) Locked).
Lemma reach8 : reachable 1 2 two_tools run8.
Proof. apply (go _ _ _ _ _ reach7). unfold run8, advance. apply by_thread; [lia|]. apply lock; [reflexivity|all_calls]. Qed.

Definition run9 : state := advance run8 0 (mk_call Forked Starting (errno_written (calls run8 0)) (out_pipe (calls run8 0)) (err_pipe (calls run8 0)) (out_reading (calls run8 0)) (err_reading (calls run8 0)) (out_captured (calls run8 0)) (err_captured (calls run8 0)) (others holds_error run8 0) (others holds_output run8 0)).
Lemma reach9 : reachable 1 2 two_tools run9.
Proof. apply (go _ _ _ _ _ reach8). unfold run9, advance. apply by_thread; [lia|]. apply fork; reflexivity. Qed.

Definition run10 : state := advance run9 0 (set_stage (calls run9 0) Closed).
Lemma reach10 : reachable 1 2 two_tools run10.
Proof. apply (go _ _ _ _ _ reach9). unfold run10, advance. apply by_thread; [lia|]. apply close_error; reflexivity. Qed.

Definition run11 : state := advance run10 0 (set_stage (calls run10 0) ReadingError).
Lemma reach11 : reachable 1 2 two_tools run11.
Proof. apply (go _ _ _ _ _ reach10). unfold run11, advance. apply by_thread; [lia|]. apply unlock; reflexivity. Qed.

Definition run12 : state := update run11 0 (set_child (calls run11 0) (Running [PutOut "a"])).
Lemma reach12 : reachable 1 2 two_tools run12.
Proof. apply (go _ _ _ _ _ reach11). unfold run12. apply by_child; [lia|]. apply exec; reflexivity. Qed.

Definition run13 : state := update run12 0 (mk_call (stage_of (calls run12 0)) (Running []) (errno_written (calls run12 0)) (out_pipe (calls run12 0) ++ ["a"]) (err_pipe (calls run12 0)) (out_reading (calls run12 0)) (err_reading (calls run12 0)) (out_captured (calls run12 0)) (err_captured (calls run12 0)) (inherited_error (calls run12 0)) (inherited_output (calls run12 0))).
Lemma reach13 : reachable 1 2 two_tools run13.
Proof. apply (go _ _ _ _ _ reach12). unfold run13. apply by_child; [lia|]. apply (put_out _ _ _ _ "a" []); [reflexivity|cbn; lia]. Qed.

Definition run14 : state := update run13 0 (set_child (calls run13 0) Exited).
Lemma reach14 : reachable 1 2 two_tools run14.
Proof. apply (go _ _ _ _ _ reach13). unfold run14. apply by_child; [lia|]. apply exits; reflexivity. Qed.

(** Here, the process of call 0 has exited, and that of call 1 has not. *)

Definition run15 : state := update run14 1 (mk_call (stage_of (calls run14 1)) (Running []) (errno_written (calls run14 1)) (out_pipe (calls run14 1)) (err_pipe (calls run14 1) ++ ["b"]) (out_reading (calls run14 1)) (err_reading (calls run14 1)) (out_captured (calls run14 1)) (err_captured (calls run14 1)) (inherited_error (calls run14 1)) (inherited_output (calls run14 1))).
Lemma reach15 : reachable 1 2 two_tools run15.
Proof. apply (go _ _ _ _ _ reach14). unfold run15. apply by_child; [lia|]. apply (put_err _ _ _ _ "b" []); [reflexivity|cbn; lia]. Qed.

Definition run16 : state := update run15 1 (set_child (calls run15 1) Exited).
Lemma reach16 : reachable 1 2 two_tools run16.
Proof. apply (go _ _ _ _ _ reach15). unfold run16. apply by_child; [lia|]. apply exits; reflexivity. Qed.

Definition run17 : state := advance run16 0 (set_stage (calls run16 0) Launched).
Lemma reach17 : reachable 1 2 two_tools run17.
Proof. apply (go _ _ _ _ _ reach16). unfold run17, advance. apply by_thread; [lia|]. apply read_end; [reflexivity|reflexivity|closed]. Qed.

Definition run18 : state := advance run17 0 (set_stage (calls run17 0) Waiting).
Lemma reach18 : reachable 1 2 two_tools run18.
Proof. apply (go _ _ _ _ _ reach17). unfold run18, advance. apply by_thread; [lia|]. apply close_outputs; reflexivity. Qed.

Definition run19 : state := advance run18 0 (set_stage (calls run18 0) JoiningOut).
Lemma reach19 : reachable 1 2 two_tools run19.
Proof. apply (go _ _ _ _ _ reach18). unfold run19, advance. apply by_thread; [lia|]. apply waitpid; reflexivity. Qed.

Definition run20 : state := update run19 0 (mk_call (stage_of (calls run19 0)) (child_of (calls run19 0)) (errno_written (calls run19 0)) [] (err_pipe (calls run19 0)) true (err_reading (calls run19 0)) (out_captured (calls run19 0) ++ ["a"]) (err_captured (calls run19 0)) (inherited_error (calls run19 0)) (inherited_output (calls run19 0))).
Lemma reach20 : reachable 1 2 two_tools run20.
Proof. apply (go _ _ _ _ _ reach19). unfold run20. apply by_reader; [lia|]. apply (read_out _ _ _ ["a"] []); [reflexivity|reflexivity|reflexivity|discriminate]. Qed.

Definition run21 : state := update run20 0 (mk_call (stage_of (calls run20 0)) (child_of (calls run20 0)) (errno_written (calls run20 0)) [] (err_pipe (calls run20 0)) false (err_reading (calls run20 0)) (out_captured (calls run20 0)) (err_captured (calls run20 0)) (inherited_error (calls run20 0)) (inherited_output (calls run20 0))).
Lemma reach21 : reachable 1 2 two_tools run21.
Proof. apply (go _ _ _ _ _ reach20). unfold run21. apply by_reader; [lia|]. apply end_out; [reflexivity|reflexivity|reflexivity|closed]. Qed.

Definition run22 : state := advance run21 0 (set_stage (calls run21 0) JoiningErr).
Lemma reach22 : reachable 1 2 two_tools run22.
Proof. apply (go _ _ _ _ _ reach21). unfold run22, advance. apply by_thread; [lia|]. apply join_out; reflexivity. Qed.

Definition run23 : state := update run22 0 (mk_call (stage_of (calls run22 0)) (child_of (calls run22 0)) (errno_written (calls run22 0)) (out_pipe (calls run22 0)) [] (out_reading (calls run22 0)) false (out_captured (calls run22 0)) (err_captured (calls run22 0)) (inherited_error (calls run22 0)) (inherited_output (calls run22 0))).
Lemma reach23 : reachable 1 2 two_tools run23.
Proof. apply (go _ _ _ _ _ reach22). unfold run23. apply by_reader; [lia|]. apply end_err; [reflexivity|reflexivity|reflexivity|closed]. Qed.

Definition run24 : state := advance run23 0 (set_stage (calls run23 0) Returned).
Lemma reach24 : reachable 1 2 two_tools run24.
Proof. apply (go _ _ _ _ _ reach23). unfold run24, advance. apply by_thread; [lia|]. apply join_err; reflexivity. Qed.

Definition run25 : state := advance run24 1 (set_stage (calls run24 1) Launched).
Lemma reach25 : reachable 1 2 two_tools run25.
Proof. apply (go _ _ _ _ _ reach24). unfold run25, advance. apply by_thread; [lia|]. apply read_end; [reflexivity|reflexivity|closed]. Qed.

Definition run26 : state := advance run25 1 (set_stage (calls run25 1) Waiting).
Lemma reach26 : reachable 1 2 two_tools run26.
Proof. apply (go _ _ _ _ _ reach25). unfold run26, advance. apply by_thread; [lia|]. apply close_outputs; reflexivity. Qed.

Definition run27 : state := update run26 1 (mk_call (stage_of (calls run26 1)) (child_of (calls run26 1)) (errno_written (calls run26 1)) (out_pipe (calls run26 1)) [] (out_reading (calls run26 1)) true (out_captured (calls run26 1)) (err_captured (calls run26 1) ++ ["b"]) (inherited_error (calls run26 1)) (inherited_output (calls run26 1))).
Lemma reach27 : reachable 1 2 two_tools run27.
Proof. apply (go _ _ _ _ _ reach26). unfold run27. apply by_reader; [lia|]. apply (read_err _ _ _ ["b"] []); [reflexivity|reflexivity|reflexivity|discriminate]. Qed.

Definition run28 : state := update run27 1 (mk_call (stage_of (calls run27 1)) (child_of (calls run27 1)) (errno_written (calls run27 1)) (out_pipe (calls run27 1)) [] (out_reading (calls run27 1)) false (out_captured (calls run27 1)) (err_captured (calls run27 1)) (inherited_error (calls run27 1)) (inherited_output (calls run27 1))).
Lemma reach28 : reachable 1 2 two_tools run28.
Proof. apply (go _ _ _ _ _ reach27). unfold run28. apply by_reader; [lia|]. apply end_err; [reflexivity|reflexivity|reflexivity|closed]. Qed.

Definition run29 : state := update run28 1 (mk_call (stage_of (calls run28 1)) (child_of (calls run28 1)) (errno_written (calls run28 1)) [] (err_pipe (calls run28 1)) false (err_reading (calls run28 1)) (out_captured (calls run28 1)) (err_captured (calls run28 1)) (inherited_error (calls run28 1)) (inherited_output (calls run28 1))).
Lemma reach29 : reachable 1 2 two_tools run29.
Proof. apply (go _ _ _ _ _ reach28). unfold run29. apply by_reader; [lia|]. apply end_out; [reflexivity|reflexivity|reflexivity|closed]. Qed.

Definition run30 : state := advance run29 1 (set_stage (calls run29 1) JoiningOut).
Lemma reach30 : reachable 1 2 two_tools run30.
Proof. apply (go _ _ _ _ _ reach29). unfold run30, advance. apply by_thread; [lia|]. apply waitpid; reflexivity. Qed.

Definition run31 : state := advance run30 1 (set_stage (calls run30 1) JoiningErr).
Lemma reach31 : reachable 1 2 two_tools run31.
Proof. apply (go _ _ _ _ _ reach30). unfold run31, advance. apply by_thread; [lia|]. apply join_out; reflexivity. Qed.

Definition run32 : state := advance run31 1 (set_stage (calls run31 1) Returned).
Lemma reach32 : reachable 1 2 two_tools run32.
Proof. apply (go _ _ _ _ _ reach31). unfold run32, advance. apply by_thread; [lia|]. apply join_err; reflexivity. Qed.

(** A run in which a tool can not be launched *)

Definition no_tool (i : nat) : option (list action) := None.

Lemma one_start : reachable 1 1 no_tool start.
Proof. exists 0. constructor. Qed.

Definition fail1 : state := advance start 0 (set_stage (calls start 0) Piped).
Lemma ends1 : reachable 1 1 no_tool fail1.
Proof. apply (go _ _ _ _ _ one_start). unfold fail1, advance. apply by_thread; [lia|]. apply make_pipes; reflexivity. Qed.

Definition fail2 : state := advance fail1 0 (set_stage (calls fail1 0) Locked).
Lemma ends2 : reachable 1 1 no_tool fail2.
Proof. apply (go _ _ _ _ _ ends1). unfold fail2, advance. apply by_thread; [lia|]. apply lock; [reflexivity|all_calls]. Qed.

Definition fail3 : state := advance fail2 0 (mk_call Forked Starting (errno_written (calls fail2 0)) (out_pipe (calls fail2 0)) (err_pipe (calls fail2 0)) (out_reading (calls fail2 0)) (err_reading (calls fail2 0)) (out_captured (calls fail2 0)) (err_captured (calls fail2 0)) (others holds_error fail2 0) (others holds_output fail2 0)).
Lemma ends3 : reachable 1 1 no_tool fail3.
Proof. apply (go _ _ _ _ _ ends2). unfold fail3, advance. apply by_thread; [lia|]. apply fork; reflexivity. Qed.

Definition fail4 : state := advance fail3 0 (set_stage (calls fail3 0) Closed).
Lemma ends4 : reachable 1 1 no_tool fail4.
Proof. apply (go _ _ _ _ _ ends3). unfold fail4, advance. apply by_thread; [lia|]. apply close_error; reflexivity. Qed.

Definition fail5 : state := advance fail4 0 (set_stage (calls fail4 0) ReadingError).
Lemma ends5 : reachable 1 1 no_tool fail5.
Proof. apply (go _ _ _ _ _ ends4). unfold fail5, advance. apply by_thread; [lia|]. apply unlock; reflexivity. Qed.

Definition fail6 : state := update fail5 0 (mk_call (stage_of (calls fail5 0)) Reporting true (out_pipe (calls fail5 0)) (err_pipe (calls fail5 0)) (out_reading (calls fail5 0)) (err_reading (calls fail5 0)) (out_captured (calls fail5 0)) (err_captured (calls fail5 0)) (inherited_error (calls fail5 0)) (inherited_output (calls fail5 0))).
Lemma ends6 : reachable 1 1 no_tool fail6.
Proof. apply (go _ _ _ _ _ ends5). unfold fail6. apply by_child; [lia|]. apply exec_fails; reflexivity. Qed.

Definition fail7 : state := advance fail6 0 (set_stage (calls fail6 0) LaunchFailed).
Lemma ends7 : reachable 1 1 no_tool fail7.
Proof. apply (go _ _ _ _ _ ends6). unfold fail7, advance. apply by_thread; [lia|]. apply read_errno; reflexivity. Qed.

Definition fail8 : state := update fail7 0 (set_child (calls fail7 0) Exited).
Lemma ends8 : reachable 1 1 no_tool fail8.
Proof. apply (go _ _ _ _ _ ends7). unfold fail8. apply by_child; [lia|]. apply give_up; reflexivity. Qed.
