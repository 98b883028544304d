(** Property C39: owning wrappers release what they own exactly once. *)

From Coq Require Import Bool Arith.
From Coq Require Import List.
From Verif Require Import OwnModel OwnSpec OwnProofs.
Import ListNotations.

(** C39 for UniqueFunction *)
Theorem C39_function : forall ops st, run uf_members start ops = Done st ->
  sound (history st) /\ ((forall x, variables st x = None) -> all_released (history st)).
Proof. exact uf_ok. Qed.
Print Assumptions C39_function.

(** C39 for Loader *)
Theorem C39_loader : forall ops st, run loader_members start ops = Done st ->
  sound (history st) /\ ((forall x, variables st x = None) -> all_released (history st)).
Proof. exact loader_ok. Qed.
Print Assumptions C39_loader.

(** C39 for InputFile, as long as there is no move assignment *)
Theorem C39_file_partial : forall ops st, (forall x y, ~ In (Assign x y) ops) -> run file_members start ops = Done st ->
  sound (history st) /\ ((forall x, variables st x = None) -> all_released (history st)).
Proof. exact file_ok. Qed.
Print Assumptions C39_file_partial.

(** In general: a handle is closed twice. *)
Theorem C39_file_refuted : exists ops st, run file_members start ops = Done st /\
  (forall x, variables st x = None) /\ history st = [Acquire 0; Acquire 1; Release 0; Release 0; Release 1] /\ ~ sound (history st).
Proof. exact file_twice. Qed.
Print Assumptions C39_file_refuted.

(** C39 for ScopeExitHandler, as long as there is no move assignment: a handler is run
    once, when the variable that holds it reaches its end. *)
Theorem C39_scope_partial : forall ops st, (forall x y, ~ In (Assign x y) ops) -> run scope_members start ops = Done st ->
  sound (history st) /\ ((forall x, variables st x = None) -> all_released (history st)).
Proof. exact scope_ok. Qed.
Print Assumptions C39_scope_partial.

(** In general: the handler that is assigned to is never run (and the behaviour is
    undefined, since there is no return statement). *)
Theorem C39_scope_refuted : exists ops st, run scope_members start ops = Done st /\
  (forall x, variables st x = None) /\ history st = [Acquire 0; Acquire 1; Release 1] /\ ~ all_released (history st).
Proof. exact scope_lost. Qed.
Print Assumptions C39_scope_refuted.

(** Copying a Loader from which something has been moved is undefined. *)
Theorem C39_copy_refuted : run loader_members start [New 0; MoveNew 1 0; Copy 2 0] = Undefined.
Proof. reflexivity. Qed.
Print Assumptions C39_copy_refuted.

(** Nothing is undefined in case of the other classes. *)
Theorem C39_defined : forall ops, run uf_members start ops <> Undefined /\ run file_members start ops <> Undefined.
Proof.
  intro ops. split; apply defined; try (intros; discriminate); intros o; cbn; try destruct (armed o); discriminate.
Qed.
Print Assumptions C39_defined.

Definition events_of {W : Type} (o : outcome (state W)) : option (list event) :=
  match o with Done st => Some (history st) | _ => None end.

Example functions :
  events_of (run uf_members start [New 0; New 1; MoveNew 2 0; Call 2; Assign 1 2; Assign 1 1; Drop 2; Drop 1; Drop 0])
  = Some [Acquire 0; Acquire 1; Use 0; Release 1; Release 0].
Proof. vm_compute. reflexivity. Qed.

Example moved_from : events_of (run uf_members start [New 0; MoveNew 1 0; Call 0]) = None.
Proof. vm_compute. reflexivity. Qed.

Example loaders :
  events_of (run loader_members start [New 0; Copy 1 0; Assign 0 1; Drop 1; Drop 0])
  = Some [Acquire 0; Use 0; Acquire 1; Release 0; Release 1].
Proof. vm_compute. reflexivity. Qed.

Example handlers :
  events_of (run scope_members start [New 0; MoveNew 1 0; Drop 0; New 2; MoveNew 0 1; Drop 0; Drop 1; Drop 2])
  = Some [Acquire 0; Acquire 1; Release 0; Release 1].
Proof. vm_compute. reflexivity. Qed.
