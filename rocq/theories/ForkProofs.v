(** Proofs about several tools that run at the same time. *)

From Coq Require Import Ascii List Bool Arith Lia.
From Verif Require Import Str ForkModel ForkSpec.
Import ListNotations.

Section Proofs.
Variable capacity number : nat.
Variable tool : nat -> option (list action).

Notation step := (step capacity number tool).
Notation steps := (steps capacity number tool).
Notation reachable := (reachable capacity number tool).
Notation child_step := (child_step capacity tool).

(** ** What holds of each call *)

Definition untouched (x : call) : Prop :=
  out_pipe x = [] /\ err_pipe x = [] /\ out_captured x = [] /\ err_captured x = [] /\
  out_reading x = true /\ err_reading x = true.

Definition wrote (x : call) (l : list action) : Prop :=
  out_captured x ++ out_pipe x = output l /\ err_captured x ++ err_pipe x = error_output l.

Definition data_ok (i : nat) (x : call) : Prop :=
  match child_of x with
  | NoChild | Starting => errno_written x = false /\ untouched x
  | Reporting => tool i = None /\ errno_written x = true /\ untouched x
  | Running todo =>
      errno_written x = false /\ out_reading x = true /\ err_reading x = true /\
      exists l, tool i = Some (l ++ todo) /\ wrote x l
  | Exited =>
      (tool i = None /\ errno_written x = true) \/
      (errno_written x = false /\ (out_reading x = false -> out_pipe x = []) /\
       (err_reading x = false -> err_pipe x = []) /\
       exists l, tool i = Some l /\ wrote x l)
  end.

Definition stage_ok (x : call) : Prop :=
  match stage_of x with
  | Entered | Piped | Locked | ForkFailed => child_of x = NoChild
  | Forked | Closed | ReadingError => child_of x <> NoChild /\ out_reading x = true /\ err_reading x = true
  | Launched => child_of x <> NoChild /\ before_exec (child_of x) = false /\ errno_written x = false /\
                out_reading x = true /\ err_reading x = true
  | Waiting => child_of x <> NoChild /\ before_exec (child_of x) = false /\ errno_written x = false
  | JoiningOut => child_of x = Exited /\ errno_written x = false
  | JoiningErr => child_of x = Exited /\ errno_written x = false /\ out_reading x = false
  | Returned => child_of x = Exited /\ errno_written x = false /\ out_reading x = false /\ err_reading x = false
  | LaunchFailed => errno_written x = true /\ child_of x <> NoChild
  end.

Definition call_ok (i : nat) (x : call) : Prop := data_ok i x /\ stage_ok x.

Lemma entered_ok : forall i, call_ok i entered.
Proof. intro i. unfold call_ok, data_ok, stage_ok, untouched; cbn. tauto. Qed.

Ltac crush :=
  unfold call_ok, data_ok, stage_ok, untouched, wrote in *; cbn in *;
  repeat match goal with H : _ /\ _ |- _ => destruct H end.

Lemma output_app : forall a b, output (a ++ b) = output a ++ output b.
Proof. intros. unfold output. apply flat_map_app. Qed.

Lemma error_output_app : forall a b, error_output (a ++ b) = error_output a ++ error_output b.
Proof. intros. unfold error_output. apply flat_map_app. Qed.

Lemma thread_step_ok : forall s i x y, calls s i = x -> call_ok i x -> thread_step s i x y -> call_ok i y.
Proof.
  intros s i x y Ex H T. destruct x as [st ch er op ep orr err oc ec ie io].
  destruct T as [E|E L|E|E|E|E|E W|E W C|E|E W|E W|E W]; crush; subst st; cbn in *;
    try (destruct ch; cbn in *; intuition (try discriminate; congruence)).
  - destruct C as (C1 & C2 & _). rewrite Ex in C2. cbn in C2.
    destruct ch; cbn in *; try discriminate C2; intuition (try discriminate; congruence).
Qed.

Lemma child_step_ok : forall i x y, call_ok i x -> child_step i x y -> call_ok i y.
Proof.
  intros i x y H T. destruct x as [st ch er op ep orr err oc ec ie io].
  destruct T as [actions E G|E G|E|c todo E L|c todo E L|E]; cbn in *; subst ch; crush.
  - split.
    + split; [assumption|]. split; [assumption|]. split; [assumption|].
      exists []. cbn. subst. auto.
    + destruct st; cbn in *; intuition discriminate.
  - split.
    + auto 10.
    + destruct st; cbn in *; intuition (try discriminate; congruence).
  - split; [left; auto|]. destruct st; cbn in *; intuition (try discriminate; congruence).
  - match goal with H : exists l, _ |- _ => destruct H as (l & Hl & W1 & W2) end. split.
    + split; [assumption|]. split; [assumption|]. split; [assumption|].
      exists (l ++ [PutOut c]). rewrite <- app_assoc. split; [exact Hl|].
      rewrite output_app, error_output_app. cbn. rewrite app_nil_r, app_assoc, W1, W2. auto.
    + destruct st; cbn in *; intuition (try discriminate; congruence).
  - match goal with H : exists l, _ |- _ => destruct H as (l & Hl & W1 & W2) end. split.
    + split; [assumption|]. split; [assumption|]. split; [assumption|].
      exists (l ++ [PutErr c]). rewrite <- app_assoc. split; [exact Hl|].
      rewrite output_app, error_output_app. cbn. rewrite app_nil_r, app_assoc, W1, W2. auto.
    + destruct st; cbn in *; intuition (try discriminate; congruence).
  - match goal with H : exists l, _ |- _ => destruct H as (l & Hl & W1 & W2) end.
    rewrite app_nil_r in Hl. split.
    + right. split; [assumption|]. split; [congruence|]. split; [congruence|]. exists l. auto.
    + destruct st; cbn in *; intuition (try discriminate; congruence).
Qed.

Lemma communicating_child : forall i x, call_ok i x -> communicating (stage_of x) = true ->
  errno_written x = false /\ ((exists todo, child_of x = Running todo) \/ child_of x = Exited).
Proof.
  intros i x (_ & H) C. unfold stage_ok in H. destruct (stage_of x); cbn in C; try discriminate C; try tauto.
  destruct H as (H1 & H2 & H3). split; [assumption|]. destruct (child_of x); cbn in *; try congruence; eauto.
Qed.

Lemma reader_stage : forall x y, stage_ok x -> stage_of y = stage_of x -> child_of y = child_of x ->
  errno_written y = errno_written x ->
  (out_reading x = false -> out_reading y = false) -> (err_reading x = false -> err_reading y = false) ->
  communicating (stage_of x) = true -> stage_ok y.
Proof.
  intros x y H E1 E2 E3 E4 E5 C. unfold stage_ok in *. rewrite E1, E2, E3.
  destruct (stage_of x); cbn in C; try discriminate C; try tauto.
Qed.

Lemma reader_step_ok : forall s i x y, calls s i = x -> call_ok i x -> reader_step s i x y -> call_ok i y.
Proof.
  intros s i x y Ex H T.
  assert (C : communicating (stage_of x) = true) by (destruct T; assumption).
  destruct (communicating_child i x H C) as (W & D).
  assert (S : stage_ok y).
  { destruct H as (_ & H). destruct T; (eapply reader_stage; [exact H|try reflexivity..|assumption]); cbn; auto; congruence. }
  split; [|exact S]. destruct H as (H & _). clear S. unfold data_ok in *.
  destruct T as [a rest _ R E N|_ R E N|a rest _ R E N|_ R E N]; cbn;
    (destruct D as [(todo & D)|D]; rewrite D in *;
     [ destruct H as (H1 & H2 & H3 & l & Hl & W1 & W2)
     | destruct H as [(H1 & H2)|(H1 & H2 & H3 & l & Hl & W1 & W2)]; [congruence|right] ]).
  - split; [assumption|]. split; [reflexivity|]. split; [assumption|]. exists l. split; [assumption|].
    unfold wrote; cbn. rewrite <- app_assoc, <- E. auto.
  - split; [assumption|]. split; [discriminate|]. split; [assumption|]. exists l. split; [assumption|].
    unfold wrote; cbn. rewrite <- app_assoc, <- E. auto.
  - destruct N as (_ & N & _). rewrite Ex, D in N. discriminate N.
  - split; [assumption|]. split; [reflexivity|]. split; [assumption|]. exists l. split; [assumption|].
    unfold wrote; cbn. rewrite E in W1. auto.
  - split; [assumption|]. split; [assumption|]. split; [reflexivity|]. exists l. split; [assumption|].
    unfold wrote; cbn. rewrite <- app_assoc, <- E. auto.
  - split; [assumption|]. split; [assumption|]. split; [discriminate|]. exists l. split; [assumption|].
    unfold wrote; cbn. rewrite <- app_assoc, <- E. auto.
  - destruct N as (_ & N & _). rewrite Ex, D in N. discriminate N.
  - split; [assumption|]. split; [assumption|]. split; [reflexivity|]. exists l. split; [assumption|].
    unfold wrote; cbn. rewrite E in W2. auto.
Qed.

(** ** What holds of all calls together *)

Record inv (s : state) : Prop := mk_inv {
  each : forall i, call_ok i (calls s i);
  outside : forall i, number <= i -> calls s i = entered;
  one_lock : forall i j, holds_lock (stage_of (calls s i)) = true -> holds_lock (stage_of (calls s j)) = true -> i = j;
  once : NoDup (forks s);
  members : forall i, In i (forks s) <-> child_of (calls s i) <> NoChild;
  order : forall l1 k l2 i, forks s = l1 ++ k :: l2 -> inherited_error (calls s k) i = true -> ~ In i l2 /\ i <> k;
  error_open : forall k i, live (child_of (calls s k)) = true -> inherited_error (calls s k) i = true ->
    match stage_of (calls s i) with
    | Piped | Locked | Forked | Closed | ReadingError | LaunchFailed | ForkFailed => True | _ => False end;
  output_open : forall k i, live (child_of (calls s k)) = true -> inherited_output (calls s k) i = true ->
    stage_of (calls s i) <> Entered /\
    (out_reading (calls s i) = true /\ err_reading (calls s i) = true)
}.

Lemma update_same : forall s i x, calls (update s i x) i = x.
Proof. intros. cbn. rewrite Nat.eqb_refl. reflexivity. Qed.

Lemma update_other : forall s i x j, j <> i -> calls (update s i x) j = calls s j.
Proof. intros s i x j N. cbn. apply Nat.eqb_neq in N. rewrite N. reflexivity. Qed.

Lemma calls_case : forall s i x j (P : call -> Prop),
  (j = i -> P x) -> (j <> i -> P (calls s j)) -> P (calls (update s i x) j).
Proof. intros s i x j P A B. cbn. destruct (Nat.eqb_spec j i); auto. Qed.

Lemma start_inv : inv start.
Proof.
  split; cbn.
  - intro i. apply entered_ok.
  - reflexivity.
  - discriminate.
  - constructor.
  - intro i. split; [tauto|congruence].
  - intros l1 k l2 i E. destruct l1; discriminate E.
  - discriminate.
  - discriminate.
Qed.

(** A step in which no process is created *)
Lemma quiet_inv : forall s i x,
  inv s -> i < number -> call_ok i x ->
  (child_of x = NoChild <-> child_of (calls s i) = NoChild) ->
  (live (child_of x) = true -> live (child_of (calls s i)) = true) ->
  inherited_error x = inherited_error (calls s i) ->
  inherited_output x = inherited_output (calls s i) ->
  (holds_lock (stage_of x) = true -> holds_lock (stage_of (calls s i)) = true \/
     forall j, holds_lock (stage_of (calls s j)) = false) ->
  (match stage_of x with
   | Piped | Locked | Forked | Closed | ReadingError | LaunchFailed | ForkFailed => True
   | _ => (stage_of x <> Entered \/ stage_of (calls s i) = Entered) /\
          ((match stage_of (calls s i) with
            | Piped | Locked | Forked | Closed | ReadingError | LaunchFailed | ForkFailed => False
            | _ => True end) \/ error_closed s i) end) ->
  (out_reading x = out_reading (calls s i) /\ err_reading x = err_reading (calls s i)
   \/ output_closed s i) ->
  inv (update s i x).
Proof.
  intros s i x I Hi Ok Hc Hl He Ho Hk Hs Hr. split.
  - intro j. apply calls_case; [intros ->; exact Ok|intros _; apply I].
  - intros j Hj. rewrite update_other by lia. apply I. exact Hj.
  - intros j k. cbn. destruct (Nat.eqb_spec j i) as [->|Nj], (Nat.eqb_spec k i) as [->|Nk]; auto.
    + intros A B. destruct (Hk A) as [C|C]; [apply (one_lock s I); assumption|rewrite C in B; discriminate B].
    + intros A B. destruct (Hk B) as [C|C]; [apply (one_lock s I); assumption|rewrite C in A; discriminate A].
    + apply (one_lock s I).
  - apply (once s I).
  - intro j. cbn [forks update]. apply calls_case; [intros ->|intros _; apply I]. rewrite Hc. apply I.
  - intros l1 k l2 j E. cbn [forks update] in E. apply calls_case.
    + intros ->. rewrite He. apply (order s I _ _ _ _ E).
    + intros _. apply (order s I _ _ _ _ E).
  - intros k j.
    assert (A : live (child_of (calls (update s i x) k)) = true -> inherited_error (calls (update s i x) k) j = true ->
                live (child_of (calls s k)) = true /\ inherited_error (calls s k) j = true).
    { apply calls_case; [intros ->; rewrite He|]; auto. }
    intros B C. destruct (A B C) as (B' & C'). clear A B C. assert (D := error_open s I k j B' C').
    apply calls_case; [intros ->|intros _; exact D].
    destruct (stage_of x) eqn:Ex; auto; destruct Hs as (_ & [Hs|Hs]);
      try (destruct (stage_of (calls s i)); contradiction);
      destruct Hs as (_ & _ & Hs); rewrite (Hs k B') in C'; discriminate C'.
  - intros k j.
    assert (A : live (child_of (calls (update s i x) k)) = true -> inherited_output (calls (update s i x) k) j = true ->
                live (child_of (calls s k)) = true /\ inherited_output (calls s k) j = true).
    { apply calls_case; [intros ->; rewrite Ho|]; auto. }
    intros B C. destruct (A B C) as (B' & C'). clear A B C. assert (D := output_open s I k j B' C').
    apply calls_case; [intros ->|intros _; exact D]. split.
    + destruct D as (D & _). destruct (stage_of x); try discriminate. destruct Hs as (Hs & _). tauto.
    + destruct Hr as [(Hr1 & Hr2)|(_ & _ & Hr)]; [rewrite Hr1, Hr2; tauto|].
      rewrite (Hr k B') in C'. discriminate C'.
Qed.

Lemma forks_quiet : forall s i x y, forked i x y (forks s) = forks s ->
  mk_state (calls (update s i y)) (forked i x y (forks s)) = update s i y.
Proof. intros s i x y E. rewrite E. reflexivity. Qed.

Lemma step_inv : forall s t, inv s -> step s t -> inv t.
Proof.
  intros s t I T. destruct T as [s i y Hi T|s i y Hi T|s i y Hi T].
  - assert (Ok : call_ok i y) by (eapply thread_step_ok; [reflexivity|apply I|exact T]).
    assert (Sx : stage_ok (calls s i)) by apply I.
    destruct T as [E|E L|E|E|E|E|E W|E W C|E|E W|E W|E W];
      try (rewrite forks_quiet by (unfold forked; rewrite E; reflexivity);
           apply quiet_inv; auto; cbn; rewrite ?E; cbn; try tauto; try discriminate; (split; [left; discriminate|tauto]) || fail).
    + (* fork *)
      unfold forked; rewrite E; cbn [stage_of]. set (x := mk_call _ _ _ _ _ _ _ _ _ _ _) in *.
      unfold stage_ok in Sx. rewrite E in Sx.
      assert (Lk : forall j, j <> i -> holds_lock (stage_of (calls s j)) = false).
      { intros j N. destruct (holds_lock (stage_of (calls s j))) eqn:Ej; [|reflexivity].
        exfalso. apply N. apply (one_lock s I); [exact Ej|rewrite E; reflexivity]. }
      split; cbn [forks calls].
      * intro j. apply calls_case; [intros ->; exact Ok|intros _; apply I].
      * intros j Hj. rewrite update_other by lia. apply I. exact Hj.
      * intros j k. cbn. destruct (Nat.eqb_spec j i) as [->|Nj], (Nat.eqb_spec k i) as [->|Nk]; auto.
        -- rewrite (Lk k Nk). discriminate.
        -- rewrite (Lk j Nj). discriminate.
        -- apply (one_lock s I).
      * constructor; [|apply I]. intro A. apply (members s I) in A. contradiction.
      * intro j. apply calls_case.
        -- intros ->. cbn. split; [discriminate|auto].
        -- intro N. rewrite <- (members s I). cbn. split; [intros [A|A]; [congruence|exact A]|auto].
      * intros l1 k l2 j. destruct l1 as [|m l1]; cbn [app]; intros Ef; injection Ef as -> Ef.
        -- rewrite update_same. cbn. unfold others. intro A. apply andb_prop in A. destruct A as (A & B).
           apply negb_true_iff, Nat.eqb_neq in A. split; [|exact A]. rewrite <- Ef. intro C.
           apply (members s I) in C. assert (D := Lk j A). assert (F := each s I j). destruct F as (_ & F).
           unfold stage_ok in F. destruct (stage_of (calls s j)); cbn in *; try discriminate; contradiction.
        -- assert (In k (forks s)) by (rewrite Ef; apply in_or_app; right; left; reflexivity).
           rewrite update_other; [apply (order s I _ _ _ _ Ef)|].
           intros ->. apply (members s I) in H. contradiction.
      * intros k j. apply calls_case.
        -- intros ->. cbn [inherited_error x]. intros _ A. unfold others in A. apply andb_prop in A. destruct A as (A & B).
           apply negb_true_iff, Nat.eqb_neq in A. rewrite update_other by exact A.
           destruct (stage_of (calls s j)); cbn in B; try discriminate B; exact Logic.I.
        -- intros _ A B. assert (D := error_open s I k j A B). apply calls_case; [intros _; exact Logic.I|auto].
      * intros k j. apply calls_case.
        -- intros ->. cbn [inherited_output x]. intros _ A. unfold others in A. apply andb_prop in A. destruct A as (A & B).
           apply negb_true_iff, Nat.eqb_neq in A. rewrite update_other by exact A.
           assert (F := each s I j). destruct F as (G & F). unfold data_ok, untouched, stage_ok in F, G.
           destruct (stage_of (calls s j)); cbn in B; try discriminate B; try (split; [discriminate|]); try tauto;
             rewrite F in G; tauto.
        -- intros _ A B. assert (D := output_open s I k j A B). apply calls_case; [|auto].
           intros ->. cbn. split; [discriminate|apply D].
  - assert (Ok : call_ok i y) by (eapply child_step_ok; [apply I|exact T]).
    apply quiet_inv; auto; destruct T as [actions E G|E G|E|c todo E L|c todo E L|E]; cbn; rewrite ?E; cbn; auto;
      try (split; discriminate); try discriminate;
      destruct (stage_of (calls s i)); auto; (split; [auto; left; discriminate|auto]).
  - assert (Ok : call_ok i y) by (eapply reader_step_ok; [reflexivity|apply I|exact T]).
    apply quiet_inv; auto; destruct T as [a rest C R E N|C R E N|a rest C R E N|C R E N]; cbn; auto; try tauto;
      destruct (stage_of (calls s i)); cbn in C; try discriminate C; (split; [left; discriminate|left; exact Logic.I]).
Qed.

Lemma reachable_inv : forall s, reachable s -> inv s.
Proof.
  intros s (n & H). remember start as s0. induction H as [s|n s1 s2 s3 H IH T]; subst.
  - apply start_inv.
  - eapply step_inv; [apply IH; reflexivity|exact T].
Qed.

(** ** What is returned *)

Lemma separate : forall s i, reachable s -> returned s i ->
  exists l, tool i = Some l /\ out_captured (calls s i) = output l /\ err_captured (calls s i) = error_output l /\ exited s i.
Proof.
  intros s i R H. assert (I := reachable_inv s R). destruct (each s I i) as (D & S).
  unfold returned in H. unfold stage_ok in S. rewrite H in S. destruct S as (S1 & S2 & S3 & S4).
  unfold data_ok in D. rewrite S1 in D. destruct D as [(D1 & D2)|(D1 & D2 & D3 & l & Hl & W1 & W2)]; [congruence|].
  exists l. split; [exact Hl|]. rewrite (D2 S3), app_nil_r in W1. rewrite (D3 S4), app_nil_r in W2. auto.
Qed.

Lemma failed_errno : forall s i, inv s -> launch_failed s i -> tool i = None.
Proof.
  intros s i I H. destruct (each s I i) as (D & S).
  unfold launch_failed in H. unfold stage_ok in S. rewrite H in S. destruct S as (S1 & S2).
  unfold data_ok in D. destruct (child_of (calls s i)); try tauto.
  - destruct D; congruence.
  - destruct D; congruence.
  - destruct D as [D|D]; [tauto|]. destruct D; congruence.
Qed.

Lemma failed : forall s i, reachable s -> launch_failed s i -> tool i = None.
Proof. intros s i R. apply failed_errno, reachable_inv, R. Qed.

(** ** There is always something that can happen *)

Lemma by_call : forall s i y, i < number ->
  (thread_step s i (calls s i) y \/ reader_step s i (calls s i) y) ->
  exists t, step s t /\ calls t i = y /\ forall j, j <> i -> calls t j = calls s j.
Proof.
  intros s i y Hi [T|T].
  - eexists. split; [apply by_thread; [exact Hi|exact T]|]. cbn [calls]. split; [apply update_same|].
    intros j N. apply update_other, N.
  - eexists. split; [apply by_reader; [exact Hi|exact T]|]. split; [apply update_same|].
    intros j N. apply update_other, N.
Qed.

Lemma has_child : forall s i, inv s -> child_of (calls s i) <> NoChild -> i < number.
Proof.
  intros s i I H. destruct (le_lt_dec number i) as [L|L]; [|exact L].
  exfalso. apply H. rewrite (outside s I i L). reflexivity.
Qed.

Lemma last_steps : forall s i, inv s -> exited s i ->
  (forall j, live (child_of (calls s j)) = true -> inherited_error (calls s j) i = false /\ inherited_output (calls s j) i = false) ->
  ended s i \/ exists y, (thread_step s i (calls s i) y \/ reader_step s i (calls s i) y) /\ child_of y = Exited.
Proof.
  intros s i I E N. destruct (each s I i) as (D & S). unfold exited in E. unfold stage_ok in S.
  destruct (stage_of (calls s i)) eqn:Es; try (rewrite S in E; discriminate E).
  - right. eexists. split; [left; apply close_error; exact Es|exact E].
  - right. eexists. split; [left; apply unlock; exact Es|exact E].
  - right. destruct (errno_written (calls s i)) eqn:Ee.
    + eexists. split; [left; apply read_errno; assumption|exact E].
    + eexists. split; [left; apply read_end; try assumption|exact E].
      split; [rewrite Es; reflexivity|]. split; [rewrite E; reflexivity|]. intros j L. apply N, L.
  - right. eexists. split; [left; apply close_outputs; exact Es|exact E].
  - right. eexists. split; [left; apply waitpid; assumption|exact E].
  - right. destruct (out_reading (calls s i)) eqn:R.
    + destruct (out_pipe (calls s i)) as [|c l] eqn:P.
      * eexists. split; [right; apply end_out; try assumption; [rewrite Es; reflexivity|]|exact E].
        split; [rewrite Es; reflexivity|]. split; [rewrite E; reflexivity|]. intros j L. apply N, L.
      * eexists. split; [right; apply (read_out _ _ _ (c :: l) []); try assumption|exact E].
        -- rewrite Es; reflexivity.
        -- rewrite app_nil_r. exact P.
        -- discriminate.
    + eexists. split; [left; apply join_out; assumption|exact E].
  - right. destruct (err_reading (calls s i)) eqn:R.
    + destruct (err_pipe (calls s i)) as [|c l] eqn:P.
      * eexists. split; [right; apply end_err; try assumption; [rewrite Es; reflexivity|]|exact E].
        split; [rewrite Es; reflexivity|]. split; [rewrite E; reflexivity|]. intros j L. apply N, L.
      * eexists. split; [right; apply (read_err _ _ _ (c :: l) []); try assumption|exact E].
        -- rewrite Es; reflexivity.
        -- rewrite app_nil_r. exact P.
        -- discriminate.
    + eexists. split; [left; apply join_err; assumption|exact E].
  - left. left. exact Es.
  - left. right. left. exact Es.
Qed.

Lemma decide_below : forall (P : nat -> Prop), (forall i, {P i} + {~ P i}) -> forall n,
  (exists i, i < n /\ P i) \/ (forall i, i < n -> ~ P i).
Proof.
  intros P D n. induction n as [|n [(i & Hi & H)|H]].
  - right. intros i Hi. lia.
  - left. exists i. split; [lia|exact H].
  - destruct (D n) as [Y|N]; [left; exists n; auto|].
    right. intros i Hi. assert (i < n \/ i = n) as [L| ->] by lia; auto.
Qed.

Lemma oldest : forall (P : nat -> Prop), (forall i, {P i} + {~ P i}) -> forall l, (exists i, In i l /\ P i) ->
  exists l1 k l2, l = l1 ++ k :: l2 /\ P k /\ forall j, In j l2 -> ~ P j.
Proof.
  intros P D l. induction l as [|a l IH]; intros (i & Hi & H); [destruct Hi|].
  destruct (Exists_dec P l D) as [Y|N].
  - apply Exists_exists in Y. destruct (IH Y) as (l1 & k & l2 & -> & Hk & Hl). exists (a :: l1), k, l2. auto.
  - exists [], a, l. split; [reflexivity|]. assert (Q : forall j, In j l -> ~ P j).
    { intros j Hj Pj. apply N, Exists_exists. eauto. }
    split; [|exact Q]. destruct Hi as [->|Hi]; [exact H|]. destruct (Q i Hi H).
Qed.

Lemma no_deadlock : forall s, 0 < capacity -> reachable s ->
  (forall i, i < number -> ended s i) \/ exists t, step s t.
Proof.
  intros s Hc R. assert (I := reachable_inv s R).
  (* somebody has the lock, or has not asked for it *)
  destruct (decide_below (fun i => match stage_of (calls s i) with Entered | Piped | Locked | Forked | Closed => True | _ => False end)) with (n := number)
    as [(i & Hi & H)|Early].
  { intro i. destruct (stage_of (calls s i)); tauto. }
  { right.
    destruct (decide_below (fun i => holds_lock (stage_of (calls s i)) = true)) with (n := number) as [(j & Hj & L)|L].
    { intro j. apply bool_dec. }
    - destruct (stage_of (calls s j)) eqn:E; cbn in L; try discriminate L;
        eexists; (apply by_thread; [exact Hj|]).
      + apply fork, E.
      + apply close_error, E.
      + apply unlock, E.
    - assert (L' : forall j, holds_lock (stage_of (calls s j)) = false).
      { intro j. destruct (le_lt_dec number j) as [G|G]; [rewrite (outside s I j G); reflexivity|].
        apply not_true_iff_false, L, G. }
      destruct (stage_of (calls s i)) eqn:E; try contradiction;
        try (assert (A := L' i); rewrite E in A; discriminate A);
        eexists; (apply by_thread; [exact Hi|]).
      + apply make_pipes, E.
      + apply lock; [exact E|exact L']. }
  (* a process is running *)
  destruct (Exists_dec (fun i => live (child_of (calls s i)) = true) (forks s)) as [Y|N].
  { intro i. apply bool_dec. }
  { right. apply Exists_exists in Y.
    destruct (oldest (fun i => live (child_of (calls s i)) = true)) with (l := forks s) as (l1 & k & l2 & Ef & Hk & Hl).
    { intro i. apply bool_dec. } { exact Y. }
    assert (Hn : k < number).
    { apply (has_child s k I), (members s I). rewrite Ef. apply in_or_app. right. left. reflexivity. }
    destruct (each s I k) as (D & S).
    destruct (child_of (calls s k)) as [| | |todo|] eqn:Ec; cbn in Hk; try discriminate Hk.
    - destruct (tool k) as [actions|] eqn:Et; eexists; (apply by_child; [exact Hn|]).
      + apply (exec _ _ _ _ actions); assumption.
      + apply exec_fails; assumption.
    - eexists; apply by_child; [exact Hn|]. apply give_up, Ec.
    - unfold data_ok in D. rewrite Ec in D. destruct D as (D1 & D2 & D3 & _).
      assert (Drain : out_pipe (calls s k) <> [] \/ err_pipe (calls s k) <> [] -> exists t, step s t).
      { intro Ne. unfold stage_ok in S. assert (A := Early k Hn).
        destruct (stage_of (calls s k)) eqn:Es; try tauto.
        - eexists. apply by_thread; [exact Hn|]. apply read_end; [exact Es|exact D1|].
          split; [rewrite Es; reflexivity|]. split; [rewrite Ec; reflexivity|]. intros j Lj.
          destruct (inherited_error (calls s j) k) eqn:Ei; [|reflexivity]. exfalso.
          assert (Hj : In j (forks s)).
          { apply (members s I). intro Q. rewrite Q in Lj. discriminate Lj. }
          apply in_split in Hj. destruct Hj as (m1 & m2 & Em).
          destruct (order s I _ _ _ _ Em Ei) as (O1 & O2).
          assert (Kj : ~ In j l2) by (intro Q; exact (Hl j Q Lj)).
          (* j comes before k, and k before j *)
          assert (In k m1).
          { assert (Q : In k (forks s)) by (rewrite Ef; apply in_or_app; right; left; reflexivity).
            rewrite Em in Q. apply in_app_or in Q. destruct Q as [Q|[Q|Q]]; [exact Q|congruence|contradiction]. }
          apply in_split in H. destruct H as (n1 & n2 & ->). assert (U := once s I).
          rewrite <- app_assoc in Em. cbn in Em. assert (E2 := Ef). rewrite Em in E2.
          assert (n1 = l1 /\ n2 ++ j :: m2 = l2) as (_ & Q).
          { rewrite Em in U. clear - E2 U. revert l1 E2 U. induction n1 as [|a n1 IH]; intros [|b l1] E U; cbn in *.
            - injection E as E. auto.
            - injection E as -> E. exfalso. inversion U as [|? ? U1 U2]. apply U1. rewrite E. apply in_or_app. right. left. reflexivity.
            - injection E as -> E. exfalso. inversion U as [|? ? U1 U2]. apply U1. apply in_or_app. right. left. reflexivity.
            - injection E as -> E. inversion U as [|? ? U1 U2]. destruct (IH l1 E U2) as (-> & ->). auto. }
          apply Kj. rewrite <- Q. apply in_or_app. right. left. reflexivity.
        - eexists. apply by_thread; [exact Hn|]. apply close_outputs, Es.
        - destruct Ne as [Ne|Ne]; eexists; (apply by_reader; [exact Hn|]).
          + eapply (read_out _ _ _ (out_pipe (calls s k)) []); [rewrite Es; reflexivity|assumption|symmetry; apply app_nil_r|assumption].
          + eapply (read_err _ _ _ (err_pipe (calls s k)) []); [rewrite Es; reflexivity|assumption|symmetry; apply app_nil_r|assumption].
        - destruct S as (S & _). congruence.
        - destruct S as (S & _). congruence.
        - destruct S as (S & _). congruence.
        - destruct S as (S & _). congruence.
        - congruence. }
      destruct todo as [|[c|c] todo].
      + eexists; apply by_child; [exact Hn|]. apply exits, Ec.
      + destruct (le_lt_dec capacity (length (out_pipe (calls s k)))) as [G|G].
        * apply Drain. left. intro Q. rewrite Q in G. cbn in G. lia.
        * eexists; apply by_child; [exact Hn|]. apply (put_out _ _ _ _ c todo); assumption.
      + destruct (le_lt_dec capacity (length (err_pipe (calls s k)))) as [G|G].
        * apply Drain. right. intro Q. rewrite Q in G. cbn in G. lia.
        * eexists; apply by_child; [exact Hn|]. apply (put_err _ _ _ _ c todo); assumption. }
  (* all processes have exited *)
  assert (N' : forall j, live (child_of (calls s j)) = false).
  { intro j. destruct (live (child_of (calls s j))) eqn:L; [|reflexivity]. exfalso. apply N, Exists_exists.
    exists j. split; [|exact L]. apply (members s I). intro Q. rewrite Q in L. discriminate L. }
  destruct (decide_below (fun i => ~ ended s i)) with (n := number) as [(i & Hi & H)|All].
  { intro i. unfold ended, returned, launch_failed.
    destruct (stage_of (calls s i)); (left; intuition discriminate) || (right; tauto). }
  - right. destruct (each s I i) as (D & S).
    assert (E : exited s i).
    { unfold exited. assert (L := N' i). destruct (child_of (calls s i)) eqn:Ec; cbn in L; try discriminate L; [|reflexivity].
      exfalso. unfold stage_ok in S. rewrite Ec in S. assert (A := Early i Hi).
      unfold ended, returned, launch_failed in H.
      destruct (stage_of (calls s i)); try tauto; try (destruct S as (S & _); try discriminate S; congruence). }
    destruct (last_steps s i I E) as [Q|(y & T & _)].
    + intros j L. rewrite (N' j) in L. discriminate L.
    + contradiction.
    + destruct (by_call s i y Hi T) as (t & St & _). exists t. exact St.
  - left. intros i Hi. assert (Q := All i Hi). unfold ended, returned, launch_failed in *.
    destruct (stage_of (calls s i)); auto; exfalso; apply Q; intuition discriminate.
Qed.

(** ** It ends *)

Definition stage_rank (s : stage) : nat :=
  match s with
  | Entered => 10 | Piped => 9 | Locked => 8 | Forked => 7 | Closed => 6 | ReadingError => 5 | Launched => 4
  | Waiting => 3 | JoiningOut => 2 | JoiningErr => 1 | Returned | LaunchFailed | ForkFailed => 0
  end.

Definition child_rank (i : nat) (c : child) : nat :=
  match c with
  | NoChild | Starting => 2 + 2 * length_of (tool i)
  | Reporting => 1
  | Running todo => 1 + 2 * length todo
  | Exited => 0
  end.

Definition flag (b : bool) : nat := if b then 1 else 0.

Definition rank (i : nat) (x : call) : nat :=
  stage_rank (stage_of x) + child_rank i (child_of x) + length (out_pipe x) + length (err_pipe x)
  + flag (out_reading x) + flag (err_reading x).

Lemma thread_rank : forall s i x y, stage_ok x -> thread_step s i x y -> rank i y < rank i x.
Proof.
  intros s i x y S T. unfold rank.
  destruct T as [E|E L|E|E|E|E|E W|E W C|E|E W|E W|E W]; unfold stage_ok in S; cbn; rewrite E in *; cbn;
    rewrite ?S; cbn; lia.
Qed.

Lemma child_rank_less : forall i x y, child_step i x y -> rank i y < rank i x.
Proof.
  intros i x y T. unfold rank.
  destruct T as [actions E G|E G|E|c todo E L|c todo E L|E]; cbn; rewrite E; cbn; rewrite ?G, ?app_length; cbn; lia.
Qed.

Lemma reader_rank : forall s i x y, reader_step s i x y -> rank i y < rank i x.
Proof.
  intros s i x y T. unfold rank.
  destruct T as [a rest C R E N|C R E N|a rest C R E N|C R E N]; cbn; rewrite R, E; cbn; rewrite ?app_length.
  - destruct a; [contradiction|]. cbn. lia.
  - lia.
  - destruct a; [contradiction|]. cbn. lia.
  - lia.
Qed.

Lemma total_update : forall (f g : nat -> nat) i n, i < n -> (forall j, j <> i -> f j = g j) -> f i < g i ->
  total f n < total g n.
Proof.
  intros f g i n Hi E L. induction n as [|n IH]; [lia|]. cbn.
  assert (i < n \/ i = n) as [H| ->] by lia.
  - rewrite (E n) by lia. specialize (IH H). lia.
  - assert (total f n = total g n); [|lia].
    assert (Q : forall m, m <= n -> total f m = total g m); [|apply Q; lia].
    induction m as [|m IHm]; [reflexivity|]. intro Hm. cbn. rewrite IHm, (E m) by lia. reflexivity.
Qed.

Definition measure (s : state) : nat := total (fun i => rank i (calls s i)) number.

Lemma step_measure : forall s t, inv s -> step s t -> measure t < measure s.
Proof.
  intros s t I T.
  assert (H : exists i, i < number /\ (forall j, j <> i -> calls t j = calls s j) /\ rank i (calls t i) < rank i (calls s i)).
  { destruct T as [s i y Hi T|s i y Hi T|s i y Hi T]; exists i; (split; [exact Hi|]); cbn [calls];
      (split; [intros j N; apply update_other, N|rewrite update_same]).
    - eapply thread_rank; [apply I|exact T].
    - apply child_rank_less, T.
    - eapply reader_rank, T. }
  destruct H as (i & Hi & E & L). apply total_update with (i := i); [exact Hi| |exact L].
  intros j N. rewrite (E j N). reflexivity.
Qed.

Lemma steps_measure : forall n s t, steps n s t -> inv s -> inv t /\ n + measure t <= measure s.
Proof.
  intros n s t H I. induction H as [s|n s1 s2 s3 H IH T]; [split; [exact I|lia]|].
  destruct (IH I) as (I2 & L). split; [eapply step_inv; eassumption|].
  assert (M := step_measure _ _ I2 T). lia.
Qed.

Lemma total_ext : forall f g n, (forall i, f i = g i) -> total f n = total g n.
Proof. intros f g n E. induction n as [|n IH]; [reflexivity|]. cbn. rewrite IH, E. reflexivity. Qed.

Lemma bounded : forall n s, steps n start s -> n <= total (fun i => 14 + 2 * length_of (tool i)) number.
Proof.
  intros n s H. destruct (steps_measure _ _ _ H start_inv) as (_ & L).
  assert (E : measure start = total (fun i => 14 + 2 * length_of (tool i)) number); [|lia].
  unfold measure. apply total_ext. intro i. unfold rank. cbn. lia.
Qed.

(** ** Waiting for others *)

Lemma prompt : forall s i l, reachable s -> exited s i -> tool i = Some l ->
  (forall k, running s k -> ~ inherited s k i) ->
  exists t, own_steps capacity number tool i s t /\ returned t i.
Proof.
  intros s i l R E Ht N. apply reachable_inv in R.
  assert (Q : forall n s, measure s <= n -> inv s -> exited s i -> (forall k, running s k -> ~ inherited s k i) ->
                          exists t, own_steps capacity number tool i s t /\ returned t i);
    [|exact (Q (measure s) s (Nat.le_refl _) R E N)].
  assert (Cons : forall a b c, step a b -> (forall j, j <> i -> calls b j = calls a j) ->
                 own_steps capacity number tool i b c -> own_steps capacity number tool i a c).
  { intros a b c T1 T2 O. induction O as [b|b c d O IH T3 T4].
    - eapply own_more; [apply own_none|exact T1|exact T2].
    - eapply own_more; [apply IH; [exact T1|exact T2]|exact T3|exact T4]. }
  clear s R E N. intro n. induction n as [|n IH]; intros s M I E N.
  all: destruct (last_steps s i I E) as [H|(y & T & Ey)].
  1, 4: intros j L; split; apply not_true_iff_false; intro Q; apply (N j L); [left|right]; exact Q.
  1, 3: exists s; split; [apply own_none|]; destruct H as [H|[H|H]];
        [ exact H
        | rewrite (failed_errno s i I H) in Ht; discriminate Ht
        | destruct (each s I i) as (_ & S); unfold stage_ok in S; rewrite H in S; unfold exited in E; congruence ].
  - assert (Hi : i < number) by (apply (has_child s i I); unfold exited in E; congruence).
    destruct (by_call s i y Hi T) as (t & St & _). assert (A := step_measure _ _ I St). lia.
  - assert (Hi : i < number) by (apply (has_child s i I); unfold exited in E; congruence).
    destruct (by_call s i y Hi T) as (t & St & Et & Eo). assert (A := step_measure _ _ I St).
    destruct (IH t) as (u & O & U).
    + lia.
    + eapply step_inv; eassumption.
    + unfold exited. rewrite Et. exact Ey.
    + intros k L Q. destruct (Nat.eq_dec k i) as [->|Nk].
      * unfold running in L. rewrite Et, Ey in L. discriminate L.
      * unfold running in L. unfold inherited in Q. rewrite (Eo k Nk) in L, Q. exact (N k L Q).
    + exists u. split; [eapply Cons; eassumption|exact U].
Qed.

Lemma own_reachable : forall i s t, own_steps capacity number tool i s t -> reachable s -> reachable t.
Proof.
  intros i s t O R. induction O as [s|s1 s2 s3 O IH T _]; [exact R|].
  destruct (IH R) as (n & H). exists (S n). eapply steps_more; eassumption.
Qed.

Lemma own_others : forall i s t, own_steps capacity number tool i s t -> forall j, j <> i -> calls t j = calls s j.
Proof.
  intros i s t O. induction O as [s|s1 s2 s3 O IH _ E]; [reflexivity|].
  intros j N. rewrite (E j N). apply IH, N.
Qed.

Lemma held : forall s k i, reachable s -> running s k -> inherited s k i -> ~ returned s i.
Proof.
  intros s k i R L H U. apply reachable_inv in R. destruct H as [H|H].
  - assert (Q := error_open s R k i L H). unfold returned in U. rewrite U in Q. exact Q.
  - assert (Q := output_open s R k i L H). destruct (each s R i) as (_ & S). unfold stage_ok in S.
    unfold returned in U. rewrite U in S. destruct S as (_ & _ & S & _). destruct Q as (_ & Q & _). congruence.
Qed.

Lemma step_inherits : forall s t k, inv s -> step s t -> child_of (calls s k) <> NoChild ->
  child_of (calls t k) <> NoChild /\
  inherited_error (calls t k) = inherited_error (calls s k) /\
  inherited_output (calls t k) = inherited_output (calls s k).
Proof.
  intros s t k I T H. destruct T as [s i y Hi T|s i y Hi T|s i y Hi T]; cbn [calls];
    (apply calls_case; [intros ->|auto]).
  - destruct (each s I i) as (_ & S). unfold stage_ok in S.
    destruct T as [E|E L|E|E|E|E|E W|E W C|E|E W|E W|E W]; cbn; auto.
    rewrite E in S. contradiction.
  - destruct T as [actions E G|E G|E|c todo E L|c todo E L|E]; cbn; auto; (split; [discriminate|auto]).
  - destruct T as [a rest C R E N|C R E N|a rest C R E N|C R E N]; cbn; auto.
Qed.

Lemma steps_inherits : forall n s t k, steps n s t -> inv s -> child_of (calls s k) <> NoChild ->
  inherited_error (calls t k) = inherited_error (calls s k) /\
  inherited_output (calls t k) = inherited_output (calls s k).
Proof.
  intros n s t k H I N.
  assert (Q : child_of (calls t k) <> NoChild /\ inherited_error (calls t k) = inherited_error (calls s k) /\
              inherited_output (calls t k) = inherited_output (calls s k)); [|tauto].
  induction H as [s|n s1 s2 s3 H IH T]; [auto|].
  destruct (IH I N) as (N2 & A & B). destruct (steps_measure _ _ _ H I) as (I2 & _).
  destruct (step_inherits _ _ k I2 T N2) as (N3 & C & D). split; [exact N3|]. rewrite C, D. auto.
Qed.

Lemma created : forall s t k i, inv s -> step s t -> creates s t k ->
  (inherited t k i <-> i <> k /\ has_pipes_open s i).
Proof.
  intros s t k i I T (A & B). unfold running in B.
  destruct T as [s j y Hj T|s j y Hj T|s j y Hj T]; cbn [calls] in *.
  - destruct (Nat.eq_dec k j) as [->|N].
    2: { exfalso. rewrite update_other in B by exact N. rewrite A in B. discriminate B. }
    unfold inherited. cbn [calls]. rewrite update_same in *.
    destruct T as [E|E L|E|E|E|E|E W|E W C|E|E W|E W|E W]; cbn in B; try (rewrite A in B; discriminate B).
    cbn. unfold others, has_pipes_open.
    destruct (Nat.eqb_spec i j) as [->|N]; cbn.
    + split; [intros [X|X]; discriminate X|intros (X & _); contradiction].
    + destruct (stage_of (calls s i)); cbn; intuition discriminate.
  - exfalso. destruct (Nat.eq_dec k j) as [->|N].
    + destruct T as [actions E G|E G|E|c todo E L|c todo E L|E]; congruence.
    + rewrite update_other in B by exact N. rewrite A in B. discriminate B.
  - exfalso. destruct (Nat.eq_dec k j) as [->|N].
    + rewrite update_same in B. destruct T; cbn in B; rewrite A in B; discriminate B.
    + rewrite update_other in B by exact N. rewrite A in B. discriminate B.
Qed.

Lemma waits : forall s1 s2 s3 k i n, reachable s1 -> step s1 s2 -> creates s1 s2 k ->
  has_pipes_open s1 i -> i <> k -> steps n s2 s3 -> running s3 k -> ~ returned s3 i.
Proof.
  intros s1 s2 s3 k i n R T C P N H L. assert (I := reachable_inv _ R).
  assert (R2 : reachable s2) by (destruct R as (m & R); exists (S m); eapply steps_more; eassumption).
  assert (J := proj2 (created _ _ _ i I T C) (conj N P)).
  assert (R3 : reachable s3).
  { clear - H R2. induction H as [s|n s1 s2 s3 H IH T]; [exact R2|]. destruct (IH R2) as (m & Q).
    exists (S m). eapply steps_more; eassumption. }
  apply (held s3 k i R3 L). unfold inherited in *.
  destruct (steps_inherits _ _ _ k H (reachable_inv _ R2)) as (E1 & E2).
  { destruct C as (_ & C). unfold running in C. intro Q. rewrite Q in C. discriminate C. }
  rewrite E1, E2. exact J.
Qed.

Lemma cleaned_up : forall s i l, reachable s -> ended s i -> tool i = Some l -> stage_of (calls s i) <> ForkFailed ->
  exited s i /\ waited_for s i.
Proof.
  intros s i l R [E|[E|E]] Ht N.
  - destruct (separate s i R E) as (_ & _ & _ & _ & X). split; [exact X|]. unfold waited_for. unfold returned in E. rewrite E. exact Logic.I.
  - rewrite (failed s i R E) in Ht. discriminate Ht.
  - contradiction.
Qed.

End Proofs.
