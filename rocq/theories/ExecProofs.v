(** Proofs about running processes. *)

From Coq Require Import Ascii String ZArith Bool Lia.
From Coq Require Import List.
From Verif Require Import Str BuildModel ExecModel ExecSpec.
Import ListNotations.

Section Steps.
  Variable capacity : nat.
  Hypothesis capacity_positive : 0 < capacity.

  (** What the phase of the caller says about the others, and where the output
      is. *)
  Record invariant (actions : list action) (s : state) : Prop := mk_invariant {
    inv_out : out_captured s ++ out_pipe s ++ written_out (todo s) = written_out actions;
    inv_err : err_captured s ++ err_pipe s ++ written_err (todo s) = written_err actions;
    inv_exited : exited s = true -> todo s = [];
    inv_out_done : out_reading s = false -> exited s = true /\ out_pipe s = [];
    inv_err_done : err_reading s = false -> exited s = true /\ err_pipe s = [];
    inv_join_out : caller s = JoiningOut -> exited s = true;
    inv_join_err : caller s = JoiningErr -> out_reading s = false;
    inv_returned : caller s = Returned -> out_reading s = false /\ err_reading s = false
  }.

  Lemma invariant_start actions : invariant actions (start actions).
  Proof. constructor; cbn; try discriminate; reflexivity. Qed.

  Lemma invariant_step actions s1 s2 : step capacity s1 s2 -> invariant actions s1 -> invariant actions s2.
  Proof.
    intros H [I1 I2 I3 I4 I5 I6 I7 I8]. destruct H; cbn in *; constructor; cbn;
      try (rewrite <- ?app_assoc in *; cbn; assumption);
      try (intro X; specialize (I3 X); discriminate);
      try (intros X; destruct (I4 X) as [X1 X2]; specialize (I3 X1); discriminate);
      try (intros X; destruct (I5 X) as [X1 X2]; specialize (I3 X1); discriminate);
      try discriminate; try tauto; try assumption.
  Qed.

  Lemma invariant_steps n actions s : steps capacity n (start actions) s -> invariant actions s.
  Proof.
    remember (start actions) as s0 eqn:E. induction 1; subst; [apply invariant_start|].
    eapply invariant_step; [eassumption|]. now apply IHsteps.
  Qed.

  Lemma captured n actions s : steps capacity n (start actions) s -> returned s ->
    out_captured s = written_out actions /\ err_captured s = written_err actions.
  Proof.
    intros H R. destruct (invariant_steps _ _ _ H) as [I1 I2 I3 I4 I5 I6 I7 I8].
    destruct (I8 R) as [D1 D2]. destruct (I4 D1) as [X P1]. destruct (I5 D2) as [_ P2].
    rewrite (I3 X), P1 in I1. rewrite (I3 X), P2 in I2. cbn in I1, I2. rewrite app_nil_r in I1, I2. tauto.
  Qed.

  Definition no_input (l : list action) : Prop := ~ In WaitForInput l.

  Lemma todo_suffix n actions s : steps capacity n (start actions) s -> exists l, actions = l ++ todo s.
  Proof.
    remember (start actions) as s0 eqn:E. induction 1 as [|n s1 s2 s3 H IH ST]; subst; [exists []; reflexivity|].
    destruct (IH eq_refl) as (l & EL). clear IH. destruct ST; cbn in *; try (exists l; assumption);
      (match type of EL with _ = _ ++ ?a :: _ => exists (l ++ [a]) end; rewrite <- app_assoc; exact EL).
  Qed.

  (** Some step is possible unless the caller has returned. *)
  Lemma progress n actions s : no_input actions -> steps capacity n (start actions) s -> ~ returned s ->
    exists s', step capacity s s'.
  Proof.
    intros NI H NR. destruct (todo_suffix _ _ _ H) as (l & EL).
    pose proof (invariant_steps _ _ _ H) as INV. destruct INV as [I1 I2 I3 I4 I5 I6 I7 I8].
    assert (RD : forall (p : str), p <> [] -> exists a b, p = a ++ b /\ a <> [] /\ length a <= buffer_size).
    { intros [|c p] N; [contradiction|]. exists [c], p. split; [reflexivity|]. split; [discriminate|]. unfold buffer_size. cbn. lia. }
    destruct s as [td ex op ep ro re co ce ph]. unfold returned in NR. cbn in *.
    destruct td as [|[c|c|] td].
    - destruct ex; [|eexists; apply child_exit].
      destruct ph.
      + eexists; apply caller_write.
      + eexists; apply caller_waitpid.
      + destruct ro; [|eexists; apply caller_join_out].
        destruct op as [|x op]; [eexists; apply out_end|].
        destruct (RD (x :: op)) as (a & b & -> & NA & LA); [discriminate|]. eexists; now apply out_read.
      + destruct re; [|eexists; apply caller_join_err].
        destruct ep as [|x ep]; [eexists; apply err_end|].
        destruct (RD (x :: ep)) as (a & b & -> & NA & LA); [discriminate|]. eexists; now apply err_read.
      + contradiction.
    - destruct (le_lt_dec capacity (length op)) as [F | F]; [|eexists; now apply child_out].
      destruct op as [|x op]; [cbn in F; lia|].
      destruct ro.
      + destruct (RD (x :: op)) as (a & b & -> & NA & LA); [discriminate|]. eexists; now apply out_read.
      + destruct (I4 eq_refl) as [_ X]. discriminate X.
    - destruct (le_lt_dec capacity (length ep)) as [F | F]; [|eexists; now apply child_err].
      destruct ep as [|x ep]; [cbn in F; lia|].
      destruct re.
      + destruct (RD (x :: ep)) as (a & b & -> & NA & LA); [discriminate|]. eexists; now apply err_read.
      + destruct (I5 eq_refl) as [_ X]. discriminate X.
    - exfalso. apply NI. rewrite EL. apply in_or_app. right. now left.
  Qed.

  Definition phase_measure (p : phase) : nat :=
    match p with Writing => 4 | InWaitpid => 3 | JoiningOut => 2 | JoiningErr => 1 | Returned => 0 end.

  Definition measure (s : state) : nat :=
    2 * length (todo s) + length (out_pipe s) + length (err_pipe s)
    + (if exited s then 0 else 1) + (if out_reading s then 1 else 0) + (if err_reading s then 1 else 0)
    + phase_measure (caller s).

  Lemma measure_step s1 s2 : step capacity s1 s2 -> measure s2 < measure s1.
  Proof.
    clear capacity_positive. destruct 1; unfold measure; cbn; rewrite ?app_length; cbn; try lia.
    - destruct a; [contradiction|cbn; lia].
    - destruct a; [contradiction|cbn; lia].
  Qed.

  Lemma bounded n actions s : steps capacity n (start actions) s -> n <= 2 * length actions + 7.
  Proof.
    clear capacity_positive. intro H. assert (G : n + measure s <= measure (start actions)).
    { remember (start actions) as s0 eqn:E. clear E. induction H as [|n s1 s2 s3 H IH ST]; [lia|]. apply measure_step in ST. lia. }
    unfold measure at 2, start in G. cbn in G. lia.
  Qed.

  (** From every state that is reached, the caller gets to return. *)
  Lemma can_return n actions s : no_input actions -> steps capacity n (start actions) s ->
    exists k s', steps capacity k (start actions) s' /\ n <= k /\ returned s'.
  Proof.
    intro NI. remember (measure s) as m eqn:EM. revert n s EM. induction m as [m IH] using lt_wf_ind.
    intros n s EM H. assert (D : returned s \/ ~ returned s) by (unfold returned; destruct (caller s); (now left) || (right; discriminate)).
    destruct D as [R | NR]; [exists n, s; split; [exact H|split; [lia|exact R]]|].
    destruct (progress _ _ _ NI H NR) as (s' & ST).
    destruct (IH (measure s') ltac:(subst; now apply measure_step) (S n) s' eq_refl) as (k & s2 & H2 & L & R);
      [econstructor; eassumption|].
    exists k, s2. split; [exact H2|]. split; [lia|exact R].
  Qed.

  (** A process that waits for input never ends. *)
  Lemma input_stuck n actions s : In WaitForInput actions -> steps capacity n (start actions) s ->
    In WaitForInput (todo s) /\ exited s = false /\ (caller s = Writing \/ caller s = InWaitpid).
  Proof.
    intro I. remember (start actions) as s0 eqn:E. induction 1 as [|n s1 s2 s3 H IH ST]; subst.
    - cbn. tauto.
    - destruct (IH eq_refl) as (I1 & X & P). clear IH. destruct ST; cbn in *; subst;
        try (destruct P; discriminate); try discriminate; try tauto.
      + destruct I1 as [I1 | I1]; [discriminate|tauto].
      + destruct I1 as [I1 | I1]; [discriminate|tauto].
      + destruct P as [-> | ->]; discriminate.
  Qed.
End Steps.

(** Exit status *)

Lemma land_127 z : Z.land z 127 = (z mod 128)%Z.
Proof. change 127%Z with (Z.ones 7). rewrite Z.land_ones by lia. reflexivity. Qed.

Lemma decode_exited code : (0 <= code < 256)%Z -> exit_status_of (status_exited code) = Some (ExitCode code).
Proof.
  intro H. unfold exit_status_of, w_if_exited, status_exited, w_exit_status. rewrite land_127.
  replace ((code * 256) mod 128)%Z with 0%Z.
  - cbn [Z.eqb]. do 2 f_equal. change 65280%Z with (Z.shiftl (Z.ones 8) 8).
    replace (code * 256)%Z with (Z.shiftl code 8) by (rewrite Z.shiftl_mul_pow2 by lia; reflexivity).
    rewrite <- Z.shiftl_land, Z.shiftr_shiftl_l by lia. rewrite Z.sub_diag, Z.shiftl_0_r.
    rewrite Z.land_ones by lia. change (2 ^ 8)%Z with 256%Z. now apply Z.mod_small.
  - replace (code * 256)%Z with (code * 2 * 128)%Z by lia. now rewrite Z.mod_mul by lia.
Qed.

Lemma decode_killed signal core : (0 < signal < 127)%Z -> exit_status_of (status_killed signal core) = Some (KilledBy signal).
Proof.
  intro H. unfold exit_status_of, w_if_exited, status_killed, w_if_signaled, w_term_sig. rewrite land_127.
  assert (E : ((signal + (if core then 128 else 0)) mod 128 = signal)%Z).
  { destruct core.
    - replace (signal + 128)%Z with (signal + 1 * 128)%Z by lia. rewrite Z.mod_add by lia. apply Z.mod_small. lia.
    - rewrite Z.add_0_r. apply Z.mod_small. lia. }
  rewrite E. destruct (Z.eqb_spec signal 0) as [X|_]; [lia|]. destruct (Z.leb_spec 128 (signal + 1)) as [X|_]; [lia|].
  rewrite Z.shiftr_div_pow2 by lia. change (2 ^ 1)%Z with 2%Z.
  destruct (Z.ltb_spec 0 ((signal + 1) / 2)) as [_|X]; [reflexivity|].
  exfalso. assert (1 <= (signal + 1) / 2)%Z by (apply Z.div_le_lower_bound; lia). lia.
Qed.
