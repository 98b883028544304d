(** Proofs about tools that get input. *)

From Coq Require Import Ascii String Bool Arith Lia.
From Coq Require Import List.
From Verif Require Import Str FeedModel FeedSpec.
Import ListNotations.



Lemma buffer_size_positive : 2 <= buffer_size.
Proof. apply Nat.leb_le. vm_compute. reflexivity. Qed.

Local Opaque buffer_size.

(** Input that is on its way *)
Definition buffered (i : inputs) : str := match current i with Some k => unsent k | None => [] end.
Definition pending (i : inputs) : option str :=
  if in_open i then Some (in_pipe i ++ buffered i ++ source i) else None.

Definition effect_app (a b : effect) : effect :=
  mk_effect (reads a ++ reads b) (prints a ++ prints b) (complains a ++ complains b).

Definition so_far (s : state) : effect :=
  mk_effect (got (ins s)) (out_captured (outs s) ++ out_pipe (outs s)) (err_captured (outs s) ++ err_pipe (outs s)).

Definition remaining_work (i : inputs) : nat :=
  match current i with
  | None => 2 * length (source i) + 3
  | Some k => length (unsent k) + (if full k then 2 * length (source i) + 4 else 2)
  end.

Definition phase_measure (ph : phase) (i : inputs) : nat :=
  match ph with Writing => remaining_work i + 3 | InWaitpid => 3 | JoiningOut => 2 | JoiningErr => 1 | Returned => 0 end.

Definition measure (s : state) : nat :=
  2 * actions (child s) (pending (ins s)) - (if exited s then 2 else 0)
  + length (out_pipe (outs s)) + length (err_pipe (outs s))
  + (if out_reading (outs s) then 1 else 0) + (if err_reading (outs s) then 1 else 0)
  + phase_measure (caller s) (ins s).

Section Steps.
  Variable capacity : nat.

  Record invariant (p : program) (input : str) (s : state) : Prop := mk_invariant {
    inv_effect : option_map (effect_app (so_far s)) (behave (child s) (pending (ins s))) = behave p (Some input);
    inv_open : in_open (ins s) = true -> got (ins s) ++ in_pipe (ins s) ++ buffered (ins s) ++ source (ins s) = input;
    inv_got : prefix_of (got (ins s)) input;
    inv_full : forall k, current (ins s) = Some k -> full k = false -> source (ins s) = [];
    inv_sent : caller s <> Writing -> in_open (ins s) = true -> buffered (ins s) = [] /\ source (ins s) = [];
    inv_exited : exited s = true -> child s = Exit /\ in_open (ins s) = false;
    inv_out_done : out_reading (outs s) = false -> exited s = true /\ out_pipe (outs s) = [];
    inv_err_done : err_reading (outs s) = false -> exited s = true /\ err_pipe (outs s) = [];
    inv_join_out : caller s = JoiningOut -> exited s = true;
    inv_join_err : caller s = JoiningErr -> exited s = true /\ out_reading (outs s) = false;
    inv_returned : caller s = Returned -> exited s = true /\ out_reading (outs s) = false /\ err_reading (outs s) = false
  }.

  Lemma effect_app_nil x : effect_app (mk_effect [] [] []) x = x.
  Proof. destruct x; reflexivity. Qed.

  Lemma option_map_id {A} (f : A -> A) o : (forall x, f x = x) -> option_map f o = o.
  Proof. intro H. destruct o; cbn; [rewrite H|]; reflexivity. Qed.

  Lemma option_map_map {A B C} (f : B -> C) (g : A -> B) (h : A -> C) o : (forall x, f (g x) = h x) -> option_map f (option_map g o) = option_map h o.
  Proof. intro H. destruct o; cbn; [rewrite H|]; reflexivity. Qed.

  Lemma invariant_start p input : invariant p input (start p input).
  Proof.
    constructor; cbn; try discriminate; try reflexivity; try tauto; try congruence.
    - apply option_map_id. exact effect_app_nil.
    - exists input. reflexivity.
  Qed.

  Lemma firstn_short {A} n (l : list A) : (length (firstn n l) =? n) = false -> skipn n l = [].
  Proof. intro H. apply Nat.eqb_neq in H. rewrite firstn_length in H. apply skipn_all2. lia. Qed.

  Lemma invariant_step p input s1 s2 : step capacity s1 s2 -> invariant p input s1 -> invariant p input s2.
  Proof.
    intros H [I1 I2 I3 I4 I5 I6 I7 I8 I9 I10 I11].
    destruct H; cbn [child exited ins outs caller source current in_pipe in_open got out_pipe err_pipe out_reading err_reading out_captured err_captured] in *.
    - (* child_out *)
      constructor; cbn in *; try assumption; try tauto.
      + rewrite <- I1. rewrite option_map_map with (h := fun x => effect_app (so_far (mk_state (PutOut c p0) e i (mk_outputs op ep r1 r2 c1 c2) ph)) (printing c x)).
        * destruct (behave p0 (pending i)); cbn; [|reflexivity]. f_equal. unfold effect_app, printing, so_far; cbn. f_equal. rewrite <- !app_assoc. reflexivity.
        * reflexivity.
      + intro X. destruct (I6 X) as [Y _]. discriminate.
      + intro X. destruct (I7 X) as [Y _]. destruct (I6 Y) as [Z _]. discriminate.
    - (* child_err *)
      constructor; cbn in *; try assumption; try tauto.
      + rewrite <- I1. rewrite option_map_map with (h := fun x => effect_app (so_far (mk_state (PutErr c p0) e i (mk_outputs op ep r1 r2 c1 c2) ph)) (complaining c x)).
        * destruct (behave p0 (pending i)); cbn; [|reflexivity]. f_equal. unfold effect_app, complaining, so_far; cbn. f_equal. rewrite <- !app_assoc. reflexivity.
        * reflexivity.
      + intro X. destruct (I6 X) as [Y _]. discriminate.
      + intro X. destruct (I8 X) as [Y _]. destruct (I6 Y) as [Z _]. discriminate.
    - (* child_get *)
      specialize (I2 eq_refl). constructor; cbn in *; try assumption; try tauto.
      + rewrite <- I1. unfold buffered at 2. cbn. unfold buffered. cbn.
        set (b := match cur with Some k0 => unsent k0 | None => [] end).
        destruct (behave (k (Some c)) (Some (ip ++ b ++ src))); cbn; [|reflexivity]. f_equal. unfold effect_app, reading, so_far; cbn. f_equal. rewrite <- app_assoc. reflexivity.
      + intros _. rewrite <- I2. rewrite <- !app_assoc. reflexivity.
      + exists (ip ++ buffered (mk_inputs src cur (c :: ip) true g) ++ src). rewrite <- I2. rewrite <- !app_assoc. reflexivity.
      + intro X. destruct (I6 X). discriminate.
    - (* child_eof *)
      destruct (I11 eq_refl) as [X _]. destruct (I6 X). discriminate.
    - (* child_get_closed *)
      constructor; cbn in *; try assumption; try tauto.
      intro X. destruct (I6 X). discriminate.
    - (* child_close *)
      constructor; cbn in *; try assumption; try tauto; try discriminate.
      intro X. destruct (I6 X). discriminate.
    - (* child_exit *)
      constructor; cbn in *; try assumption; try tauto; try discriminate.
    - (* caller_fetch *)
      unfold provide in H; injection H as <- <-. constructor; cbn in *; try assumption; try tauto; try discriminate.
      + rewrite <- I1. unfold pending, buffered, so_far. cbn. rewrite ?firstn_skipn. reflexivity.
      + intro X. rewrite <- (I2 X). unfold buffered. cbn. rewrite firstn_skipn. reflexivity.
      + intros k Hk Hf. injection Hk as <-. apply firstn_short. exact Hf.
    - (* caller_put *)
      constructor; cbn in *; try assumption; try tauto; try discriminate.
      + rewrite <- I1. unfold pending, buffered, so_far. cbn. rewrite <- ?app_assoc. reflexivity.
      + intro X. rewrite <- (I2 X). unfold buffered. cbn. rewrite <- ?app_assoc. reflexivity.
      + intros k Hk Hf. injection Hk as <-. eapply I4; [reflexivity|exact Hf].
    - (* caller_written *)
      constructor; cbn in *; try assumption; try tauto; try discriminate;
        try (unfold after_write; destruct f; discriminate).
      unfold after_write. destruct f; [intro X; exfalso; apply X; reflexivity|]. intros _ _. unfold buffered. cbn.
      split; [reflexivity|]. eapply I4; reflexivity.
    - (* caller_broken *)
      constructor; cbn in *; try assumption; try tauto; try discriminate.
    - (* caller_short *)
      constructor; cbn in *; try assumption; try tauto; try discriminate;
        try (unfold after_write; destruct f; discriminate).
    - constructor; cbn in *; try assumption; try tauto; try discriminate. intros _. apply I5. discriminate.
    - constructor; cbn in *; try assumption; try tauto; try discriminate. intros _. apply I5. discriminate.
    - constructor; cbn in *; try assumption; try tauto; try discriminate. intros _. apply I5. discriminate.
    - constructor; cbn in *; try assumption; try tauto; try discriminate.
      rewrite <- I1. unfold so_far. cbn. rewrite <- ?app_assoc. reflexivity.
    - constructor; cbn in *; try assumption; try tauto; try discriminate.
    - constructor; cbn in *; try assumption; try tauto; try discriminate.
      rewrite <- I1. unfold so_far. cbn. rewrite <- ?app_assoc. reflexivity.
    - constructor; cbn in *; try assumption; try tauto; try discriminate.
  Qed.

  Lemma invariant_steps n p input s : steps capacity n (start p input) s -> invariant p input s.
  Proof.
    remember (start p input) as s0 eqn:E. induction 1; subst; [apply invariant_start|].
    eapply invariant_step; [eassumption|]. now apply IHsteps.
  Qed.

  Lemma delivered n p input s : steps capacity n (start p input) s -> returned s ->
    behave p (Some input) = Some (mk_effect (got (ins s)) (out_captured (outs s)) (err_captured (outs s))).
  Proof.
    intros H R. destruct (invariant_steps _ _ _ _ H) as [I1 I2 I3 I4 I5 I6 I7 I8 I9 I10 I11].
    destruct (I11 R) as (X & D1 & D2). destruct (I6 X) as [E O]. destruct (I7 D1) as [_ P1]. destruct (I8 D2) as [_ P2].
    rewrite <- I1, E. cbn. unfold effect_app, so_far. cbn. rewrite P1, P2, !app_nil_r. reflexivity.
  Qed.

  Lemma measure_step p input s1 s2 : invariant p input s1 -> step capacity s1 s2 -> measure s2 < measure s1.
  Proof.
    intros I H. destruct I as [I1 I2 I3 I4 I5 I6 I7 I8 I9 I10 I11].
    assert (A : forall q i, 1 <= actions q i) by (intros [] i; cbn; try lia; destruct i as [[|]|]; lia).
    destruct H; unfold measure, pending in *;
      cbn [child exited ins outs caller source current in_pipe in_open got out_pipe err_pipe out_reading err_reading out_captured err_captured actions app phase_measure] in *.
    - destruct e; [destruct (I6 eq_refl); discriminate|]. rewrite app_length. cbn. lia.
    - destruct e; [destruct (I6 eq_refl); discriminate|]. rewrite app_length. cbn. lia.
    - destruct e; [destruct (I6 eq_refl); discriminate|]. unfold buffered. cbn. destruct ph; cbn; unfold remaining_work; cbn; try lia; destruct cur; lia.
    - destruct (I11 eq_refl) as [X _]. destruct (I6 X). discriminate.
    - destruct e; [destruct (I6 eq_refl); discriminate|]. lia.
    - destruct e; [destruct (I6 eq_refl); discriminate|]. unfold remaining_work. destruct ph; cbn; try lia; destruct cur; cbn; lia.
    - unfold remaining_work. destruct ph; cbn; try lia; destruct cur; cbn; lia.
    - unfold provide in H; injection H as <- <-. unfold buffered. cbn [current source in_open in_pipe unsent app]. rewrite !firstn_skipn.
      unfold remaining_work. cbn [current unsent full source]. destruct (length (firstn buffer_size src) =? buffer_size) eqn:E.
      + pose proof (firstn_skipn buffer_size src) as L. apply (f_equal (@length _)) in L. rewrite app_length in L.
        apply Nat.eqb_eq in E. pose proof buffer_size_positive. lia.
      + rewrite firstn_length. lia.
    - unfold buffered. cbn [current source in_open in_pipe unsent app]. rewrite <- !app_assoc. cbn [app].
      unfold remaining_work. cbn [current unsent full source length]. destruct f; lia.
    - unfold buffered, remaining_work. cbn [current source in_open in_pipe unsent app full length]. destruct f; cbn; lia.
    - unfold remaining_work. cbn [current source in_open in_pipe unsent app full length]. destruct f; cbn; lia.
    - unfold remaining_work. cbn [current source in_open in_pipe unsent app full length]. destruct f; cbn; lia.
    - lia.
    - lia.
    - lia.
    - rewrite app_length. destruct a; [contradiction|cbn; lia].
    - lia.
    - rewrite app_length. destruct a; [contradiction|cbn; lia].
    - lia.
  Qed.

  Lemma bounded n p input s : steps capacity n (start p input) s -> n <= 2 * actions p (Some input) + 2 * length input + 8.
  Proof.
    intro H. assert (G : n + measure s <= measure (start p input)).
    { remember (start p input) as s0 eqn:E. revert E. induction H as [|n s1 s2 s3 H IH ST]; intro E; [lia|]. specialize (IH E). subst s1.
      apply (measure_step p input) in ST; [lia|]. eapply invariant_steps; eauto. }
    assert (E : measure (start p input) = 2 * actions p (Some input) - 0 + 0 + 0 + 1 + 1 + (2 * length input + 3 + 3)) by reflexivity.
    lia.
  Qed.

  Hypothesis capacity_positive : 0 < capacity.

  Lemma progress n p input s : behave p (Some input) <> None -> steps capacity n (start p input) s -> ~ returned s ->
    exists s', step capacity s s'.
  Proof.
    intros NI H NR. pose proof (invariant_steps _ _ _ _ H) as [I1 I2 I3 I4 I5 I6 I7 I8 I9 I10 I11]. clear H.
    assert (RD : forall (q : str), q <> [] -> exists a b, q = a ++ b /\ a <> [] /\ length a <= buffer_size).
    { intros [|c q] N; [contradiction|]. exists [c], q. split; [reflexivity|]. split; [discriminate|]. pose proof buffer_size_positive. cbn. lia. }
    destruct s as [q ex [src cur ip io g] [op ep ro re co ce] ph]. unfold returned in NR. cbn in *.
    destruct q as [|c q|c q|k|q].
    - destruct ex; [|eexists; apply child_exit].
      destruct ph; try contradiction.
      + destruct (I6 eq_refl) as [_ ->]. destruct cur as [[[|c b] f w]|].
        * eexists; apply caller_written.
        * destruct w; eexists; [apply caller_short|apply caller_broken].
        * eexists; apply caller_fetch; reflexivity.
      + eexists; apply caller_waitpid.
      + destruct ro; [|eexists; apply caller_join_out].
        destruct op as [|x op]; [eexists; apply out_end|].
        destruct (RD (x :: op)) as (a & b & -> & NA & LA); [discriminate|]. eexists; now apply out_read.
      + destruct re; [|eexists; apply caller_join_err].
        destruct ep as [|x ep]; [eexists; apply err_end|].
        destruct (RD (x :: ep)) as (a & b & -> & NA & LA); [discriminate|]. eexists; now apply err_read.
    - destruct (le_lt_dec capacity (length op)) as [F | F]; [|eexists; now apply child_out].
      destruct op as [|x op]; [cbn in F; lia|].
      destruct ro.
      + destruct (RD (x :: op)) as (a & b & -> & NA & LA); [discriminate|]. eexists; now apply out_read.
      + destruct (I7 eq_refl) as [_ X]. discriminate X.
    - destruct (le_lt_dec capacity (length ep)) as [F | F]; [|eexists; now apply child_err].
      destruct ep as [|x ep]; [cbn in F; lia|].
      destruct re.
      + destruct (RD (x :: ep)) as (a & b & -> & NA & LA); [discriminate|]. eexists; now apply err_read.
      + destruct (I8 eq_refl) as [_ X]. discriminate X.
    - destruct io; [|eexists; apply child_get_closed].
      destruct ip as [|c ip]; [|eexists; apply child_get].
      destruct ph.
      + destruct cur as [[[|c b] f w]|].
        * eexists; apply caller_written.
        * eexists; apply caller_put. cbn. exact capacity_positive.
        * eexists; apply caller_fetch; reflexivity.
      + exfalso. destruct I5 as [B S]; [discriminate|reflexivity|]. apply NI. rewrite <- I1. unfold pending. cbn [in_open in_pipe source app].
        cbn in S. rewrite B, S. reflexivity.
      + destruct (I6 (I9 eq_refl)). discriminate.
      + destruct (I6 (proj1 (I10 eq_refl))). discriminate.
      + contradiction.
    - eexists; apply child_close.
  Qed.

  Lemma can_return n p input s : behave p (Some input) <> None -> steps capacity n (start p input) s ->
    exists k s', steps capacity k (start p input) s' /\ n <= k /\ returned s'.
  Proof.
    intro NI. remember (measure s) as m eqn:EM. revert n s EM. induction m as [m IH] using lt_wf_ind.
    intros n s EM H. assert (D : returned s \/ ~ returned s) by (unfold returned; destruct (caller s); (now left) || (right; discriminate)).
    destruct D as [R | NR]; [exists n, s; split; [exact H|split; [lia|exact R]]|].
    destruct (progress _ _ _ _ NI H NR) as (s' & ST).
    destruct (IH (measure s') ltac:(subst; eapply measure_step; [eapply invariant_steps; eassumption|exact ST]) (S n) s' eq_refl) as (k & s2 & H2 & L & R);
      [econstructor; eassumption|].
    exists k, s2. split; [exact H2|]. split; [lia|exact R].
  Qed.
End Steps.
