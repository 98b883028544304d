(** Proofs about counters and events. *)

From Coq Require Import ZArith Bool Arith Lia.
From Coq Require Import List.
From Verif Require Import SchedModel SyncModel SyncSpec.
Import ListNotations.

Lemma update_nth {A} (l : list A) k x i :
  nth_error (update k x l) i = if Nat.eqb i k then match nth_error l i with Some _ => Some x | None => None end else nth_error l i.
Proof.
  revert k i; induction l as [|y l IH]; intros [|k] [|i]; cbn; try reflexivity.
  - destruct (Nat.eqb i k); reflexivity.
  - apply IH.
Qed.

Lemma update_length {A} (l : list A) k x : length (update k x l) = length l.
Proof. revert k; induction l as [|y l IH]; intros [|k]; cbn; congruence. Qed.

Lemma existsb_blocked ws : existsb is_blocked ws = true <-> exists i, nth_error ws i = Some Blocked.
Proof.
  rewrite existsb_exists. split.
  - intros (w & I & B). destruct w; try discriminate. apply In_nth_error in I. exact I.
  - intros (i & N). exists Blocked. split; [eapply nth_error_In; exact N|reflexivity].
Qed.

(** After notify_one: either there was nobody, or someone has been unblocked. *)
Lemma notify_some k ws ws' : notify k ws = Some ws' ->
  (ws' = ws /\ forall i, nth_error ws i <> Some Blocked) \/
  (nth_error ws k = Some Blocked /\ ws' = update k Evaluating ws).
Proof.
  unfold notify. destruct (existsb is_blocked ws) eqn:E.
  - destruct (nth_error ws k) as [[]|] eqn:N; try discriminate. intro H; injection H as <-. right. now split.
  - intro H; injection H as <-. left. split; [reflexivity|]. intros i N.
    assert (existsb is_blocked ws = true) by (apply existsb_blocked; eauto). congruence.
Qed.

Lemma notify_length k ws ws' : notify k ws = Some ws' -> length ws' = length ws.
Proof. intro H. apply notify_some in H as [(-> & _)|(_ & ->)]; [reflexivity|apply update_length]. Qed.

(** * Counter *)
Section Counter.
  Variable goal : nat -> Z.

  Lemma run_app cs1 cs2 s : counter_run goal (cs1 ++ cs2) s =
    match counter_run goal cs1 s with Some s' => counter_run goal cs2 s' | None => None end.
  Proof.
    revert s; induction cs1 as [|c cs1 IH]; intro s; cbn [app counter_run]; [reflexivity|].
    destruct (counter_step goal c s); [apply IH|reflexivity].
  Qed.

  Lemma run_value cs s s' : counter_run goal cs s = Some s' -> (value s' = value s + total cs)%Z.
  Proof.
    revert s; induction cs as [|c cs IH]; intros s H; cbn [counter_run total] in *; [injection H as <-; lia|].
    destruct (counter_step goal c s) as [s1|] eqn:E; [|discriminate]. apply IH in H. rewrite H. clear IH H.
    destruct c; cbn [counter_step] in E.
    - destruct (notify k (waiting s)); [|discriminate]. injection E as <-. cbn [value]. cbn [total]. lia.
    - destruct (notify k (waiting s)); [|discriminate]. injection E as <-. cbn [value]. cbn [total]. lia.
    - destruct (enter i (waiting s)); [|discriminate]. injection E as <-. reflexivity.
    - destruct (nth_error (waiting s) i) as [[]|]; try discriminate. injection E as <-. reflexivity.
    - destruct (unblock i (waiting s)); [|discriminate]. injection E as <-. reflexivity.
  Qed.

  Lemma value_start v n cs s : counter_run goal cs (new_counter v n) = Some s -> value s = (v + total cs)%Z.
  Proof. intro H. apply run_value in H. exact H. Qed.

  (** What a step does to a thread *)
  Lemma step_back c s s' i : counter_step goal c s = Some s' -> nth_error (waiting s') i = Some Back ->
    (nth_error (waiting s) i = Some Back /\ c <> CounterCall i) \/
    (c = CounterCheck i /\ nth_error (waiting s) i = Some Evaluating /\ value s = goal i).
  Proof.
    intros E B. destruct c as [k|k|j|j|j]; cbn [counter_step] in E.
    - destruct (notify k (waiting s)) as [ws|] eqn:N; [|discriminate]. injection E as <-. cbn [waiting] in B. left.
      split; [|discriminate]. apply notify_some in N as [(-> & _)|(_ & ->)]; [exact B|].
      rewrite update_nth in B. destruct (Nat.eqb i k); [destruct (nth_error (waiting s) i); discriminate|exact B].
    - destruct (notify k (waiting s)) as [ws|] eqn:N; [|discriminate]. injection E as <-. cbn [waiting] in B. left.
      split; [|discriminate]. apply notify_some in N as [(-> & _)|(_ & ->)]; [exact B|].
      rewrite update_nth in B. destruct (Nat.eqb i k); [destruct (nth_error (waiting s) i); discriminate|exact B].
    - unfold enter in E. destruct (nth_error (waiting s) j) as [w|] eqn:N; [|discriminate].
      assert (E2 : s' = mk_counter (value s) (update j Evaluating (waiting s))) by (destruct w; try discriminate; injection E as <-; reflexivity).
      subst s'. cbn [waiting] in B. rewrite update_nth in B. destruct (Nat.eqb i j) eqn:Q.
      + destruct (nth_error (waiting s) i); discriminate.
      + left. split; [exact B|]. intro H; injection H as ->. rewrite Nat.eqb_refl in Q. discriminate.
    - destruct (nth_error (waiting s) j) as [[]|] eqn:N; try discriminate. injection E as <-. cbn [waiting] in B.
      rewrite update_nth in B. destruct (Nat.eqb i j) eqn:Q.
      + apply Nat.eqb_eq in Q as ->. rewrite N in B. right. split; [reflexivity|]. split; [exact N|].
        destruct (Z.eqb (value s) (goal j)) eqn:V; [|discriminate]. now apply Z.eqb_eq in V.
      + left. split; [exact B|discriminate].
    - unfold unblock in E. destruct (nth_error (waiting s) j) as [[]|] eqn:N; try discriminate. injection E as <-. cbn [waiting] in B.
      rewrite update_nth in B. left. split; [|discriminate]. destruct (Nat.eqb i j); [destruct (nth_error (waiting s) i); discriminate|exact B].
  Qed.

  Lemma nth_outside n i : nth_error (repeat Outside n) i <> Some Back.
  Proof. intro H. apply nth_error_In in H. apply repeat_spec in H. discriminate. Qed.

  Lemma back_value v n cs s i : counter_run goal cs (new_counter v n) = Some s -> nth_error (waiting s) i = Some Back ->
    exists cs1 cs2 s1, cs = cs1 ++ CounterCheck i :: cs2 /\ counter_run goal cs1 (new_counter v n) = Some s1 /\
      nth_error (waiting s1) i = Some Evaluating /\ value s1 = goal i /\ ~ In (CounterCall i) cs2.
  Proof.
    revert s. induction cs as [|c cs IH] using rev_ind; intros s H B.
    - cbn in H. injection H as <-. cbn [waiting new_counter] in B. now apply nth_outside in B.
    - rewrite run_app in H. destruct (counter_run goal cs (new_counter v n)) as [s0|] eqn:E; [|discriminate].
      cbn [counter_run] in H. destruct (counter_step goal c s0) as [s1|] eqn:E1; [|discriminate]. injection H as ->.
      destruct (step_back _ _ _ _ E1 B) as [(B0 & NC)|(-> & B0 & V)].
      + destruct (IH s0 eq_refl B0) as (cs1 & cs2 & s1 & -> & R & W & V & N).
        exists cs1, (cs2 ++ [c]), s1. split; [rewrite <- app_assoc; reflexivity|]. repeat split; try assumption.
        intro I. apply in_app_iff in I as [I|[I|[]]]; [now apply N|now apply NC].
      + exists cs, [], s0. repeat split; try assumption. intros [].
  Qed.

  (** With one thread *)
  Definition single (s : counter) : Prop :=
    exists w, waiting s = [w] /\ (w = Blocked -> value s <> goal 0).

  Lemma single_step c s s' : single s -> counter_step goal c s = Some s' -> single s'.
  Proof.
    intros (w & W & N) E. destruct c as [k|k|j|j|j]; cbn [counter_step] in E.
    - destruct (notify k (waiting s)) as [ws|] eqn:M; [|discriminate]. injection E as <-. rewrite W in M.
      apply notify_some in M as [(-> & B)|(B & ->)].
      + exists w. split; [reflexivity|]. intros ->. now specialize (B 0).
      + destruct k as [|k]; [|destruct k; discriminate]. exists Evaluating. split; [reflexivity|discriminate].
    - destruct (notify k (waiting s)) as [ws|] eqn:M; [|discriminate]. injection E as <-. rewrite W in M.
      apply notify_some in M as [(-> & B)|(B & ->)].
      + exists w. split; [reflexivity|]. intros ->. now specialize (B 0).
      + destruct k as [|k]; [|destruct k; discriminate]. exists Evaluating. split; [reflexivity|discriminate].
    - unfold enter in E. rewrite W in E. destruct j as [|j]; [|destruct j; discriminate]. cbn [nth_error] in E.
      destruct w; try discriminate; injection E as <-; (exists Evaluating; split; [reflexivity|discriminate]).
    - rewrite W in E. destruct j as [|j]; [|destruct j; discriminate]. cbn [nth_error] in E. destruct w; try discriminate.
      injection E as <-. cbn [update]. eexists. split; [reflexivity|]. cbn [value].
      destruct (Z.eqb (value s) (goal 0)) eqn:Q; [discriminate|]. intros _. now apply Z.eqb_neq in Q.
    - unfold unblock in E. rewrite W in E. destruct j as [|j]; [|destruct j; discriminate]. cbn [nth_error] in E.
      destruct w; try discriminate; injection E as <-. exists Evaluating. split; [reflexivity|discriminate].
  Qed.

  Lemma single_run cs s s' : single s -> counter_run goal cs s = Some s' -> single s'.
  Proof.
    revert s; induction cs as [|c cs IH]; intros s I H; cbn [counter_run] in H; [injection H as <-; exact I|].
    destruct (counter_step goal c s) as [s1|] eqn:E; [|discriminate]. eapply IH; [|exact H]. eapply single_step; eassumption.
  Qed.

  Lemma single_returns v cs s w : counter_run goal cs (new_counter v 1) = Some s ->
    nth_error (waiting s) 0 = Some w -> is_waiting w -> value s = goal 0 ->
    exists s', counter_step goal (CounterCheck 0) s = Some s' /\ nth_error (waiting s') 0 = Some Back.
  Proof.
    intros H N W V. assert (I : single (new_counter v 1)) by (exists Outside; split; [reflexivity|discriminate]).
    destruct (single_run _ _ _ I H) as (w' & W' & B). rewrite W' in N. injection N as ->.
    destruct W as [-> | ->]; [|now apply B in V].
    eexists. cbn [counter_step]. rewrite W'. cbn [nth_error]. split; [reflexivity|]. cbn [waiting update nth_error].
    rewrite V, Z.eqb_refl. reflexivity.
  Qed.

  (** A blocked thread stays blocked. *)
  Lemma quiet_run cs s s' i : Forall quiet cs -> counter_run goal cs s = Some s' ->
    nth_error (waiting s) i = Some Blocked -> value s' = value s /\ nth_error (waiting s') i = Some Blocked.
  Proof.
    revert s; induction cs as [|c cs IH]; intros s Q H B; cbn [counter_run] in H; [injection H as <-; now split|].
    apply Forall_cons_iff in Q as (Qc & Qs). destruct (counter_step goal c s) as [s1|] eqn:E; [|discriminate].
    assert (K : value s1 = value s /\ nth_error (waiting s1) i = Some Blocked).
    { destruct c as [k|k|j|j|j]; cbn in Qc; try contradiction; cbn [counter_step] in E.
      - unfold enter in E. destruct (nth_error (waiting s) j) as [w|] eqn:N; [|discriminate].
        assert (E2 : s1 = mk_counter (value s) (update j Evaluating (waiting s)) /\ w <> Blocked)
          by (destruct w; try discriminate; injection E as <-; split; [reflexivity|discriminate|reflexivity|discriminate]).
        destruct E2 as (-> & NB). split; [reflexivity|]. cbn [waiting]. rewrite update_nth. destruct (Nat.eqb i j) eqn:Q; [|exact B].
        apply Nat.eqb_eq in Q as ->. congruence.
      - destruct (nth_error (waiting s) j) as [[]|] eqn:N; try discriminate. injection E as <-. split; [reflexivity|].
        cbn [waiting]. rewrite update_nth. destruct (Nat.eqb i j) eqn:Q; [|exact B]. apply Nat.eqb_eq in Q as ->. congruence. }
    destruct K as (K1 & K2). destruct (IH s1 Qs H K2) as (V & R). split; [congruence|exact R].
  Qed.
End Counter.

Lemma second_stays : exists cs s, counter_run (fun _ => 0%Z) cs (new_counter 1 2) = Some s /\ value s = 0%Z /\
  nth_error (waiting s) 0 = Some Back /\ nth_error (waiting s) 1 = Some Blocked /\
  forall cs' s', Forall quiet cs' -> counter_run (fun _ => 0%Z) cs' s = Some s' ->
    value s' = 0%Z /\ nth_error (waiting s') 1 = Some Blocked.
Proof.
  exists [CounterCall 0; CounterCall 1; CounterCheck 0; CounterCheck 1; Decrement 0; CounterCheck 0].
  exists (mk_counter 0 [Back; Blocked]). repeat split; try reflexivity.
  - apply (quiet_run _ _ _ _ 1) in H0; [|exact H|reflexivity]. apply H0.
  - apply (quiet_run _ _ _ _ 1) in H0; [|exact H|reflexivity]. apply H0.
Qed.

(** * Event *)

Lemma event_run_app cs1 cs2 s : event_run (cs1 ++ cs2) s =
  match event_run cs1 s with
  | None => None
  | Some (tr1, s1) => match event_run cs2 s1 with None => None | Some (tr2, s2) => Some (tr1 ++ tr2, s2) end
  end.
Proof.
  revert s; induction cs1 as [|c cs1 IH]; intro s; cbn [app event_run].
  - destruct (event_run cs2 s) as [[? ?]|]; reflexivity.
  - destruct (event_step c s) as [[l s1]|]; [|reflexivity]. rewrite IH. destruct (event_run cs1 s1) as [[tr1 s2]|]; [|reflexivity].
    destruct (event_run cs2 s2) as [[tr2 s3]|]; [|reflexivity]. rewrite app_assoc. reflexivity.
Qed.

Lemma step_labels c s l s' : event_step c s = Some (l, s') ->
  (l = [WasSet] /\ status s' = true) \/ (exists i, l = [Released i] /\ status s = true /\ status s' = false) \/
  (l = [] /\ status s' = status s).
Proof.
  destruct c as [k|j|j|j]; cbn [event_step]; intro E.
  - destruct (notify k (sleepers s)); [|discriminate]. injection E as <- <-. left. now split.
  - destruct (enter j (sleepers s)); [|discriminate]. injection E as <- <-. right. right. now split.
  - destruct (nth_error (sleepers s) j) as [[]|]; try discriminate. destruct (status s) eqn:S; injection E as <- <-.
    + right. left. exists j. now repeat split.
    + right. right. now split.
  - destruct (unblock j (sleepers s)); [|discriminate]. injection E as <- <-. right. right. now split.
Qed.

(** From a state where the event is not set, a release needs a set before. *)
Lemma needs_set cs s tr s' : event_run cs s = Some (tr, s') -> status s = false ->
  forall b j c, tr = b ++ Released j :: c -> In WasSet b.
Proof.
  revert s tr; induction cs as [|ch cs IH]; intros s tr H F b j c E; cbn [event_run] in H.
  { injection H as <- <-. destruct b; discriminate. }
  destruct (event_step ch s) as [[l s1]|] eqn:S; [|discriminate]. destruct (event_run cs s1) as [[tr1 s2]|] eqn:R; [|discriminate].
  injection H as <- <-. destruct (step_labels _ _ _ _ S) as [(-> & _)|[(i & -> & T & _)|(-> & T)]].
  - destruct b as [|x b]; cbn in E; injection E; intros; subst; [discriminate|now left].
  - congruence.
  - cbn [app] in E. eapply IH; [exact R|congruence|exact E].
Qed.

(** The event is not set after a release. *)
Lemma release_split cs s tr s' a i b : event_run cs s = Some (tr, s') -> tr = a ++ Released i :: b ->
  exists cs2 s2, event_run cs2 s2 = Some (b, s') /\ status s2 = false.
Proof.
  revert s tr a; induction cs as [|ch cs IH]; intros s tr a H E; cbn [event_run] in H.
  { injection H as <- <-. destruct a; discriminate. }
  destruct (event_step ch s) as [[l s1]|] eqn:S; [|discriminate]. destruct (event_run cs s1) as [[tr1 s2]|] eqn:R; [|discriminate].
  injection H as <- <-. destruct (step_labels _ _ _ _ S) as [(-> & _)|[(j & -> & T & F)|(-> & T)]].
  - destruct a as [|x a]; cbn in E; [discriminate|]. injection E as _ E. eapply IH; [exact R|exact E].
  - destruct a as [|x a]; cbn in E.
    + injection E as _ E. exists cs, s1. rewrite E in R. now split.
    + injection E as _ E. eapply IH; [exact R|exact E].
  - cbn [app] in E. eapply IH; [exact R|exact E].
Qed.

Lemma set_between n cs tr s : event_run cs (new_event n) = Some (tr, s) ->
  (forall b j c, tr = b ++ Released j :: c -> In WasSet b) /\
  (forall a i b j c, tr = a ++ Released i :: b ++ Released j :: c -> In WasSet b).
Proof.
  intro H. split; [intros b j c E; eapply needs_set; [exact H|reflexivity|exact E]|].
  intros a i b j c E. destruct (release_split _ _ _ _ a i _ H E) as (cs2 & s2 & R & F).
  eapply needs_set; [exact R|exact F|reflexivity].
Qed.

(** If the event is set and a thread is blocked, then another one is about to look. *)
Definition watched (s : event) : Prop :=
  status s = true -> (exists i, nth_error (sleepers s) i = Some Blocked) -> exists i, nth_error (sleepers s) i = Some Evaluating.

Lemma watched_step c s l s' : watched s -> event_step c s = Some (l, s') -> watched s'.
Proof.
  intros W E. destruct c as [k|j|j|j]; cbn [event_step] in E.
  - destruct (notify k (sleepers s)) as [ws|] eqn:N; [|discriminate]. injection E as <- <-. intros _ (i & B).
    cbn [sleepers] in *. apply notify_some in N as [(-> & X)|(X & ->)]; [now apply X in B|].
    exists k. rewrite update_nth, Nat.eqb_refl, X. reflexivity.
  - unfold enter in E. destruct (nth_error (sleepers s) j) as [w|] eqn:N; [|discriminate].
    assert (E2 : s' = mk_event (status s) (update j Evaluating (sleepers s))) by (destruct w; try discriminate; injection E as _ <-; reflexivity).
    subst s'. intros _ _. exists j. cbn [sleepers]. rewrite update_nth, Nat.eqb_refl, N. reflexivity.
  - destruct (nth_error (sleepers s) j) as [[]|] eqn:N; try discriminate.
    destruct (status s); injection E as <- <-; intro F; discriminate.
  - unfold unblock in E. destruct (nth_error (sleepers s) j) as [[]|] eqn:N; try discriminate. injection E as _ <-.
    intros _ _. exists j. cbn [sleepers]. rewrite update_nth, Nat.eqb_refl, N. reflexivity.
Qed.

Lemma watched_run cs s tr s' : watched s -> event_run cs s = Some (tr, s') -> watched s'.
Proof.
  revert s tr; induction cs as [|c cs IH]; intros s tr W H; cbn [event_run] in H; [injection H as <- <-; exact W|].
  destruct (event_step c s) as [[l s1]|] eqn:S; [|discriminate]. destruct (event_run cs s1) as [[tr1 s2]|] eqn:R; [|discriminate].
  injection H as <- <-. eapply IH; [|exact R]. eapply watched_step; eassumption.
Qed.

Lemma not_missed n cs tr s : event_run cs (new_event n) = Some (tr, s) -> status s = true ->
  (exists i w, nth_error (sleepers s) i = Some w /\ is_waiting w) ->
  exists i s', event_step (EventCheck i) s = Some ([Released i], s').
Proof.
  intros H T (i & w & N & W).
  assert (K : watched (new_event n)) by (intro F; discriminate). apply (watched_run _ _ _ _ K) in H.
  assert (X : exists i, nth_error (sleepers s) i = Some Evaluating).
  { destruct W as [-> | ->]; [now exists i|]. apply H; [exact T|now exists i]. }
  destruct X as (j & X). exists j. cbn [event_step]. rewrite X, T. eexists. reflexivity.
Qed.

(** The event is set if and only if it has been set since the last release. *)
Lemma status_meaning n cs tr s : event_run cs (new_event n) = Some (tr, s) ->
  (status s = true <-> exists a b, tr = a ++ WasSet :: b /\ forall i, ~ In (Released i) b).
Proof.
  revert tr s. induction cs as [|c cs IH] using rev_ind; intros tr s H.
  - cbn in H. injection H as <- <-. split; [discriminate|]. intros (a & b & E & _). destruct a; discriminate.
  - rewrite event_run_app in H. destruct (event_run cs (new_event n)) as [[tr1 s1]|] eqn:R; [|discriminate].
    specialize (IH tr1 s1 eq_refl). cbn [event_run] in H. destruct (event_step c s1) as [[l s2]|] eqn:S; [|discriminate].
    injection H as <- <-. rewrite app_nil_r. destruct (step_labels _ _ _ _ S) as [(-> & T)|[(i & -> & T & F)|(-> & T)]].
    + rewrite T. split; [intros _|reflexivity]. exists tr1, []. split; [reflexivity|]. intros i [].
    + rewrite F. split; [discriminate|]. intros (a & b & E & N). exfalso.
      destruct b as [|x b] using rev_ind.
      * apply app_inj_tail in E as (_ & E). discriminate.
      * rewrite app_comm_cons, app_assoc in E. apply app_inj_tail in E as (_ & E). subst x.
        apply (N i). apply in_app_iff. right. now left.
    + rewrite T, app_nil_r. exact IH.
Qed.
