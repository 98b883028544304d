(** Every way in which the pool and the log can proceed is one in which times can be read. *)

From Coq Require Import List Arith Bool ZArith Lia.
From Verif Require Import Str ValueModel BuildModel LogModel SchedModel WriteModel ScriptModel StampModel StampSpec StampProofs.
Import ListNotations.

Section Reach.
  Variable reads : nat -> list nat.
  Variable level : log_level.
  Variable info : nat -> task_info.
  Variable dryrun : bool.
  Variable needed : nat -> option bool.
  Variable real : nat -> option (exit_status * str * str).
  Variable epoch n : Z.
  Hypothesis n_range : (0 <= n < 2 ^ 63)%Z.
  Hypothesis same_time : forall v, task_started (info v) = n /\ task_completed (info v) = n.

  Notation now := (epoch + 1000 * n)%Z.
  Notation result := (outcome dryrun needed real).
  Notation program v := (moments dryrun (needed v) (real v)).
  Notation trun := (timed_run reads level info dryrun needed real epoch).
  Notation tstep := (timed_step reads level info dryrun needed real epoch).

  Lemma trun_app cs : forall T tr1 T1, trun cs T = Some (tr1, T1) -> forall cs2 tr2 T2, trun cs2 T1 = Some (tr2, T2) ->
    trun (cs ++ cs2) T = Some (tr1 ++ tr2, T2).
  Proof.
    induction cs as [|c cs IH]; intros T tr1 T1 E cs2 tr2 T2 E2; cbn in *.
    - injection E as <- <-. exact E2.
    - destruct (tstep c T) as [[es T']|]; [|discriminate]. destruct (trun cs T') as [[tr T'']|] eqn:R; [|discriminate].
      injection E as <- <-. rewrite (IH _ _ _ R _ _ _ E2). now rewrite app_assoc.
  Qed.

  Lemma catch_up v p : forall T, ahead T v = p -> clock T = now ->
    exists cs tr T', trun cs T = Some (tr, T') /\ pool_trace tr = [] /\ clock T' = now /\ full T' = full T /\ ahead T' v = [] /\
      (forall u, u <> v -> ahead T' u = ahead T u) /\
      (forall u, started_at T' u = if existsb (fun m => match m with ReadStarted => u =? v | _ => false end) p
                                   then Some now else started_at T u) /\
      (forall u, completed_at T' u = if existsb (fun m => match m with ReadCompleted => u =? v | _ => false end) p
                                     then Some now else completed_at T u).
  Proof.
    induction p as [|m p IH]; intros T A C.
    - exists [], [], T. repeat split; auto.
    - assert (exists es T1, live v T = Some (es, T1) /\ pool_trace (map (pair (clock T)) es) = [] /\ clock T1 = now /\ full T1 = full T /\
        ahead T1 = set_at v p (ahead T) /\
        (forall u, started_at T1 u = if match m with ReadStarted => u =? v | _ => false end then Some now else started_at T u) /\
        (forall u, completed_at T1 u = if match m with ReadCompleted => u =? v | _ => false end then Some now else completed_at T u))
        as (es & T1 & L & P & C1 & F1 & A1 & S1 & D1).
      { unfold live. rewrite A. destruct m; eexists _, _; (split; [reflexivity|]); cbn; rewrite C; repeat split. }
      destruct (IH T1) as (cs & tr & T' & R & P' & C' & F' & A' & B' & S' & D'); [now rewrite A1, set_at_same|exact C1|].
      exists (Living v :: cs). eexists _, T'. cbn. rewrite L, R. split; [reflexivity|].
      rewrite pool_trace_app, P, P'. split; [reflexivity|]. split; [exact C'|]. split; [congruence|]. split; [exact A'|].
      split; [intros u N; rewrite (B' u N), A1; now apply set_at_other|].
      split; intro u; [rewrite S', S1|rewrite D', D1]; destruct m; cbn; try reflexivity; destruct (u =? v); cbn; try reflexivity;
        match goal with |- context[existsb ?f p] => now destruct (existsb f p) end.
  Qed.

  Definition read_by (T : timed_state) (v : nat) : Prop := started_at T v = Some now /\ completed_at T v = Some now.

  Lemma catch_up_all vs : forall T, clock T = now -> (forall v, ahead T v = [] \/ In v vs /\ ahead T v = program v) ->
    exists cs tr T', trun cs T = Some (tr, T') /\ pool_trace tr = [] /\ clock T' = now /\ full T' = full T /\
      (forall v, ahead T' v = []) /\
      (forall v, read_by T v -> read_by T' v) /\
      (forall v, ahead T v = program v -> In ReadCompleted (program v) -> read_by T' v).
  Proof.
    induction vs as [|w vs IH]; intros T C A.
    - exists [], [], T. split; [reflexivity|]. split; [reflexivity|]. split; [exact C|]. split; [reflexivity|].
      assert (A' : forall v, ahead T v = []) by (intro v; now destruct (A v) as [H|[[] _]]).
      split; [exact A'|]. split; [auto|]. intros v E I. rewrite A' in E. rewrite <- E in I. destruct I.
    - destruct (catch_up w _ T eq_refl C) as (cs1 & tr1 & T1 & R1 & P1 & C1 & F1 & A1 & B1 & S1 & D1).
      destruct (IH T1 C1) as (cs2 & tr2 & T2 & R2 & P2 & C2 & F2 & A2 & B2 & D2).
      { intro v. destruct (Nat.eq_dec v w) as [->|N]; [now left|]. rewrite (B1 v N).
        destruct (A v) as [H|[[H|H] H']]; [now left|congruence|now right]. }
      assert (K : forall v, read_by T v -> read_by T1 v).
      { intros v [E1 E2]. split; [rewrite S1|rewrite D1]; match goal with |- (if ?b then _ else _) = _ => now destruct b end. }
      exists (cs1 ++ cs2), (tr1 ++ tr2), T2. rewrite (trun_app _ _ _ _ R1 _ _ _ R2), pool_trace_app, P1, P2.
      repeat split; auto; try congruence.
      + now apply (B2 v), K.
      + now apply (B2 v), K.
      + destruct (Nat.eq_dec v w) as [->|N]; [|apply D2; [rewrite B1|]; assumption].
        apply (B2 w). split; [rewrite S1|rewrite D1]; rewrite H.
        * unfold moments. cbn. now rewrite Nat.eqb_refl.
        * match goal with |- (if ?b then _ else _) = _ => assert (X : b = true) end; [|now rewrite X].
          apply existsb_exists. exists ReadCompleted. split; [exact H0|apply Nat.eqb_refl].
      + destruct (Nat.eq_dec v w) as [->|N]; [|apply D2; [rewrite B1|]; assumption].
        apply (B2 w). split; [rewrite S1|rewrite D1]; rewrite H.
        * unfold moments. cbn. now rewrite Nat.eqb_refl.
        * match goal with |- (if ?b then _ else _) = _ => assert (X : b = true) end; [|now rewrite X].
          apply existsb_exists. exists ReadCompleted. split; [exact H0|apply Nat.eqb_refl].
  Qed.

  Definition has_start (v : nat) (ls : list label) : bool :=
    existsb (fun l => match l with Start u => u =? v | _ => false end) ls.

  Lemma ahead_after ls : forall f v, fold_left (fun f l => begin_label dryrun needed real l f) ls f v =
    if has_start v ls then program v else f v.
  Proof.
    induction ls as [|l ls IH]; intros f v; [reflexivity|]. cbn. rewrite IH. unfold has_start.
    destruct (existsb _ ls) eqn:E; [now rewrite orb_true_r|]. rewrite orb_false_r. destruct l as [u|u|u o]; cbn; try reflexivity.
    unfold set_at. rewrite Nat.eqb_sym. destruct (u =? v) eqn:X; [|reflexivity]. apply Nat.eqb_eq in X. now subst.
  Qed.

  Lemma todo_after ls : forall L L' v, accept_all level info result ls L = Some L' -> lookup_todo v (todo L') <> [] ->
    if has_start v ls then result v <> Raised else lookup_todo v (todo L) <> [].
  Proof.
    induction ls as [|l ls IH]; intros L L' v E N; cbn in E.
    - injection E as <-. exact N.
    - destruct (accept level info result l L) as [L1|] eqn:A; [|discriminate]. specialize (IH _ _ _ E N).
      unfold has_start in *. cbn. destruct (existsb _ ls) eqn:X; [now rewrite orb_true_r|]. rewrite orb_false_r.
      destruct l as [u|u|u o]; cbn in A.
      + injection A as <-. exact IH.
      + injection A as <-. cbn in IH. destruct (u =? v) eqn:Y; [|exact IH]. apply Nat.eqb_eq in Y. subst u.
        intro R. now rewrite R in IH.
      + destruct (lookup_todo u (todo L)); [|discriminate]. destruct o, (task_end (result u)); try discriminate; now injection A as <-.
  Qed.

  Lemma completes v : result v <> Raised -> In ReadCompleted (program v).
  Proof.
    unfold outcome, invoke_if_necessary, moments. destruct (needed v) as [[|]|]; [|cbn; tauto|congruence].
    destruct dryrun; [cbn; tauto|]. destruct (real v) as [[[st o] e]|]; [cbn; tauto|congruence].
  Qed.

  Lemma mus_now : to_mus (now - epoch) = n.
  Proof.
    unfold to_mus. replace (now - epoch)%Z with (n * 1000)%Z by lia. rewrite Z.quot_mul by discriminate.
    apply Z.mod_small. split; [lia|]. eapply Z.lt_trans; [exact (proj2 n_range)|reflexivity].
  Qed.

  Record ready (T : timed_state) : Prop := {
    ready_clock : clock T = now;
    ready_ahead : forall v, ahead T v = [];
    ready_read : forall v, lookup_todo v (todo (snd (full T))) <> [] -> read_by T v
  }.

  Lemma reach_step c T ls F : ready T -> full_step reads level info result c (full T) = Some (ls, F) ->
    exists cs tr T', trun cs T = Some (tr, T') /\ pool_trace tr = ls /\ full T' = F /\ ready T'.
  Proof.
    intros [C A R] S.
    assert (G : match c with ByLog v => returned_from v T && times_match info epoch v T | ByPool _ => true end = true).
    { destruct c as [c|v]; [reflexivity|]. unfold returned_from. rewrite A. cbn [andb]. cbn in S. unfold times_match.
      destruct (R v) as [R1 R2].
      - unfold act in S. intro E. now rewrite E in S.
      - rewrite R1, R2, mus_now. destruct (same_time v) as [-> ->]. now rewrite Z.eqb_refl. }
    assert (W : forallb (allowed T) ls = true).
    { apply forallb_forall. intros [u|u|u o] _; cbn; try reflexivity. unfold returned_from. now rewrite A. }
    pose (T1 := mk_timed_state (clock T) (started_at T) (completed_at T)
                  (fold_left (fun f l => begin_label dryrun needed real l f) ls (ahead T)) F).
    assert (S1 : tstep (Others c) T = Some (map PoolEvent ls, T1)) by (cbn; now rewrite G, S, W).
    destruct (catch_up_all (flat_map (fun l => match l with Start u => [u] | _ => [] end) ls) T1 C)
      as (cs & tr & T' & R' & P' & C' & F' & A' & B' & D').
    { intro v. cbn. rewrite ahead_after. destruct (has_start v ls) eqn:X; [|now left]. right. split; [|reflexivity].
      apply existsb_exists in X. destruct X as (l & I & Y). apply in_flat_map. exists l. split; [exact I|].
      destruct l; try discriminate. apply Nat.eqb_eq in Y. subst. now left. }
    exists (Others c :: cs). eexists _, T'. cbn [timed_run]. rewrite S1, R'. split; [reflexivity|].
    rewrite pool_trace_app, pool_trace_pool, P', app_nil_r. split; [reflexivity|]. split; [exact F'|].
    split; [exact C'|exact A'|]. intros v N. rewrite F' in N. cbn in N. destruct c as [c|w]; cbn in S.
    - destruct (step reads c (fst (full T))) as [[l s]|]; [|discriminate].
      destruct (accept_all level info result l (snd (full T))) as [L|] eqn:E; [|discriminate]. injection S as <- <-.
      pose proof (todo_after _ _ _ v E N) as K. destruct (has_start v l) eqn:X.
      + apply D'; [|now apply completes]. cbn. now rewrite ahead_after, X.
      + apply B'. destruct (R v K). now split.
    - destruct (act w (snd (full T))) as [L|] eqn:E; [|discriminate]. injection S as <- <-. apply B'.
      assert (K : lookup_todo v (todo (snd (full T))) <> []); [|now destruct (R v K)].
      unfold act in E. destruct (Nat.eq_dec w v) as [->|X]; [intro Y; now rewrite Y in E|].
      destruct (lookup_todo w (todo (snd (full T)))) as [|a p]; [discriminate|].
      assert (H : forall p o s1 s2, snd (fst (full T), set_todo w p o s1 s2 (snd (full T))) = L -> lookup_todo v (todo (snd (full T))) <> []).
      { intros q o s1 s2 Y. cbn in Y. subst L. cbn in N. apply Nat.eqb_neq in X. now rewrite X in N. }
      destruct a as [|[|c s]|[|c s]|]; try (injection E as E; exact (H _ _ _ _ E)).
      destruct (owner (snd (full T))); [discriminate|]. injection E as E; exact (H _ _ _ _ E).
  Qed.

  Lemma reach_run cs : forall T ls F, ready T -> full_run reads level info result cs (full T) = Some (ls, F) ->
    exists tcs tr T', trun tcs T = Some (tr, T') /\ pool_trace tr = ls /\ full T' = F /\ ready T'.
  Proof.
    induction cs as [|c cs IH]; intros T ls F Y E; cbn in E.
    - injection E as <- <-. exists [], [], T. exact (conj eq_refl (conj eq_refl (conj eq_refl Y))).
    - destruct (full_step reads level info result c (full T)) as [[l F1]|] eqn:S; [|discriminate].
      destruct (full_run reads level info result cs F1) as [[tr F2]|] eqn:R; [|discriminate]. injection E as <- <-.
      destruct (reach_step _ _ _ _ Y S) as (tcs & tr1 & T1 & R1 & P1 & X1 & Y1).
      rewrite <- X1 in R. destruct (IH _ _ _ Y1 R) as (tcs2 & tr2 & T2 & R2 & P2 & X2 & Y2).
      exists (tcs ++ tcs2), (tr1 ++ tr2), T2. rewrite (trun_app _ _ _ _ R1 _ _ _ R2), pool_trace_app, P1, P2. exact (conj eq_refl (conj eq_refl (conj X2 Y2))).
  Qed.

  Theorem timeable rs tasks ws cs ls F : full_run reads level info result cs (full_init rs tasks ws) = Some (ls, F) ->
    exists tcs tr T, trun tcs (timed_init now rs tasks ws) = Some (tr, T) /\ pool_trace tr = ls /\ full T = F /\ clock T = now.
  Proof.
    intro E. destruct (reach_run cs (timed_init now rs tasks ws) ls F) as (tcs & tr & T & R & P & X & Y); [|exact E|].
    - split; [reflexivity|reflexivity|]. intros v N. now cbn in N.
    - exists tcs, tr, T. repeat split; auto. apply Y.
  Qed.
End Reach.
