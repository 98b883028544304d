(** Proofs about the thread pool. *)

From Coq Require Import List Arith Bool Lia Permutation Wf_nat.
From Verif Require Import SchedModel SchedProofs PoolModel PoolSpec.
Import ListNotations.

Definition executing (ws : list pool_worker) : list nat :=
  flat_map (fun w => match w with PExecuting t => [t] | _ => [] end) ws.

Definition b2n (b : bool) : nat := if b then 1 else 0.

Lemma filter_update : forall (f : pool_worker -> bool) ws i x y, nth_error ws i = Some x ->
    length (filter f (update i y ws)) + b2n (f x) = length (filter f ws) + b2n (f y).
Proof.
  intros f ws i x y H. destruct (update_split _ i x y ws H) as (l1 & l2 & -> & -> & _).
  rewrite !filter_app, !app_length. simpl. destruct (f x); destruct (f y); simpl; lia.
Qed.

Lemma executing_update : forall ws i x y, nth_error ws i = Some x ->
    exists r, Permutation (executing ws) (executing [x] ++ r) /\
              Permutation (executing (update i y ws)) (executing [y] ++ r).
Proof.
  intros ws i x y H. destruct (update_split _ i x y ws H) as (l1 & l2 & -> & -> & _).
  exists (executing l1 ++ executing l2). unfold executing. rewrite !flat_map_app. simpl. rewrite !app_nil_r.
  split; rewrite !app_assoc; apply Permutation_app_tail; apply Permutation_app_comm.
Qed.

Lemma submitted_snoc : forall a b, pool_submitted (a ++ b) = pool_submitted a ++ pool_submitted b.
Proof. intros. apply flat_map_app. Qed.
Lemma started_snoc : forall a b, pool_started (a ++ b) = pool_started a ++ pool_started b.
Proof. intros. apply flat_map_app. Qed.
Lemma finished_snoc : forall a b, pool_finished (a ++ b) = pool_finished a ++ pool_finished b.
Proof. intros. apply flat_map_app. Qed.

Lemma since_collect_app : forall a b acc, since_collect (a ++ b) acc = since_collect b (since_collect a acc).
Proof. induction a as [|l a IH]; simpl; intros; auto. destruct l; auto. Qed.

Lemma first_exception_app : forall st a b,
    first_exception st (a ++ b) = match first_exception st a with Some e => Some e | None => first_exception st b end.
Proof.
  induction a as [|l a IH]; simpl; intros; auto. destruct l as [| |t [e|]| |]; auto. destruct (st t); auto.
Qed.

Lemma in_update : forall A (ws : list A) i x y w, nth_error ws i = Some x -> In w (update i y ws) -> w = y \/ In w ws.
Proof.
  intros A ws i x y w H Hin. destruct (update_split _ i x y ws H) as (l1 & l2 & -> & E & _). rewrite E in Hin.
  apply in_app_or in Hin. simpl in Hin. rewrite in_app_iff. simpl. intuition auto.
Qed.

Lemma in_update_new : forall A (ws : list A) i x y, nth_error ws i = Some x -> In y (update i y ws).
Proof.
  intros A ws i x y H. destruct (update_split _ i x y ws H) as (l1 & l2 & -> & E & _). rewrite E.
  apply in_or_app. simpl. auto.
Qed.

Lemma existsb_count : forall (f : pool_worker -> bool) ws, existsb f ws = false <-> length (filter f ws) = 0.
Proof.
  induction ws as [|w ws IH]; simpl; [tauto|]. destruct (f w); simpl; [split; discriminate|auto].
Qed.

Lemma notify_one_spec : forall k ws ws', notify_one k ws = Some ws' ->
    (ws' = ws /\ length (filter is_asleep ws) = 0) \/
    (nth_error ws k = Some PSleeping /\ ws' = update k PChecking ws).
Proof.
  intros k ws ws' H. unfold notify_one in H. destruct (existsb pool_sleeping ws) eqn:E.
  - right. destruct (nth_error ws k) as [[]|]; inversion H; auto.
  - left. inversion H; subst. split; auto. apply existsb_count. exact E.
Qed.

Lemma notify_one_enabled : forall ws, exists k ws', notify_one k ws = Some ws'.
Proof.
  intros ws. unfold notify_one. destruct (existsb pool_sleeping ws) eqn:E; [|exists 0; eauto].
  apply existsb_exists in E. destruct E as [w [Hin Hw]]. apply In_nth_error in Hin. destruct Hin as [k Hk].
  exists k. rewrite Hk. destruct w; try discriminate. eauto.
Qed.

Section PoolProofs.
  Variable stores : nat -> bool.
  Variable n : nat.
  Hypothesis Hn : 0 < n.

  Inductive pool_exec : list pool_label -> pool -> Prop :=
  | pool_exec_init : pool_exec [] (pool_init n)
  | pool_exec_step : forall tr s c l s', pool_exec tr s -> pool_step stores c s = Some (l, s') ->
                                         pool_exec (tr ++ l) s'.

  Lemma pool_run_exec_from : forall cs s tr0 tr s', pool_exec tr0 s -> pool_run stores cs s = Some (tr, s') ->
      pool_exec (tr0 ++ tr) s'.
  Proof.
    induction cs as [|c cs IH]; simpl; intros s tr0 tr s' He H.
    - inversion H; subst. rewrite app_nil_r. auto.
    - destruct (pool_step stores c s) as [[l s1]|] eqn:E; [|discriminate].
      destruct (pool_run stores cs s1) as [[tr1 s2]|] eqn:E'; [|discriminate]. inversion H; subst.
      rewrite app_assoc. eapply IH; eauto. eapply pool_exec_step; eauto.
  Qed.

  Lemma pool_run_exec : forall cs tr s, pool_run stores cs (pool_init n) = Some (tr, s) -> pool_exec tr s.
  Proof. intros cs tr s H. apply (pool_run_exec_from cs (pool_init n) [] tr s); auto. constructor. Qed.

  Record pool_inv (tr : list pool_label) (s : pool) : Prop := mk_pool_inv {
    pi_fifo : pool_submitted tr = pool_started tr ++ pool_queue s;
    pi_exec : Permutation (pool_started tr) (executing (pool_workers s) ++ pool_finished tr);
    pi_eptr : pool_eptr s = first_exception stores (since_collect tr []);
    pi_work : count_workers is_asleep s = 0 \/ length (pool_queue s) <= count_workers is_checking s;
    pi_term : pool_terminate s = true -> count_workers is_asleep s = 0;
    pi_owner : owner s = Alive <-> pool_terminate s = false;
    pi_exited : In PExited (pool_workers s) -> pool_terminate s = true;
    pi_alive : pool_queue s <> [] -> exists w, In w (pool_workers s) /\ w <> PExited;
    pi_destroyed : owner s = Destroyed -> pool_queue s = [] /\ forall w, In w (pool_workers s) -> w = PExited;
    pi_count : length (pool_workers s) = n
  }.

  Lemma count_repeat : forall f m, f PChecking = false -> length (filter f (repeat PChecking m)) = 0.
  Proof. induction m; simpl; intros; auto. rewrite H. auto. Qed.

  Lemma pool_init_inv : pool_inv [] (pool_init n).
  Proof.
    constructor; simpl; try discriminate; try tauto; auto.
    - replace (executing (repeat PChecking n)) with (@nil nat); [constructor|].
      clear Hn. induction n; simpl; auto.
    - left. unfold count_workers. simpl. apply count_repeat. auto.
    - intro H. apply repeat_spec in H. discriminate.
    - apply repeat_length.
  Qed.

  Lemma push_inv : forall tr s t k l s', pool_inv tr s -> push_task t k s = Some (l, s') ->
      (exists w, In w (pool_workers s) /\ w <> PExited) -> owner s <> Destroyed ->
      pool_inv (tr ++ l) s'.
  Proof.
    intros tr s t k l s' H Hp Hw Hd. unfold push_task in Hp.
    destruct (notify_one k (pool_workers s)) as [ws|] eqn:E; [|discriminate]. inversion Hp; subst. clear Hp.
    apply notify_one_spec in E. unfold count_workers in *. destruct H.
    assert (Hexe : Permutation (executing ws) (executing (pool_workers s))).
    { destruct E as [[-> _]|[Hk ->]]; auto. destruct (executing_update _ _ _ PChecking Hk) as (r & H1 & H2).
      simpl in *. rewrite H1, H2. auto. }
    constructor; simpl; auto; rewrite ?submitted_snoc, ?started_snoc, ?finished_snoc; simpl; rewrite ?app_nil_r; auto.
    - rewrite pi_fifo0, app_assoc. auto.
    - rewrite Hexe. auto.
    - rewrite since_collect_app. simpl. rewrite first_exception_app. simpl. rewrite pi_eptr0.
      destruct (first_exception stores (since_collect tr [])); auto.
    - unfold count_workers in *. simpl. rewrite app_length. simpl. destruct E as [[-> Hz]|[Hk ->]]; auto.
      pose proof (filter_update is_asleep _ _ _ PChecking Hk). pose proof (filter_update is_checking _ _ _ PChecking Hk).
      simpl in *. destruct pi_work0; lia.
    - unfold count_workers in *. simpl. intro Ht. specialize (pi_term0 Ht). destruct E as [[-> Hz]|[Hk ->]]; auto.
      pose proof (filter_update is_asleep _ _ _ PChecking Hk). simpl in *. lia.
    - intro Hx. apply pi_exited0. destruct E as [[-> Hz]|[Hk ->]]; auto.
      eapply in_update in Hx; eauto. destruct Hx; [discriminate|auto].
    - intros _. destruct E as [[-> Hz]|[Hk ->]]; auto. exists PChecking. split; [|discriminate].
      eapply in_update_new; eauto.
    - intro Hx. congruence.
    - destruct E as [[-> Hz]|[Hk ->]]; auto. rewrite update_length. auto.
  Qed.

  Lemma filter_notify_all : forall ws, length (filter is_asleep (notify_all ws)) = 0.
  Proof. induction ws as [|w ws IH]; simpl; auto. destruct w; simpl; auto. Qed.

  Lemma executing_notify_all : forall ws, executing (notify_all ws) = executing ws.
  Proof. unfold executing, notify_all. induction ws as [|w ws IH]; simpl; auto. destruct w; simpl; congruence. Qed.

  Lemma pool_step_inv : forall tr s c l s', pool_inv tr s -> pool_step stores c s = Some (l, s') ->
      pool_inv (tr ++ l) s'.
  Proof.
    intros tr s c l s' H Hs. destruct c as [t k|i t k|i e|i| | |]; simpl in Hs.
    - destruct (owner s) eqn:Ho; try discriminate. eapply push_inv; eauto; [|congruence].
      pose proof (pi_count _ _ H) as Hc. pose proof (pi_exited _ _ H) as Hx. pose proof (proj1 (pi_owner _ _ H) Ho).
      destruct (pool_workers s) as [|w ws]; simpl in Hc; [lia|]. exists w. split; [simpl; auto|].
      intro. subst. assert (pool_terminate s = true) by (apply Hx; simpl; auto). congruence.
    - destruct (nth_error (pool_workers s) i) as [[| |u|]|] eqn:E; try discriminate. apply nth_error_In in E.
      eapply push_inv; eauto; [exists (PExecuting u); split; [auto|discriminate]|].
      intro Hd. destruct (pi_destroyed _ _ H Hd) as [_ Hx]. apply Hx in E. discriminate.
    - unfold pool_worker_step in Hs. destruct (nth_error (pool_workers s) i) as [[| |u|]|] eqn:E; try discriminate.
      + destruct (pool_queue s) as [|t q] eqn:Eq.
        * assert (Hgen : forall w, executing [w] = [] -> w <> PChecking ->
                    (w = PExited -> pool_terminate s = true) ->
                    (w = PSleeping -> pool_terminate s = false) ->
                    pool_inv (tr ++ []) (set_worker i w s)).
          { intros w Hw Hwc Hwx Hws. destruct H. unfold count_workers in *. rewrite app_nil_r.
            pose proof (filter_update is_asleep _ _ _ w E) as F1.
            constructor; simpl; auto.
            - destruct (executing_update _ _ _ w E) as (r & H1 & H2). rewrite Hw in H2. simpl in *.
              rewrite H2, <- H1. auto.
            - right. unfold count_workers. rewrite Eq. simpl. lia.
            - unfold count_workers. simpl. intro Ht. specialize (pi_term0 Ht). simpl in F1.
              destruct w; simpl in *; try lia. rewrite Hws in Ht by auto. discriminate.
            - intro Hx. eapply in_update in Hx; eauto. destruct Hx; auto.
            - intro Hx. rewrite Eq in Hx. congruence.
            - intro Hd. destruct (pi_destroyed0 Hd) as [_ Hx]. apply nth_error_In in E. apply Hx in E. discriminate.
            - rewrite update_length. auto. }
          destruct (pool_terminate s) eqn:Et; inversion Hs; subst; apply Hgen; auto; discriminate.
        * inversion Hs; subst. destruct H. unfold count_workers in *.
          pose proof (filter_update is_asleep _ _ _ (PExecuting t) E) as F1.
          pose proof (filter_update is_checking _ _ _ (PExecuting t) E) as F2. simpl in F1, F2.
          destruct (executing_update _ _ _ (PExecuting t) E) as (r & H1 & H2). simpl in H1, H2.
          rewrite Eq in *.
          constructor; simpl; auto; rewrite ?submitted_snoc, ?started_snoc, ?finished_snoc; simpl; rewrite ?app_nil_r; auto.
          -- rewrite pi_fifo0, <- app_assoc. auto.
          -- rewrite H2, pi_exec0, H1. rewrite Permutation_app_comm. simpl. auto.
          -- rewrite since_collect_app. simpl. rewrite first_exception_app. simpl. rewrite pi_eptr0.
             destruct (first_exception stores (since_collect tr [])); auto.
          -- unfold count_workers. simpl in *. lia.
          -- unfold count_workers. simpl. intro Ht. specialize (pi_term0 Ht). lia.
          -- intro Hx. eapply in_update in Hx; eauto. destruct Hx; [discriminate|auto].
          -- intros _. exists (PExecuting t). split; [eapply in_update_new; eauto|discriminate].
          -- intro Hd. destruct (pi_destroyed0 Hd) as [Hx _]. discriminate.
          -- rewrite update_length. auto.
      + inversion Hs; subst. destruct H. unfold count_workers in *.
        pose proof (filter_update is_asleep _ _ _ PChecking E) as F1.
        pose proof (filter_update is_checking _ _ _ PChecking E) as F2. simpl in F1, F2.
        destruct (executing_update _ _ _ PChecking E) as (r & H1 & H2). simpl in H1, H2.
        constructor; simpl; auto; rewrite ?submitted_snoc, ?started_snoc, ?finished_snoc; simpl; rewrite ?app_nil_r; auto.
        * rewrite H2, pi_exec0, H1. rewrite (app_assoc r). apply Permutation_cons_append.
        * rewrite since_collect_app. simpl. rewrite first_exception_app. simpl. unfold store_exception. rewrite <- pi_eptr0.
          destruct (pool_eptr s); destruct (stores u); destruct e; auto.
        * unfold count_workers. simpl. lia.
        * unfold count_workers. simpl. intro Ht. specialize (pi_term0 Ht). lia.
        * intro Hx. eapply in_update in Hx; eauto. destruct Hx; [discriminate|auto].
        * intros _. exists PChecking. split; [eapply in_update_new; eauto|discriminate].
        * intro Hd. destruct (pi_destroyed0 Hd) as [_ Hx]. apply nth_error_In in E. apply Hx in E. discriminate.
        * rewrite update_length. auto.
    - destruct (nth_error (pool_workers s) i) as [[| |u|]|] eqn:E; try discriminate. inversion Hs; subst.
      rewrite app_nil_r. destruct H. unfold count_workers in *.
      pose proof (filter_update is_asleep _ _ _ PChecking E) as F1.
      pose proof (filter_update is_checking _ _ _ PChecking E) as F2. simpl in F1, F2.
      destruct (executing_update _ _ _ PChecking E) as (r & H1 & H2). simpl in H1, H2.
      constructor; simpl; auto.
      + rewrite H2, <- H1. auto.
      + unfold count_workers. simpl. lia.
      + unfold count_workers. simpl. intro Ht. specialize (pi_term0 Ht). lia.
      + intro Hx. eapply in_update in Hx; eauto. destruct Hx; [discriminate|auto].
      + intros _. exists PChecking. split; [eapply in_update_new; eauto|discriminate].
      + intro Hd. destruct (pi_destroyed0 Hd) as [_ Hx]. apply nth_error_In in E. apply Hx in E. discriminate.
      + rewrite update_length. auto.
    - destruct (owner s) eqn:Ho; try discriminate. inversion Hs; subst. destruct H.
      constructor; simpl; auto; rewrite ?submitted_snoc, ?started_snoc, ?finished_snoc; simpl; rewrite ?app_nil_r; auto.
      + rewrite since_collect_app. simpl. auto.
      + rewrite Ho in pi_owner0. tauto.
      + discriminate.
    - destruct (owner s) eqn:Ho; try discriminate. inversion Hs; subst. rewrite app_nil_r. destruct H.
      pose proof (filter_notify_all (pool_workers s)) as Hz.
      constructor; simpl; auto; try discriminate.
      + rewrite executing_notify_all. auto.
      + split; discriminate.
      + intros Hq. destruct (pi_alive0 Hq) as [w [Hin Hw]].
        exists (match w with PSleeping => PChecking | _ => w end). split.
        * unfold notify_all. apply in_map_iff. exists w. auto.
        * destruct w; congruence.
      + unfold notify_all. rewrite map_length. auto.
    - destruct (owner s) eqn:Ho; try discriminate.
      destruct (forallb pool_exited (pool_workers s)) eqn:Ef; [|discriminate]. inversion Hs; subst. destruct H.
      rewrite forallb_forall in Ef.
      assert (Hall : forall w, In w (pool_workers s) -> w = PExited).
      { intros w Hw. specialize (Ef w Hw). destruct w; simpl in Ef; congruence. }
      constructor; simpl; auto; rewrite ?submitted_snoc, ?started_snoc, ?finished_snoc; simpl; rewrite ?app_nil_r; auto.
      + rewrite since_collect_app. simpl. rewrite first_exception_app. simpl. rewrite pi_eptr0.
        destruct (first_exception stores (since_collect tr [])); auto.
      + rewrite Ho in pi_owner0. split; [discriminate|]. intro Ht. apply pi_owner0 in Ht. discriminate.
      + intros _. split; auto. destruct (pool_queue s) as [|t q]; auto.
        destruct pi_alive0 as [w [Hw Hne]]; [discriminate|]. apply Hall in Hw. congruence.
  Qed.

  Lemma pool_exec_inv : forall tr s, pool_exec tr s -> pool_inv tr s.
  Proof. intros tr s H. induction H; [apply pool_init_inv|eapply pool_step_inv; eauto]. Qed.

  (** ** C12 *)
  Theorem pool_fifo : forall tr s, pool_exec tr s ->
      pool_submitted tr = pool_started tr ++ pool_queue s /\
      exists current, Permutation (pool_started tr) (current ++ pool_finished tr) /\ length current <= n.
  Proof.
    intros tr s H. apply pool_exec_inv in H. split; [apply (pi_fifo _ _ H)|].
    exists (executing (pool_workers s)). split; [apply (pi_exec _ _ H)|]. rewrite <- (pi_count _ _ H).
    unfold executing. induction (pool_workers s) as [|w ws IH]; simpl; auto. rewrite app_length. destruct w; simpl; lia.
  Qed.

  Theorem pool_destroyed : forall tr s, pool_exec tr s -> owner s = Destroyed ->
      pool_started tr = pool_submitted tr /\ Permutation (pool_submitted tr) (pool_finished tr).
  Proof.
    intros tr s H Hd. apply pool_exec_inv in H. destruct (pi_destroyed _ _ H Hd) as [Hq Hx].
    pose proof (pi_fifo _ _ H) as Hf. rewrite Hq, app_nil_r in Hf. split; auto. rewrite Hf, (pi_exec _ _ H).
    replace (executing (pool_workers s)) with (@nil nat); auto. clear - Hx. unfold executing.
    induction (pool_workers s) as [|w ws IH]; simpl; auto. rewrite (Hx w) by (simpl; auto). simpl. apply IH.
    intros; apply Hx; simpl; auto.
  Qed.

  (** A worker sleeps only if there is nothing to do for it. *)
  Theorem pool_work_conserving : forall tr s, pool_exec tr s ->
      0 < count_workers is_asleep s -> length (pool_queue s) <= count_workers is_checking s.
  Proof. intros tr s H Ha. apply pool_exec_inv in H. destruct (pi_work _ _ H); auto. lia. Qed.

  Lemma destroyed_in_trace : forall tr s, pool_exec tr s -> (In PDestroyed tr <-> owner s = Destroyed).
  Proof.
    intros tr s H. induction H as [|tr s c l s' He IH Hs]; [simpl; split; [tauto|discriminate]|].
    rewrite in_app_iff, IH. destruct c as [t k|i t k|i e|i| | |]; simpl in Hs.
    - destruct (owner s) eqn:Ho; try discriminate. unfold push_task in Hs.
      destruct (notify_one k (pool_workers s)); inversion Hs; subst. simpl. rewrite ?Ho. intuition discriminate.
    - destruct (nth_error (pool_workers s) i) as [[| |u|]|]; try discriminate. unfold push_task in Hs.
      destruct (notify_one k (pool_workers s)); inversion Hs; subst. simpl. intuition discriminate.
    - unfold pool_worker_step in Hs. destruct (nth_error (pool_workers s) i) as [[| |u|]|]; try discriminate.
      + destruct (pool_queue s); [destruct (pool_terminate s)|]; inversion Hs; subst; simpl; intuition discriminate.
      + inversion Hs; subst; simpl; intuition discriminate.
    - destruct (nth_error (pool_workers s) i) as [[| |u|]|]; try discriminate. inversion Hs; subst; simpl; tauto.
    - destruct (owner s) eqn:Ho; try discriminate. inversion Hs; subst; simpl. rewrite ?Ho. intuition discriminate.
    - destruct (owner s) eqn:Ho; try discriminate. inversion Hs; subst; simpl. intuition discriminate.
    - destruct (owner s) eqn:Ho; try discriminate. destruct (forallb pool_exited (pool_workers s)); inversion Hs; subst.
      simpl. intuition auto.
  Qed.

  (** ** Progress *)
  Lemma worker_enabled : forall s w, In w (pool_workers s) -> w <> PSleeping -> w <> PExited ->
      exists i l s', pool_step stores (WorkerStep i None) s = Some (l, s').
  Proof.
    intros s w Hin H1 H2. apply In_nth_error in Hin. destruct Hin as [i Hi]. exists i. simpl. unfold pool_worker_step.
    rewrite Hi. destruct w; try congruence; eauto. destruct (pool_queue s); eauto. destruct (pool_terminate s); eauto.
  Qed.

  (** As long as the pool is in use, either some worker can go on, or all of them
      sleep and there is nothing to do. *)
  Theorem pool_live : forall tr s, pool_exec tr s -> owner s = Alive ->
      (exists i l s', pool_step stores (WorkerStep i None) s = Some (l, s')) \/
      (pool_queue s = [] /\ forall w, In w (pool_workers s) -> w = PSleeping).
  Proof.
    intros tr s H Ho. apply pool_exec_inv in H.
    destruct (forallb pool_sleeping (pool_workers s)) eqn:E.
    - right. rewrite forallb_forall in E.
      assert (Hall : forall w, In w (pool_workers s) -> w = PSleeping).
      { intros w Hw. specialize (E w Hw). destruct w; simpl in E; congruence. }
      split; auto. destruct (pi_work _ _ H) as [Hz|Hl].
      + exfalso. pose proof (pi_count _ _ H) as Hc. unfold count_workers in Hz.
        destruct (pool_workers s) as [|w ws]; simpl in *; [lia|]. rewrite (Hall w) in Hz by auto. discriminate.
      + assert (count_workers is_checking s = 0).
        { unfold count_workers. clear - Hall. induction (pool_workers s) as [|w ws IH]; simpl; auto.
          rewrite (Hall w) by (simpl; auto). simpl. apply IH. intros; apply Hall; simpl; auto. }
        destruct (pool_queue s); auto. simpl in Hl. lia.
    - left. assert (Hw : exists w, In w (pool_workers s) /\ pool_sleeping w = false).
      { clear - E. induction (pool_workers s) as [|w ws IH]; simpl in *; [discriminate|].
        destruct (pool_sleeping w) eqn:Ew; simpl in E; [|eauto]. destruct (IH E) as [u [Hu Hw]]. eauto. }
      destruct Hw as [w [Hin Hw]]. eapply worker_enabled; eauto; intro; subst; simpl in Hw; try discriminate.
      apply (pi_exited _ _ H) in Hin. rewrite (proj1 (pi_owner _ _ H) Ho) in Hin. discriminate.
  Qed.

  Lemma destructor_enabled : forall tr s, pool_exec tr s -> owner s <> Destroyed ->
      exists c l s', pool_internal c /\ pool_step stores c s = Some (l, s').
  Proof.
    intros tr s H Ho. apply pool_exec_inv in H. destruct (owner s) eqn:E; [| |congruence].
    - exists StartDestructor. simpl. rewrite E. eauto.
    - destruct (forallb pool_exited (pool_workers s)) eqn:Ef.
      + exists FinishDestructor. simpl. rewrite E, Ef. eauto.
      + assert (Hw : exists w, In w (pool_workers s) /\ pool_exited w = false).
        { clear - Ef. induction (pool_workers s) as [|w ws IH]; simpl in *; [discriminate|].
          destruct (pool_exited w) eqn:Ew; simpl in Ef; [|eauto]. destruct (IH Ef) as [u [Hu Hw]]. eauto. }
        destruct Hw as [w [Hin Hw]].
        assert (Ht : pool_terminate s = true).
        { destruct (pool_terminate s) eqn:Et; auto. apply (pi_owner _ _ H) in Et. congruence. }
        destruct (worker_enabled s w) as (i & l & s' & Hs); auto.
        * intro. subst. pose proof (pi_term _ _ H Ht) as Hz. unfold count_workers in Hz.
          apply existsb_count in Hz. assert (existsb is_asleep (pool_workers s) = true); [|congruence].
          apply existsb_exists. exists PSleeping. auto.
        * intro. subst. discriminate.
        * exists (WorkerStep i None), l, s'. simpl. auto.
  Qed.

  Definition worker_weight (w : pool_worker) : nat :=
    match w with PChecking => 1 | PExecuting _ => 2 | PSleeping | PExited => 0 end.
  Definition weight (s : pool) : nat :=
    2 * length (pool_queue s) + list_sum (map worker_weight (pool_workers s)) +
    match owner s with Alive => 2 + length (pool_workers s) | Joining => 1 | Destroyed => 0 end.

  Lemma weight_update : forall ws i x y, nth_error ws i = Some x ->
      list_sum (map worker_weight (update i y ws)) + worker_weight x = list_sum (map worker_weight ws) + worker_weight y.
  Proof.
    intros ws i x y H. destruct (update_split _ i x y ws H) as (l1 & l2 & -> & -> & _).
    rewrite !map_app, !list_sum_app. simpl. lia.
  Qed.

  Lemma weight_notify_all : forall ws, list_sum (map worker_weight (notify_all ws)) <=
                                       list_sum (map worker_weight ws) + length ws.
  Proof. induction ws as [|w ws IH]; simpl; auto. destruct w; simpl in *; lia. Qed.

  Lemma internal_decreases : forall c s l s', pool_internal c -> pool_step stores c s = Some (l, s') ->
      weight s' < weight s.
  Proof.
    intros c s l s' Hc Hs. unfold weight. destruct c as [t k|i t k|i e|i| | |]; simpl in Hc; try tauto; simpl in Hs.
    - unfold pool_worker_step in Hs. destruct (nth_error (pool_workers s) i) as [[| |u|]|] eqn:E; try discriminate.
      + destruct (pool_queue s) as [|t q] eqn:Eq.
        * destruct (pool_terminate s); inversion Hs; subst; unfold set_worker; simpl; rewrite ?Eq, update_length;
            [pose proof (weight_update _ _ _ PExited E)|pose proof (weight_update _ _ _ PSleeping E)]; simpl in *; lia.
        * inversion Hs; subst; simpl. rewrite update_length. pose proof (weight_update _ _ _ (PExecuting t) E). simpl in *. lia.
      + inversion Hs; subst; simpl. rewrite update_length. pose proof (weight_update _ _ _ PChecking E). simpl in *. lia.
    - destruct (owner s) eqn:Ho; try discriminate. inversion Hs; subst; simpl.
      pose proof (weight_notify_all (pool_workers s)). lia.
    - destruct (owner s) eqn:Ho; try discriminate. destruct (forallb pool_exited (pool_workers s)); inversion Hs; subst; simpl. lia.
  Qed.

  Theorem pool_destructor_returns : forall m tr s, pool_exec tr s -> destructor_returns stores m s.
  Proof.
    induction m as [m IHm] using lt_wf_ind.
    assert (Hw : forall k tr s, weight s < k -> pool_exec tr s -> destructor_returns stores m s).
    { induction k as [|k IHk]; intros tr s Hk He; [lia|].
      destruct (owner s) eqn:Ho.
      3: { apply returned. auto. }
      all: apply returns_later.
      all: try (eapply destructor_enabled; [exact He|congruence]).
      all: try (intros c l s' Hc Hs; apply (IHk (tr ++ l)); [apply (internal_decreases c s l s') in Hs; auto; lia|];
                eapply pool_exec_step; eauto).
      all: intros m' i t q l s' -> Hs; apply (IHm m') with (tr := tr ++ l); [lia|]; eapply pool_exec_step; eauto. }
    intros tr s He. eapply Hw; eauto.
  Qed.

  (** ** C13 *)
  Lemma pool_exec_prefix : forall tr s, pool_exec tr s -> forall tr1 l tr2, tr = tr1 ++ l :: tr2 ->
      exists s1 c s2, pool_exec tr1 s1 /\ pool_step stores c s1 = Some ([l], s2).
  Proof.
    intros tr s H. induction H as [|tr s c ls s' He IH Hs]; intros tr1 l tr2 Heq.
    - destruct tr1; discriminate.
    - assert (Hl : ls = [] \/ exists x, ls = [x]).
      { destruct c as [t k|i t k|i e|i| | |]; simpl in Hs; unfold push_task, pool_worker_step in Hs;
          repeat match type of Hs with context [match ?x with _ => _ end] => destruct x end;
          inversion Hs; eauto. }
      destruct Hl as [->|[x ->]].
      + rewrite app_nil_r in Heq. eauto.
      + destruct tr2 as [|y tr2] using rev_ind.
        * apply app_inj_tail in Heq. destruct Heq as [-> ->]. eauto 6.
        * clear IHtr2. rewrite app_comm_cons, app_assoc in Heq. apply app_inj_tail in Heq. destruct Heq as [Heq _]. eauto.
  Qed.

  Theorem pool_collect : forall tr s, pool_exec tr s -> forall tr1 e tr2, tr = tr1 ++ PCollect e :: tr2 ->
      e = first_exception stores (since_collect tr1 []).
  Proof.
    intros tr s H tr1 e tr2 Heq. destruct (pool_exec_prefix _ _ H _ _ _ Heq) as (s1 & c & s2 & He & Hs).
    apply pool_exec_inv in He. rewrite <- (pi_eptr _ _ He).
    destruct c as [t k|i t k|i e'|i| | |]; simpl in Hs; unfold push_task, pool_worker_step in Hs;
      repeat match type of Hs with context [match ?x with _ => _ end] => destruct x end; inversion Hs; auto.
  Qed.
End PoolProofs.

(** * AsyncTaskResult *)

Definition holds (r : option task_end) (s : async) : Prop :=
  match r with
  | None => a_result s = None /\ a_except s = None
  | Some (Value v) => a_result s = Some v /\ a_except s = None
  | Some (Exception e) => a_result s = None /\ a_except s = Some e
  end.

(** [r] is what has been set so far. *)
Definition async_inv (r : option task_end) (s : async) : Prop :=
  holds r s /\
  (forall x, In x (readers s) -> x = RChecking \/ x = RSleeping \/ exists o, r = Some o /\ x = delivered o).

Lemma reader_step_inv : forall c s s' r, sets c = false -> async_inv r s -> async_step c s = Some s' -> async_inv r s'.
Proof.
  intros c s s' r Hc [H1 H2] Hs. destruct c as [o k|i|i]; simpl in *; [discriminate| |].
  - destruct (nth_error (readers s) i) as [[| | |]|] eqn:E; try discriminate.
    assert (Hx : exists y, s' = mk_async (a_result s) (a_except s) (update i y (readers s)) /\
                           (y = RChecking \/ y = RSleeping \/ exists o, r = Some o /\ y = delivered o)).
    { destruct r as [[v|e]|]; destruct H1 as [E1 E2]; rewrite E1, E2 in Hs; rewrite E1, E2; inversion Hs; subst;
        eexists; (split; [reflexivity|]); simpl; eauto. }
    destruct Hx as (y & -> & Hy). split; [destruct r as [[v|e]|]; auto|].
    simpl. intros x Hx. eapply in_update in Hx; eauto. destruct Hx as [->|Hx]; auto.
  - destruct (nth_error (readers s) i) as [[| | |]|] eqn:E; try discriminate. inversion Hs; subst.
    split; [destruct r as [[v|e]|]; auto|].
    simpl. intros x Hx. eapply in_update in Hx; eauto. destruct Hx as [->|Hx]; auto.
Qed.

Lemma set_inv : forall o k s s', async_inv None s -> async_step (SetResult o k) s = Some s' -> async_inv (Some o) s'.
Proof.
  intros o k s s' [[H1 H1'] H2] Hs. simpl in Hs. destruct (wake_reader k (readers s)) as [rs|] eqn:E; [|discriminate].
  assert (Hrs : forall x, In x rs -> x = RChecking \/ x = RSleeping).
  { intros x Hx. assert (Hold : forall x, In x (readers s) -> x = RChecking \/ x = RSleeping).
    { intros y Hy. destruct (H2 y Hy) as [Hz|[Hz|(o' & Hz & _)]]; auto. discriminate. }
    unfold wake_reader in E. destruct (existsb reader_sleeping (readers s)); [|inversion E; subst; auto].
    destruct (nth_error (readers s) k) as [[| | |]|] eqn:En; inversion E; subst.
    eapply in_update in Hx; eauto. destruct Hx as [->|Hx]; auto. }
  destruct o; inversion Hs; subst; (split; [simpl; auto|]); simpl; intros x Hx; destruct (Hrs x Hx); auto.
Qed.

Lemma async_run_inv : forall cs s s' r, existsb sets cs = false -> async_inv r s -> async_run cs s = Some s' -> async_inv r s'.
Proof.
  induction cs as [|c cs IH]; simpl; intros s s' r Hc Hi H; [inversion H; subst; auto|].
  apply orb_false_iff in Hc. destruct Hc as [Hc Hcs].
  destruct (async_step c s) as [s1|] eqn:E; [|discriminate]. apply (IH s1 s' r Hcs); [eapply reader_step_inv; eauto|auto].
Qed.

Lemma async_init_inv : forall n, async_inv None (async_init n).
Proof. intros n. split; [simpl; auto|]. simpl. intros x Hx. apply repeat_spec in Hx. auto. Qed.

Lemma async_run_app : forall a b s, async_run (a ++ b) s = match async_run a s with None => None | Some s' => async_run b s' end.
Proof. induction a as [|c a IH]; simpl; intros; auto. destruct (async_step c s); auto. Qed.

Theorem async_not_before : forall n cs s, existsb sets cs = false -> async_run cs (async_init n) = Some s ->
    forall x, In x (readers s) -> ~ reader_done x.
Proof.
  intros n cs s Hc H x Hx Hd. destruct (async_run_inv _ _ _ _ Hc (async_init_inv n) H) as [_ H2].
  destruct (H2 x Hx) as [->|[->|(o & Ho & _)]]; simpl in Hd; auto. discriminate.
Qed.

Theorem async_delivers : forall n cs1 o k cs2 s, existsb sets (cs1 ++ cs2) = false ->
    async_run (cs1 ++ SetResult o k :: cs2) (async_init n) = Some s ->
    forall x, In x (readers s) -> reader_done x -> x = delivered o.
Proof.
  intros n cs1 o k cs2 s Hc H x Hx Hd. rewrite existsb_app in Hc. apply orb_false_iff in Hc. destruct Hc as [Hc1 Hc2].
  rewrite async_run_app in H. destruct (async_run cs1 (async_init n)) as [s1|] eqn:E1; [|discriminate].
  pose proof (async_run_inv _ _ _ _ Hc1 (async_init_inv n) E1) as I1.
  cbn [async_run] in H. destruct (async_step (SetResult o k) s1) as [s2|] eqn:E2; [|discriminate].
  pose proof (set_inv _ _ _ _ I1 E2) as I2. pose proof (async_run_inv _ _ _ _ Hc2 I2 H) as [_ I3].
  destruct (I3 x Hx) as [->|[->|(o' & Ho & ->)]]; simpl in Hd; try tauto. inversion Ho; subst. auto.
Qed.

(** With a single reader. *)
Definition awake (o : task_end) (s : async) : Prop :=
  holds (Some o) s /\ (readers s = [RChecking] \/ readers s = [delivered o]).

Lemma awake_step : forall c s s' o, sets c = false -> awake o s -> async_step c s = Some s' -> awake o s'.
Proof.
  intros c s s' o Hc [H1 H2] Hs. destruct c as [o' k|i|i]; simpl in *; [discriminate| |].
  - destruct H2 as [H2|H2]; rewrite H2 in Hs.
    + destruct i as [|i]; simpl in Hs; [|destruct i; discriminate].
      destruct o; destruct H1 as [H1 H1']; rewrite H1, H1' in Hs; inversion Hs; subst; (split; [simpl; auto|]);
        right; reflexivity.
    + destruct i as [|i]; simpl in Hs; [destruct o; discriminate|destruct i; discriminate].
  - destruct H2 as [H2|H2]; rewrite H2 in Hs.
    + destruct i as [|i]; simpl in Hs; [discriminate|destruct i; discriminate].
    + destruct i as [|i]; simpl in Hs; [destruct o; discriminate|destruct i; discriminate].
Qed.

Lemma awake_run : forall cs s s' o, existsb sets cs = false -> awake o s -> async_run cs s = Some s' -> awake o s'.
Proof.
  induction cs as [|c cs IH]; simpl; intros s s' o Hc Hi H; [inversion H; subst; auto|].
  apply orb_false_iff in Hc. destruct Hc as [Hc Hcs].
  destruct (async_step c s) as [s1|] eqn:E; [|discriminate]. apply (IH s1 s' o Hcs); [eapply awake_step; eauto|auto].
Qed.

Lemma async_step_length : forall c s s', async_step c s = Some s' -> length (readers s') = length (readers s).
Proof.
  intros c s s' H. destruct c as [o k|i|i]; simpl in H.
  - unfold wake_reader in H. destruct (existsb reader_sleeping (readers s)).
    + destruct (nth_error (readers s) k) as [[| | |]|]; try discriminate. destruct o; inversion H; subst; simpl; apply update_length.
    + destruct o; inversion H; subst; auto.
  - destruct (nth_error (readers s) i) as [[| | |]|]; try discriminate.
    destruct (a_except s); [|destruct (a_result s)]; inversion H; subst; simpl; apply update_length.
  - destruct (nth_error (readers s) i) as [[| | |]|]; try discriminate. inversion H; subst; simpl; apply update_length.
Qed.

Lemma async_run_length : forall cs s s', async_run cs s = Some s' -> length (readers s') = length (readers s).
Proof.
  induction cs as [|c cs IH]; simpl; intros s s' H; [inversion H; auto|].
  destruct (async_step c s) as [s1|] eqn:E; [|discriminate]. apply IH in H. apply async_step_length in E. congruence.
Qed.

Theorem async_single_reader : forall cs1 o k cs2 s, existsb sets (cs1 ++ cs2) = false ->
    async_run (cs1 ++ SetResult o k :: cs2) (async_init 1) = Some s ->
    readers s = [delivered o] \/
    (exists s', async_step (ReaderStep 0) s = Some s' /\ readers s' = [delivered o]).
Proof.
  intros cs1 o k cs2 s Hc H. rewrite existsb_app in Hc. apply orb_false_iff in Hc. destruct Hc as [Hc1 Hc2].
  rewrite async_run_app in H. destruct (async_run cs1 (async_init 1)) as [s1|] eqn:E1; [|discriminate].
  pose proof (async_run_inv _ _ _ _ Hc1 (async_init_inv 1) E1) as [Hh Hr].
  pose proof (async_run_length _ _ _ E1) as Hl. simpl in Hl.
  cbn [async_run] in H. destruct (async_step (SetResult o k) s1) as [s2|] eqn:E2; [|discriminate].
  assert (Ha : awake o s2).
  { destruct Hh as [Hh1 Hh2]. simpl in E2. destruct (readers s1) as [|x [|y l]]; simpl in Hl; try discriminate.
    unfold wake_reader in E2. simpl in E2. destruct (Hr x) as [->|[->|(o' & Ho & _)]]; simpl; auto; try discriminate; simpl in E2.
    - destruct o; inversion E2; subst; split; simpl; auto.
    - destruct k as [|k]; simpl in E2; [|destruct k; discriminate].
      destruct o; inversion E2; subst; split; simpl; auto. }
  destruct (awake_run _ _ _ _ Hc2 Ha H) as [Hh' [Hx|Hx]]; [right|left; auto].
  destruct o; destruct Hh' as [H1 H1']; simpl; rewrite Hx; simpl; rewrite H1, H1'; eexists; split; reflexivity.
Qed.

(** With two of them, one is not woken up. *)
Theorem async_two_readers : exists cs1 o k cs2 s,
    existsb sets (cs1 ++ cs2) = false /\
    async_run (cs1 ++ SetResult o k :: cs2) (async_init 2) = Some s /\
    (exists x, In x (readers s) /\ ~ reader_done x) /\
    forall i, async_step (ReaderStep i) s = None.
Proof.
  exists [ReaderStep 0; ReaderStep 1], (Value 7), 0, [ReaderStep 0]. eexists.
  split; [reflexivity|]. split; [vm_compute; reflexivity|]. split.
  - exists RSleeping. simpl. auto.
  - intros [|[|[|i]]]; reflexivity.
Qed.
