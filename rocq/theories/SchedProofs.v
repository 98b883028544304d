(** Proofs about running a list of tasks. *)

From Coq Require Import List Arith Bool Lia Permutation Wellfounded Relations.
From Verif Require Import SchedModel SchedSpec.
Import ListNotations.

(** * Lists *)

Lemma update_split : forall A i (x y : A) l, nth_error l i = Some x ->
    exists l1 l2, l = l1 ++ x :: l2 /\ update i y l = l1 ++ y :: l2 /\ length l1 = i.
Proof.
  induction i; intros x y [|a l] H; simpl in *; try discriminate.
  - inversion H; subst. exists [], l. auto.
  - destruct (IHi x y l H) as (l1 & l2 & -> & -> & <-). exists (a :: l1), l2. auto.
Qed.

Lemma update_length : forall A i (x : A) l, length (update i x l) = length l.
Proof. induction i; intros x [|a l]; simpl; auto. Qed.

Lemma nth_update_same : forall A i (x : A) l, i < length l -> nth_error (update i x l) i = Some x.
Proof. induction i; intros x [|a l] H; simpl in *; try lia; auto. apply IHi. lia. Qed.

Lemma nth_update_other : forall A i j (x : A) l, i <> j -> nth_error (update i x l) j = nth_error l j.
Proof.
  induction i; intros [|j] x [|a l] H; simpl in *; try congruence; auto.
Qed.

Lemma NoDup_app_l : forall A (a b : list A), NoDup (a ++ b) -> NoDup a.
Proof.
  induction a; simpl; intros b H; constructor; inversion H; subst; eauto.
  intro Hx. apply H2. apply in_or_app. auto.
Qed.

(** * Traces *)

Lemma submitted_app : forall a b, submitted (a ++ b) = submitted a ++ submitted b.
Proof. intros. apply flat_map_app. Qed.
Lemma started_app : forall a b, started (a ++ b) = started a ++ started b.
Proof. intros. apply flat_map_app. Qed.
Lemma finished_app : forall a b, finished (a ++ b) = finished a ++ finished b.
Proof. intros. apply flat_map_app. Qed.

Lemma started_in : forall v tr, In v (started tr) <-> In (Start v) tr.
Proof.
  intros v tr. unfold started. rewrite in_flat_map. split.
  - intros [l [Hl H]]. destruct l; simpl in H; try tauto. destruct H as [->|[]]. auto.
  - intros H. exists (Start v). simpl. auto.
Qed.

Lemma finished_in : forall v tr, In v (finished tr) <-> exists o, In (Finish v o) tr.
Proof.
  intros v tr. unfold finished. rewrite in_flat_map. split.
  - intros [l [Hl H]]. destruct l; simpl in H; try tauto. destruct H as [->|[]]. eauto.
  - intros [o H]. exists (Finish v o). simpl. auto.
Qed.

(** * Workers *)

(** The task that is being run and has no result yet. *)
Definition running_of (w : worker) : list nat := match w with WRunning v => [v] | _ => [] end.
(** The task whose exception has not been stored yet. *)
Definition throwing_of (w : worker) : list nat := match w with WThrowing v => [v] | _ => [] end.
(** The task that will set the event. *)
Definition setting_of (w : worker) : list nat :=
  match w with WRunning v | WThrowing v | WLeaving v => [v] | _ => [] end.
(** The task that counts. *)
Definition busy_of (w : worker) : list nat :=
  match w with WRunning v | WThrowing v | WLeaving v | WUnlocking v => [v] | _ => [] end.

Definition running (ws : list worker) := flat_map running_of ws.
Definition throwing (ws : list worker) := flat_map throwing_of ws.
Definition setting (ws : list worker) := flat_map setting_of ws.
Definition busy (ws : list worker) := flat_map busy_of ws.

Lemma notify_cases : forall k ws ws', notify_pool k ws = Some ws' ->
    (existsb is_sleeping ws = false /\ ws' = ws) \/
    (exists l1 l2, ws = l1 ++ WSleeping :: l2 /\ ws' = l1 ++ WChecking :: l2).
Proof.
  intros k ws ws' H. unfold notify_pool in H. destruct (existsb is_sleeping ws).
  - right. destruct (nth_error ws k) as [[]|] eqn:E; try discriminate. inversion H; subst.
    destruct (update_split _ k WSleeping WChecking ws E) as (l1 & l2 & -> & -> & _). eauto.
  - left. inversion H. auto.
Qed.

Lemma notify_map : forall f k ws ws', f WChecking = (@nil nat) -> f WSleeping = [] ->
    notify_pool k ws = Some ws' -> flat_map f ws' = flat_map f ws.
Proof.
  intros f k ws ws' Hc Hs H. apply notify_cases in H. destruct H as [[_ ->]|(l1 & l2 & -> & ->)]; auto.
  rewrite !flat_map_app. simpl. rewrite Hc, Hs. auto.
Qed.

Lemma notify_enabled : forall ws, exists k ws', notify_pool k ws = Some ws'.
Proof.
  intros ws. unfold notify_pool. destruct (existsb is_sleeping ws) eqn:E.
  - apply existsb_exists in E. destruct E as [w [Hin Hw]]. destruct w; try discriminate.
    apply In_nth_error in Hin. destruct Hin as [k Hk]. exists k. rewrite Hk. eauto.
  - exists 0. eauto.
Qed.

(** * Runs *)

Section Runs.
  Variable reads : nat -> list nat.

  Inductive exec (s0 : state) : list label -> state -> Prop :=
  | exec_init : exec s0 [] s0
  | exec_step : forall tr s c l s', exec s0 tr s -> step reads c s = Some (l, s') ->
                                    exec s0 (tr ++ l) s'.

  Lemma exec_trans : forall s0 tr1 s1 tr2 s2, exec s0 tr1 s1 -> exec s1 tr2 s2 -> exec s0 (tr1 ++ tr2) s2.
  Proof.
    intros s0 tr1 s1 tr2 s2 H1 H2. induction H2.
    - rewrite app_nil_r. auto.
    - rewrite app_assoc. eapply exec_step; eauto.
  Qed.

  Lemma run_exec : forall cs s0 tr s, run reads cs s0 = Some (tr, s) -> exec s0 tr s.
  Proof.
    induction cs as [|c cs IH]; simpl; intros s0 tr s H.
    - inversion H; subst. constructor.
    - destruct (step reads c s0) as [[l s']|] eqn:E; try discriminate.
      destruct (run reads cs s') as [[tr' s'']|] eqn:E'; try discriminate. inversion H; subst.
      apply exec_trans with s'; auto. apply (exec_step s0 [] s0 c l s'); auto. constructor.
  Qed.
End Runs.

(** * Safety *)

Section Safety.
  Variable reads : nat -> list nat.
  Variable rs : list task_result.
  Variable tasks : list nat.
  Variable ws : list worker.
  Hypothesis Hsetup : task_setup reads rs tasks.
  Hypothesis Hpool : idle_pool ws.

  Definition succeeded (s : state) (d : nat) : Prop := nth_error (results s) d = Some Success.

  (** In these phases nothing is left to submit. *)
  Definition submitting (p : phase) : Prop :=
    match p with CounterWait | CounterSleep | Taking | Returned _ | Threw _ => False | _ => True end.

  Record inv (tr : list label) (s : state) : Prop := mk_inv {
    (* every task is still listed, or has been submitted, or has been dropped
       after a failure *)
    inv_split : exists dropped, Permutation tasks (passed s ++ rest s ++ dropped ++ submitted tr) /\
        (dropped <> [] -> passed s = [] /\ rest s = [] /\ exists v, In (Finish v Fails) tr);
    inv_order : forall l1 v l2, passed s ++ rest s = l1 ++ v :: l2 ->
        forall d, In d (reads v) -> In d l1 \/ In d (submitted tr) \/ (~ In d tasks /\ succeeded s d);
    inv_fifo : submitted tr = started tr ++ queue s;
    inv_running : Permutation (started tr) (running (workers s) ++ finished tr);
    inv_results : length (results s) = length rs /\
        (forall v, ~ In v tasks -> nth_error (results s) v = nth_error rs v) /\
        (forall v, In v tasks ->
           (In (Finish v Succeeds) tr /\ nth_error (results s) v = Some Success) \/
           (In (Finish v Fails) tr /\ nth_error (results s) v = Some Failure) \/
           (~ In (Finish v Succeeds) tr /\ ~ In (Finish v Fails) tr /\
            nth_error (results s) v = Some Pending));
    inv_ready : forall v, In v (submitted tr) -> forall d, In d (reads v) -> succeeded s d;
    inv_checking : forall ds, ph s = Checking ds -> exists t after pre,
        rest s = t :: after /\ reads t = pre ++ ds /\ forall d, In d pre -> succeeded s d;
    inv_position : (rest s = [] -> passed s = []) /\
        match ph s with
        | Loop | Checking _ => True
        | EventWait | EventSleep => passed s = []
        | UndefinedPhase => False
        | _ => passed s = [] /\ rest s = []
        end;
    inv_counter : counter s = length (queue s) + length (busy (workers s));
    inv_num : num_tasks s = length (submitted tr);
    inv_eptr_some : forall v, eptr s = Some v \/ ph s = Threw v -> exists o, In (Finish v o) tr /\ o <> Succeeds;
    inv_eptr_none : forall v o, In (Finish v o) tr -> o <> Succeeds ->
        (exists u, eptr s = Some u \/ ph s = Threw u) \/ In v (throwing (workers s));
    inv_end : match ph s with
              | Taking | Returned _ | Threw _ => queue s = [] /\ busy (workers s) = []
              | _ => True
              end;
    inv_returned : forall n, ph s = Returned n -> n = num_tasks s /\ eptr s = None;
    inv_awake : (forall w, In w (workers s) -> w = WSleeping) -> queue s = [];
    inv_event_sleep : ph s = EventSleep -> event s = false;
    inv_counter_sleep : ph s = CounterSleep -> counter s <> 0;
    inv_throwing : forall v, In v (throwing (workers s)) -> exists o, In (Finish v o) tr /\ o <> Succeeds;
    inv_pool : workers s <> []
  }.

  Lemma nodup_submitted : forall tr s, inv tr s -> NoDup (submitted tr) /\ forall v, In v (submitted tr) -> In v tasks.
  Proof.
    intros tr s H. destruct (inv_split _ _ H) as [dropped [Hp _]]. clear H.
    rewrite !app_assoc in Hp. split.
    - assert (H : NoDup (((passed s ++ rest s) ++ dropped) ++ submitted tr)).
      { eapply Permutation_NoDup; eauto. apply (setup_nodup _ _ _ Hsetup). }
      clear - H. induction ((passed s ++ rest s) ++ dropped); auto. inversion H; auto.
    - intros v Hv. eapply Permutation_in; [apply Permutation_sym; eauto|]. apply in_or_app. auto.
  Qed.

  Lemma nodup_app_not : forall A (l1 l2 : list A) x, NoDup (l1 ++ l2) -> In x l1 -> ~ In x l2.
  Proof.
    induction l1; simpl; intros l2 x H Hin; [tauto|]. inversion H; subst. destruct Hin as [->|Hin]; auto.
    intro Hx. apply H2. apply in_or_app. auto.
  Qed.

  Lemma nodup_finished : forall tr s, inv tr s -> NoDup (running (workers s) ++ finished tr).
  Proof.
    intros tr s H. pose proof (nodup_submitted _ _ H) as [Hn _].
    rewrite (inv_fifo _ _ H) in Hn. apply NoDup_app_l in Hn.
    eapply Permutation_NoDup; [apply (inv_running _ _ H)|]. auto.
  Qed.

  Lemma running_submitted : forall tr s v, inv tr s -> In v (running (workers s) ++ finished tr) -> In v (submitted tr).
  Proof.
    intros tr s v H Hin. rewrite (inv_fifo _ _ H). apply in_or_app. left.
    eapply Permutation_in; [apply Permutation_sym, (inv_running _ _ H)|]. auto.
  Qed.

  Lemma busy_running : forall v l, In v (running l) -> In v (busy l).
  Proof.
    intros v l H. unfold running, busy in *. apply in_flat_map in H. destruct H as [w [Hw H]].
    apply in_flat_map. exists w. split; auto. destruct w; simpl in *; auto.
  Qed.

  Lemma init_inv : inv [] (init rs tasks ws).
  Proof.
    destruct Hpool as [Hne Hidle].
    assert (Hno : forall f, f WChecking = (@nil nat) -> f WSleeping = [] -> flat_map f ws = []).
    { intros f Hc Hs. clear Hne Hpool. induction ws as [|w l IH]; simpl; auto.
      destruct (Hidle w) as [-> | ->]; simpl; auto; rewrite ?Hc, ?Hs; simpl; apply IH; intros; apply Hidle; simpl; auto. }
    constructor; simpl; try discriminate; try tauto.
    - exists []. rewrite app_nil_r. split; auto. congruence.
    - intros l1 v l2 Heq d Hd.
      destruct (setup_order _ _ _ Hsetup l1 v l2 Heq d Hd) as [H|H]; auto.
    - unfold running. rewrite Hno; auto.
    - split; auto. split; auto. intros v Hv. right. right. split; auto. split; auto.
      apply (setup_pending _ _ _ Hsetup). auto.
    - unfold busy. rewrite Hno; auto.
    - intros v [H|H]; discriminate.
    - unfold throwing. rewrite Hno; simpl; tauto.
  Qed.

  (** ** Steps that only change the phase *)
  Lemma phase_inv : forall tr s p, inv tr s ->
      (forall v, ph s <> Threw v) -> (forall v, p <> Threw v) ->
      (forall ds, p = Checking ds -> exists t after pre,
        rest s = t :: after /\ reads t = pre ++ ds /\ forall d, In d pre -> succeeded s d) ->
      match p with
        | Loop | Checking _ => True
        | EventWait | EventSleep => passed s = []
        | UndefinedPhase => False
        | _ => passed s = [] /\ rest s = []
      end ->
      match p with
        | Taking | Returned _ | Threw _ => queue s = [] /\ busy (workers s) = []
        | _ => True
      end ->
      (forall n, p = Returned n -> n = num_tasks s /\ eptr s = None) ->
      (p = EventSleep -> event s = false) ->
      (p = CounterSleep -> counter s <> 0) ->
      inv (tr ++ []) (set_phase p s).
  Proof.
    intros tr s p H Hnt Hpt Hc Hpos He Hr Hes Hcs. rewrite app_nil_r. destruct H. constructor; simpl; auto.
    - destruct inv_position0. auto.
    - intros v [Hv|Hv]; [auto|]. exfalso. eapply Hpt; eauto.
    - intros v o Hv Ho. destruct (inv_eptr_none0 v o Hv Ho) as [[u [Hu|Hu]]|Hx]; auto.
      + left. exists u. auto.
      + exfalso. eapply Hnt; eauto.
  Qed.

  (** ** Steps that remove the first task from the rest of the list *)
  Lemma skip_inv : forall tr s t after ds d,
      inv tr s -> ph s = Checking ds -> rest s = t :: after -> In d ds ->
      match wrap_iterator (passed s ++ [t]) after with
      | (before', after', p) =>
          inv (tr ++ []) (mk_state (results s) before' after' p (queue s) (workers s)
                             (event s) (counter s) (eptr s) (num_tasks s))
      end.
  Proof.
    intros tr s t after ds d H Hph Hrest Hd. rewrite app_nil_r.
    assert (Hall : forall b a, b ++ a = passed s ++ rest s ->
        (a = [] -> b = []) -> forall p,
        (p = Loop \/ p = EventWait /\ b = []) ->
        inv tr (mk_state (results s) b a p (queue s) (workers s) (event s) (counter s) (eptr s) (num_tasks s))).
    { intros b a Hab Hba p Hp. destruct H.
      assert (Hpp : forall q, p = q -> q = Loop \/ q = EventWait) by (intros; subst; intuition).
      constructor; simpl; auto.
      - destruct inv_split0 as [dropped [Hperm Hdrop]]. exists dropped. split.
        + rewrite app_assoc in Hperm |- *. rewrite Hab. auto.
        + intros Hne. destruct (Hdrop Hne) as (_ & Hx & _). congruence.
      - rewrite Hab. auto.
      - intros ds' Heq. apply Hpp in Heq. intuition discriminate.
      - split; auto. destruct Hp as [->|[-> Hb]]; auto.
      - intros v [Hv|Hv]; [auto|]. apply Hpp in Hv. intuition discriminate.
      - intros v o Hv Ho. destruct (inv_eptr_none0 v o Hv Ho) as [[u [Hu|Hu]]|Hx]; [left; exists u; auto|congruence|auto].
      - destruct Hp as [->|[-> _]]; auto.
      - intros n Hn. apply Hpp in Hn. intuition discriminate.
      - intros Hn. apply Hpp in Hn. intuition discriminate.
      - intros Hn. apply Hpp in Hn. intuition discriminate. }
    destruct after as [|t' after]; simpl.
    - apply Hall; auto. simpl. rewrite Hrest. auto.
    - apply Hall; auto; [|discriminate]. rewrite Hrest, <- app_assoc. auto.
  Qed.

  Lemma submit_inv : forall tr s t after ws' k,
      inv tr s -> ph s = Checking [] -> rest s = t :: after -> notify_pool k (workers s) = Some ws' ->
      match wrap_iterator (passed s) after with
      | (before', after', p) =>
          inv (tr ++ [Submit t]) (mk_state (results s) before' after' p (queue s ++ [t]) ws'
                                           (event s) (S (counter s)) (eptr s) (S (num_tasks s)))
      end.
  Proof.
    intros tr s t after ws' k H Hph Hrest Hn.
    assert (Hrun : running ws' = running (workers s)) by (eapply notify_map; eauto).
    assert (Hbusy : busy ws' = busy (workers s)) by (eapply notify_map; eauto).
    assert (Hthr : throwing ws' = throwing (workers s)) by (eapply notify_map; eauto).
    assert (Hall : forall b a, b ++ a = passed s ++ after ->
        (a = [] -> b = []) -> forall p,
        (p = Loop \/ p = EventWait /\ b = []) ->
        inv (tr ++ [Submit t]) (mk_state (results s) b a p (queue s ++ [t]) ws' (event s) (S (counter s)) (eptr s) (S (num_tasks s)))).
    { intros b a Hab Hba p Hp. destruct H.
      assert (Hpp : forall q, p = q -> q = Loop \/ q = EventWait) by (intros; subst; intuition).
      destruct (inv_checking0 [] Hph) as (t' & after' & pre & Hr' & Hreads & Hpre).
      rewrite Hrest in Hr'. inversion Hr'; subst t' after'. clear Hr'. rewrite app_nil_r in Hreads.
      constructor; simpl; auto; rewrite ?submitted_app, ?started_app, ?finished_app; simpl; rewrite ?app_nil_r.
      - destruct inv_split0 as [dropped [Hperm Hdrop]]. exists dropped. split.
        + rewrite Hrest in Hperm. rewrite Hperm. rewrite (app_assoc b a), Hab. simpl.
          rewrite <- Permutation_middle. rewrite Permutation_cons_append.
          rewrite <- !app_assoc. reflexivity.
        + intros Hne. destruct (Hdrop Hne) as (_ & Hx & _). congruence.
      - intros l1 v l2 Heq d Hd. rewrite Hab in Heq.
        assert (Hx : exists m1, passed s ++ t :: after = m1 ++ v :: l2 /\ (forall x, In x m1 -> In x l1 \/ x = t) \/
                     exists m2, passed s ++ t :: after = l1 ++ v :: m2).
        { clear - Heq. revert l1 Heq. induction (passed s) as [|x l IH]; simpl; intros l1 Heq.
          - exists (t :: l1). left. rewrite Heq. split; auto. intros x [->|Hx]; auto.
          - destruct l1 as [|y l1]; simpl in Heq; inversion Heq; subst.
            + exists []. right. eexists. reflexivity.
            + destruct (IH l1 H1) as [m1 [[Hm Hin]|[m2 Hm]]].
              * exists (y :: m1). left. rewrite Hm. split; auto. intros x [->|Hx]; simpl; auto.
                destruct (Hin x Hx); auto.
              * exists []. right. exists m2. rewrite Hm. auto. }
        rewrite Hrest in inv_order0. destruct Hx as [m1 [[Hm Hin]|[m2 Hm]]].
        + destruct (inv_order0 _ _ _ Hm d Hd) as [Hx|[Hx|Hx]]; auto.
          * destruct (Hin d Hx); auto. subst. right. left. apply in_or_app. simpl. auto.
          * right. left. apply in_or_app. auto.
        + destruct (inv_order0 _ _ _ Hm d Hd) as [Hx|[Hx|Hx]]; auto.
          right. left. apply in_or_app. auto.
      - rewrite inv_fifo0, app_assoc. auto.
      - rewrite Hrun. auto.
      - destruct inv_results0 as (Hl & Hout & Hin). split; auto. split; auto.
        intros v Hv. destruct (Hin v Hv) as [[A B]|[[A B]|(A & B & C)]].
        + left. split; auto. apply in_or_app. auto.
        + right. left. split; auto. apply in_or_app. auto.
        + right. right. split; [|split; auto]; intro Hx; apply in_app_or in Hx; destruct Hx as [Hx|[Hx|[]]];
            auto; discriminate.
      - intros v Hv d Hd. apply in_app_or in Hv. destruct Hv as [Hv|[<-|[]]]; [apply inv_ready0 with v; auto|].
        apply Hpre. rewrite <- Hreads. auto.
      - intros ds' Heq. apply Hpp in Heq. intuition discriminate.
      - split; auto. destruct Hp as [->|[-> Hb]]; auto.
      - rewrite Hbusy, app_length. simpl. lia.
      - rewrite app_length. simpl. lia.
      - intros v [Hv|Hv].
        + destruct (inv_eptr_some0 v (or_introl Hv)) as [o [Ho1 Ho2]]. exists o. split; auto. apply in_or_app. auto.
        + apply Hpp in Hv. intuition discriminate.
      - intros v o Hv Ho. apply in_app_or in Hv. destruct Hv as [Hv|[Hv|[]]]; [|discriminate].
        rewrite Hthr.
        destruct (inv_eptr_none0 v o Hv Ho) as [[u [Hu|Hu]]|Hx]; [left; exists u; auto|congruence|auto].
      - destruct Hp as [->|[-> _]]; auto.
      - intros n Hnn. apply Hpp in Hnn. intuition discriminate.
      - intros Hw. exfalso. apply notify_cases in Hn. destruct Hn as [[Hs ->]|(l1 & l2 & _ & ->)].
        + destruct (workers s) as [|w l]; [congruence|]. pose proof (Hw w (or_introl eq_refl)). subst w.
          discriminate.
        + assert (WChecking = WSleeping) by (apply Hw; apply in_or_app; simpl; auto). discriminate.
      - intros Hnn. apply Hpp in Hnn. intuition discriminate.
      - intros v Hv. rewrite Hthr in Hv. destruct (inv_throwing0 v Hv) as [o [Ho1 Ho2]]. exists o. rewrite in_app_iff. auto.
      - apply notify_cases in Hn. destruct Hn as [[Hs ->]|(l1 & l2 & _ & ->)]; auto. destruct l1; discriminate. }
    destruct after as [|t' after]; simpl.
    - apply Hall; auto. rewrite app_nil_r. auto.
    - apply Hall; auto. discriminate.
  Qed.

  Lemma clear_inv : forall tr s t after ds d,
      inv tr s -> ph s = Checking (d :: ds) -> rest s = t :: after -> nth_error (results s) d = Some Failure ->
      inv (tr ++ []) (mk_state (results s) [] [] Loop (queue s) (workers s)
                               (event s) (counter s) (eptr s) (num_tasks s)).
  Proof.
    intros tr s t after ds d H Hph Hrest Hd. rewrite app_nil_r.
    assert (Hfail : exists v, In (Finish v Fails) tr).
    { destruct (inv_checking _ _ H _ Hph) as (t' & after' & pre & Hr & Hreads & _).
      rewrite Hrest in Hr. inversion Hr; subst t' after'.
      assert (Hin : In t (passed s ++ rest s)) by (apply in_or_app; right; rewrite Hrest; simpl; auto).
      apply in_split in Hin. destruct Hin as (l1 & l2 & Heq).
      destruct (inv_order _ _ H _ _ _ Heq d) as [Hx|[Hx|[_ Hx]]].
      { rewrite Hreads. apply in_or_app. simpl. auto. }
      - assert (Ht : In d tasks).
        { destruct (inv_split _ _ H) as [dropped [Hp _]].
          eapply Permutation_in; [apply Permutation_sym; exact Hp|]. rewrite app_assoc, Heq.
          apply in_or_app. left. apply in_or_app. auto. }
        destruct (inv_results _ _ H) as (_ & _ & Hres). destruct (Hres d Ht) as [[_ A]|[[A _]|(_ & _ & A)]];
          try congruence. eauto.
      - apply (nodup_submitted _ _ H) in Hx. destruct (inv_results _ _ H) as (_ & _ & Hres).
        destruct (Hres d Hx) as [[_ A]|[[A _]|(_ & _ & A)]]; try congruence. eauto.
      - unfold succeeded in Hx. congruence. }
    destruct H. constructor; simpl; auto; try discriminate.
    - destruct inv_split0 as [dropped [Hperm Hdrop]].
      exists (passed s ++ rest s ++ dropped). split; auto. rewrite <- !app_assoc. auto.
    - intros l1 v l2 Heq. destruct l1; discriminate.
    - intros v [Hv|Hv]; [auto|discriminate].
    - intros v o Hv Ho. destruct (inv_eptr_none0 v o Hv Ho) as [[u [Hu|Hu]]|Hx]; [left; exists u; auto|congruence|auto].
  Qed.

  (** ** Steps of workers *)

  Lemma split_map : forall (f : worker -> list nat) l1 w l2,
      flat_map f (l1 ++ w :: l2) = flat_map f l1 ++ f w ++ flat_map f l2.
  Proof. intros. rewrite flat_map_app. auto. Qed.

  Lemma sleep_inv : forall tr s l1 l2, inv tr s -> workers s = l1 ++ WChecking :: l2 -> queue s = [] ->
      inv (tr ++ []) (mk_state (results s) (passed s) (rest s) (ph s) []
                               (l1 ++ WSleeping :: l2) (event s) (counter s) (eptr s) (num_tasks s)).
  Proof.
    intros tr s l1 l2 H Hw Hq. rewrite app_nil_r. destruct H.
    constructor; simpl; auto; unfold running, busy, throwing in *; rewrite ?split_map in *;
      rewrite ?Hw, ?Hq, ?split_map in *; simpl in *; auto.
    destruct l1; discriminate.
  Qed.

  Lemma wake_inv : forall tr s l1 l2, inv tr s -> workers s = l1 ++ WSleeping :: l2 ->
      inv (tr ++ []) (mk_state (results s) (passed s) (rest s) (ph s) (queue s)
                               (l1 ++ WChecking :: l2) (event s) (counter s) (eptr s) (num_tasks s)).
  Proof.
    intros tr s l1 l2 H Hw. rewrite app_nil_r. destruct H.
    constructor; simpl; auto; unfold running, busy, throwing in *; rewrite ?split_map in *;
      rewrite ?Hw, ?split_map in *; simpl in *; auto.
    - intros Hall. assert (WChecking = WSleeping) by (apply Hall; apply in_or_app; simpl; auto). discriminate.
    - destruct l1; discriminate.
  Qed.

  Lemma start_inv : forall tr s v q l1 l2, inv tr s -> workers s = l1 ++ WChecking :: l2 -> queue s = v :: q ->
      inv (tr ++ [Start v]) (mk_state (results s) (passed s) (rest s) (ph s) q
                               (l1 ++ WRunning v :: l2) (event s) (counter s) (eptr s) (num_tasks s)).
  Proof.
    intros tr s v q l1 l2 H Hw Hq. destruct H.
    assert (Hx : forall u o, In (Finish u o) (tr ++ [Start v]) <-> In (Finish u o) tr).
    { intros u o. rewrite in_app_iff. simpl. intuition discriminate. }
    constructor; simpl; auto; rewrite ?submitted_app, ?started_app, ?finished_app; simpl; rewrite ?app_nil_r; auto;
      unfold running, busy, throwing in *; rewrite ?split_map in *;
      rewrite ?Hw, ?Hq, ?split_map in *; simpl in *; auto.
    - destruct inv_split0 as [dropped [Hperm Hdrop]]. exists dropped. split; auto.
      intros Hne. destruct (Hdrop Hne) as (A & B & u & Hu). split; auto. split; auto. exists u. apply Hx. auto.
    - rewrite inv_fifo0, <- app_assoc. auto.
    - rewrite inv_running0, <- Permutation_cons_append, <- Permutation_middle. auto.
    - destruct inv_results0 as (A & B & C). split; auto. split; auto. intros u Hu. rewrite !Hx. auto.
    - rewrite !app_length in *. simpl in *. lia.
    - intros u Hu. destruct (inv_eptr_some0 u Hu) as [o [Ho1 Ho2]]. exists o. rewrite Hx. auto.
    - intros u o Hu Ho. apply Hx in Hu. eauto.
    - destruct (ph s); auto; destruct inv_end0; discriminate.
    - intros Hall. assert (WRunning v = WSleeping) by (apply Hall; apply in_or_app; simpl; auto). discriminate.
    - intros u Hu. destruct (inv_throwing0 u Hu) as [o [Ho1 Ho2]]. exists o. rewrite in_app_iff. auto.
    - destruct l1; discriminate.
  Qed.

  Lemma run_facts : forall tr s v l1 l2, inv tr s -> workers s = l1 ++ WRunning v :: l2 ->
      In v tasks /\ v < length (results s) /\ (forall o, ~ In (Finish v o) tr) /\
      nth_error (results s) v = Some Pending.
  Proof.
    intros tr s v l1 l2 H Hw.
    assert (Hrun : In v (running (workers s))).
    { rewrite Hw. unfold running. rewrite split_map. apply in_or_app. right. simpl. auto. }
    assert (Hnf : forall o, ~ In (Finish v o) tr).
    { intros o Ho. eapply (nodup_app_not _ _ _ v (nodup_finished _ _ H)); auto. apply finished_in. eauto. }
    assert (Ht : In v tasks).
    { apply (nodup_submitted _ _ H). eapply running_submitted; eauto. apply in_or_app. auto. }
    destruct (inv_results _ _ H) as (_ & _ & Hres).
    destruct (Hres v Ht) as [[A B]|[[A B]|(A & B & C)]]; [exfalso; eapply Hnf; eauto|exfalso; eapply Hnf; eauto|].
    split; auto. split; auto. apply nth_error_Some. congruence.
  Qed.

  Lemma no_end_busy : forall tr s l1 w l2 v, inv tr s -> workers s = l1 ++ w :: l2 -> In v (busy_of w) ->
      match ph s with Taking | Returned _ | Threw _ => False | _ => True end.
  Proof.
    intros tr s l1 w l2 v H Hw Hv. pose proof (inv_end _ _ H) as He.
    assert (Hb : In v (busy (workers s))).
    { rewrite Hw. unfold busy. rewrite split_map. apply in_or_app. right. apply in_or_app. auto. }
    destruct (ph s); auto; destruct He as [_ He]; rewrite He in Hb; destruct Hb.
  Qed.

  Lemma succ_inv : forall tr s v l1 l2, inv tr s -> workers s = l1 ++ WRunning v :: l2 ->
      inv (tr ++ [Finish v Succeeds])
          (mk_state (update v Success (results s)) (passed s) (rest s) (ph s) (queue s)
                    (l1 ++ WLeaving v :: l2) (event s) (counter s) (eptr s) (num_tasks s)).
  Proof.
    intros tr s v l1 l2 H Hw. destruct (run_facts _ _ _ _ _ H Hw) as (Ht & Hlt & Hnf & Hpend).
    pose proof (no_end_busy _ _ _ _ _ v H Hw (or_introl eq_refl)) as Hne.
    assert (Hmono : forall d, succeeded s d -> nth_error (update v Success (results s)) d = Some Success).
    { intros d Hd. destruct (Nat.eq_dec v d) as [<-|Hvd]; [apply nth_update_same; auto|].
      rewrite nth_update_other; auto. }
    destruct H.
    constructor; simpl; auto; rewrite ?submitted_app, ?started_app, ?finished_app; simpl; rewrite ?app_nil_r; auto;
      unfold running, busy, throwing in *; rewrite ?split_map in *;
      rewrite ?Hw, ?split_map in *; simpl in *; auto.
    - destruct inv_split0 as [dropped [Hperm Hdrop]]. exists dropped. split; auto.
      intros Hd. destruct (Hdrop Hd) as (A & B & u & Hu). split; auto. split; auto. exists u. apply in_or_app. auto.
    - intros l3 u l4 Heq d Hd. destruct (inv_order0 _ _ _ Heq d Hd) as [A|[A|[A B]]]; auto. right. right.
      split; auto. unfold succeeded. simpl. auto.
    - rewrite inv_running0. rewrite <- !app_assoc. apply Permutation_app_head. simpl.
      rewrite Permutation_cons_append. rewrite <- app_assoc. auto.
    - destruct inv_results0 as (A & B & C). rewrite update_length. split; auto. split.
      + intros u Hu. rewrite nth_update_other; auto. intro; subst; auto.
      + intros u Hu. destruct (Nat.eq_dec v u) as [<-|Hvu].
        * left. split; [apply in_or_app; simpl; auto|apply nth_update_same; auto].
        * rewrite nth_update_other; auto. rewrite !in_app_iff. simpl.
          destruct (C u Hu) as [[C1 C2]|[[C1 C2]|(C1 & C2 & C3)]]; auto.
          right. right. intuition congruence.
    - intros u Hu d Hd. unfold succeeded. simpl. apply Hmono. eapply inv_ready0; eauto.
    - intros ds Hds. destruct (inv_checking0 ds Hds) as (t & after & pre & A & B & C). exists t, after, pre.
      split; auto. split; auto. intros d Hd. unfold succeeded. simpl. apply Hmono. apply C. auto.
    - intros u Hu. destruct (inv_eptr_some0 u Hu) as [o [Ho1 Ho2]]. exists o. rewrite in_app_iff. auto.
    - intros u o Hu Ho. apply in_app_or in Hu. destruct Hu as [Hu|[Hu|[]]]; [|inversion Hu; subst; congruence].
      eauto.
    - intros Hall. assert (WLeaving v = WSleeping) by (apply Hall; apply in_or_app; simpl; auto). discriminate.
    - intros u Hu. destruct (inv_throwing0 u Hu) as [o [Ho1 Ho2]]. exists o. rewrite in_app_iff. auto.
    - destruct l1; discriminate.
  Qed.

  (** A task that ends with an exception; [r] is what it leaves as result. *)
  Lemma exn_inv : forall tr s v l1 l2 o r, inv tr s -> workers s = l1 ++ WRunning v :: l2 ->
      (o = Fails /\ r = Failure) \/ (o = Throws /\ r = Pending) ->
      inv (tr ++ [Finish v o])
          (mk_state (update v r (results s)) (passed s) (rest s) (ph s) (queue s)
                    (l1 ++ WThrowing v :: l2) (event s) (counter s) (eptr s) (num_tasks s)).
  Proof.
    intros tr s v l1 l2 o r H Hw Hor. destruct (run_facts _ _ _ _ _ H Hw) as (Ht & Hlt & Hnf & Hpend).
    pose proof (no_end_busy _ _ _ _ _ v H Hw (or_introl eq_refl)) as Hne.
    assert (Hmono : forall d, succeeded s d -> nth_error (update v r (results s)) d = Some Success).
    { intros d Hd. unfold succeeded in Hd. rewrite nth_update_other; auto. intro; subst. congruence. }
    destruct H.
    constructor; simpl; auto; rewrite ?submitted_app, ?started_app, ?finished_app; simpl; rewrite ?app_nil_r; auto;
      unfold running, busy, throwing in *; rewrite ?split_map in *;
      rewrite ?Hw, ?split_map in *; simpl in *; auto.
    - destruct inv_split0 as [dropped [Hperm Hdrop]]. exists dropped. split; auto.
      intros Hd. destruct (Hdrop Hd) as (A & B & u & Hu). split; auto. split; auto. exists u. apply in_or_app. auto.
    - intros l3 u l4 Heq d Hd. destruct (inv_order0 _ _ _ Heq d Hd) as [A|[A|[A B]]]; auto. right. right.
      split; auto. unfold succeeded. simpl. auto.
    - rewrite inv_running0. rewrite <- !app_assoc. apply Permutation_app_head. simpl.
      rewrite Permutation_cons_append. rewrite <- app_assoc. auto.
    - destruct inv_results0 as (A & B & C). rewrite update_length. split; auto. split.
      + intros u Hu. rewrite nth_update_other; auto. intro; subst; auto.
      + intros u Hu. destruct (Nat.eq_dec v u) as [<-|Hvu].
        * rewrite nth_update_same by auto. rewrite !in_app_iff. simpl.
          destruct Hor as [[-> ->]|[-> ->]].
          -- right. left. auto.
          -- right. right. split; [|split; auto]; intros [Hx|[Hx|[]]]; try discriminate; eapply Hnf; eauto.
        * rewrite nth_update_other; auto. rewrite !in_app_iff. simpl.
          destruct (C u Hu) as [[C1 C2]|[[C1 C2]|(C1 & C2 & C3)]]; auto.
          right. right. intuition congruence.
    - intros u Hu d Hd. unfold succeeded. simpl. apply Hmono. eapply inv_ready0; eauto.
    - intros ds Hds. destruct (inv_checking0 ds Hds) as (t & after & pre & A & B & C). exists t, after, pre.
      split; auto. split; auto. intros d Hd. unfold succeeded. simpl. apply Hmono. apply C. auto.
    - intros u Hu. destruct (inv_eptr_some0 u Hu) as [o' [Ho1 Ho2]]. exists o'. rewrite in_app_iff. auto.
    - intros u o' Hu Ho. apply in_app_or in Hu. destruct Hu as [Hu|[Hu|[]]].
      + destruct (inv_eptr_none0 u o' Hu Ho) as [Hx|Hx]; auto. right.
        rewrite !in_app_iff in *. simpl. tauto.
      + inversion Hu; subst. right. rewrite !in_app_iff. simpl. auto.
    - intros Hall. assert (WThrowing v = WSleeping) by (apply Hall; apply in_or_app; simpl; auto). discriminate.
    - intros u Hu. rewrite !in_app_iff in Hu. simpl in Hu. destruct Hu as [Hu|[Hu|Hu]].
      + destruct (inv_throwing0 u) as [o' [Ho1 Ho2]]; [rewrite in_app_iff; auto|]. exists o'. rewrite in_app_iff. auto.
      + subst u. exists o. rewrite in_app_iff. simpl. intuition congruence.
      + destruct (inv_throwing0 u) as [o' [Ho1 Ho2]]; [rewrite in_app_iff; auto|]. exists o'. rewrite in_app_iff. auto.
    - destruct l1; discriminate.
  Qed.

  Lemma store_inv : forall tr s v l1 l2, inv tr s -> workers s = l1 ++ WThrowing v :: l2 ->
      inv (tr ++ []) (mk_state (results s) (passed s) (rest s) (ph s) (queue s)
                         (l1 ++ WLeaving v :: l2) (event s) (counter s)
                         (match eptr s with None => Some v | Some u => Some u end) (num_tasks s)).
  Proof.
    intros tr s v l1 l2 H Hw. rewrite app_nil_r.
    pose proof (no_end_busy _ _ _ _ _ v H Hw (or_introl eq_refl)) as Hne.
    assert (Hv : exists o, In (Finish v o) tr /\ o <> Succeeds).
    { apply (inv_throwing _ _ H). rewrite Hw. unfold throwing. rewrite split_map, in_app_iff. simpl. auto. }
    destruct H.
    constructor; simpl; auto; unfold running, busy, throwing in *; rewrite ?split_map in *;
      rewrite ?Hw, ?split_map in *; simpl in *; auto.
    - intros u Hu. destruct (eptr s) eqn:E; [apply inv_eptr_some0; auto|].
      destruct Hu as [Hu|Hu]; [|apply inv_eptr_some0; auto]. inversion Hu; subst. auto.
    - intros u o Hu Ho. left. destruct (eptr s) eqn:E; eauto.
    - intros n Hn. rewrite Hn in Hne. tauto.
    - intros Hall. assert (WLeaving v = WSleeping) by (apply Hall; apply in_or_app; simpl; auto). discriminate.
    - intros u Hu. apply inv_throwing0. rewrite in_app_iff in *. simpl. tauto.
    - destruct l1; discriminate.
  Qed.

  Lemma set_inv : forall tr s v l1 l2, inv tr s -> workers s = l1 ++ WLeaving v :: l2 ->
      inv (tr ++ []) (mk_state (results s) (passed s) (rest s) (wake_event (ph s)) (queue s)
                         (l1 ++ WUnlocking v :: l2) true (counter s) (eptr s) (num_tasks s)).
  Proof.
    intros tr s v l1 l2 H Hw. rewrite app_nil_r.
    pose proof (no_end_busy _ _ _ _ _ v H Hw (or_introl eq_refl)) as Hne.
    destruct H.
    constructor; simpl; auto; unfold running, busy, throwing in *; rewrite ?split_map in *;
      rewrite ?Hw, ?split_map in *; simpl in *; auto.
    - intros ds Hds. apply inv_checking0. destruct (ph s); simpl in Hds; congruence.
    - destruct (ph s); simpl in *; auto.
    - intros u Hu. apply inv_eptr_some0. destruct Hu as [Hu|Hu]; auto. right. destruct (ph s); simpl in Hu; congruence.
    - intros u o Hu Ho. destruct (inv_eptr_none0 u o Hu Ho) as [[x [Hx|Hx]]|Hx]; eauto.
      rewrite Hx. simpl. eauto.
    - destruct (ph s); simpl; auto; tauto.
    - intros n Hn. apply inv_returned0. destruct (ph s); simpl in Hn; congruence.
    - intros Hall. assert (WUnlocking v = WSleeping) by (apply Hall; apply in_or_app; simpl; auto). discriminate.
    - intros Hn. destruct (ph s); simpl in Hn; congruence.
    - intros Hn. apply inv_counter_sleep0. destruct (ph s); simpl in Hn; congruence.
    - destruct l1; discriminate.
  Qed.

  Lemma unlock_inv : forall tr s v l1 l2, inv tr s -> workers s = l1 ++ WUnlocking v :: l2 ->
      inv (tr ++ []) (mk_state (results s) (passed s) (rest s) (wake_counter (ph s)) (queue s)
                         (l1 ++ WChecking :: l2) (event s) (pred (counter s)) (eptr s) (num_tasks s)).
  Proof.
    intros tr s v l1 l2 H Hw. rewrite app_nil_r.
    pose proof (no_end_busy _ _ _ _ _ v H Hw (or_introl eq_refl)) as Hne.
    destruct H.
    constructor; simpl; auto; unfold running, busy, throwing in *; rewrite ?split_map in *;
      rewrite ?Hw, ?split_map in *; simpl in *; auto.
    - intros ds Hds. apply inv_checking0. destruct (ph s); simpl in Hds; congruence.
    - destruct (ph s); simpl in *; auto.
    - rewrite !app_length in *. simpl in *. lia.
    - intros u Hu. apply inv_eptr_some0. destruct Hu as [Hu|Hu]; auto. right. destruct (ph s); simpl in Hu; congruence.
    - intros u o Hu Ho. destruct (inv_eptr_none0 u o Hu Ho) as [[x [Hx|Hx]]|Hx]; eauto.
      rewrite Hx. simpl. eauto.
    - destruct (ph s); simpl; auto; tauto.
    - intros n Hn. apply inv_returned0. destruct (ph s); simpl in Hn; congruence.
    - intros Hall. assert (WChecking = WSleeping) by (apply Hall; apply in_or_app; simpl; auto). discriminate.
    - intros Hn. apply inv_event_sleep0. destruct (ph s); simpl in Hn; congruence.
    - intros Hn. destruct (ph s); simpl in Hn; congruence.
    - destruct l1; discriminate.
  Qed.

  Lemma take_inv : forall tr s v, inv tr s -> ph s = Taking -> eptr s = Some v ->
      inv (tr ++ []) (mk_state (results s) (passed s) (rest s) (Threw v) (queue s)
                               (workers s) (event s) (counter s) None (num_tasks s)).
  Proof.
    intros tr s v H Hph He. rewrite app_nil_r. destruct H. rewrite Hph in *.
    constructor; simpl; auto; try discriminate.
    - intros u [Hu|Hu]; [discriminate|]. inversion Hu; subst. auto.
    - intros u o Hu Ho. left. exists v. auto.
  Qed.

  Lemma reset_inv : forall tr s, inv tr s -> ph s = EventWait ->
      inv (tr ++ []) (mk_state (results s) (passed s) (rest s) Loop (queue s) (workers s)
                                false (counter s) (eptr s) (num_tasks s)).
  Proof.
    intros tr s H Hph. rewrite app_nil_r. destruct H. rewrite Hph in *.
    constructor; simpl; auto; try discriminate.
    - tauto.
    - intros u [Hu|Hu]; [auto|discriminate].
    - intros u o Hu Ho. destruct (inv_eptr_none0 u o Hu Ho) as [[x [Hx|Hx]]|Hx]; eauto. discriminate.
  Qed.

  Lemma known_result : forall tr s t after ds d, inv tr s -> rest s = t :: after -> In d (reads t) ->
      ph s = Checking ds -> exists r, nth_error (results s) d = Some r.
  Proof.
    intros tr s t after ds d H Hrest Hd Hph.
    assert (Hin : In t (passed s ++ rest s)) by (apply in_or_app; right; rewrite Hrest; simpl; auto).
    apply in_split in Hin. destruct Hin as (l1 & l2 & Heq).
    assert (Htask : forall x, In x tasks -> exists r, nth_error (results s) x = Some r).
    { intros x Hx. destruct (inv_results _ _ H) as (_ & _ & Hres).
      destruct (Hres x Hx) as [[_ A]|[[_ A]|(_ & _ & A)]]; eauto. }
    destruct (inv_order _ _ H _ _ _ Heq d Hd) as [Hx|[Hx|[_ Hx]]].
    - apply Htask. destruct (inv_split _ _ H) as [dropped [Hp _]].
      eapply Permutation_in; [apply Permutation_sym; exact Hp|]. rewrite app_assoc, Heq.
      apply in_or_app. left. apply in_or_app. auto.
    - apply Htask. apply (nodup_submitted _ _ H). auto.
    - unfold succeeded in Hx. eauto.
  Qed.

  Ltac phase_goals := intros; try discriminate; auto; try congruence.

  Lemma step_inv : forall c tr s l s', inv tr s -> step reads c s = Some (l, s') -> inv (tr ++ l) s'.
  Proof.
    intros c tr s l s' H Hstep. destruct c as [k|i o| |i]; simpl in Hstep.
    - unfold process_step in Hstep. pose proof (inv_position _ _ H) as [Hpos1 Hpos2].
      destruct (ph s) as [|ds| | | | | | | |] eqn:Hph; try discriminate.
      + (* Loop *)
        destruct (rest s) as [|t after] eqn:Hrest.
        * rewrite (Hpos1 eq_refl) in Hstep. inversion Hstep; subst.
          apply phase_inv; phase_goals.
        * assert (Hs : Some ([], set_phase (Checking (reads t)) s) = Some (l, s')) by
              (destruct (passed s); auto).
          inversion Hs; subst. apply phase_inv; phase_goals.
          inversion H0; subst. exists t, after, []. split; auto. split; auto. simpl. tauto.
      + (* Checking *)
        destruct (inv_checking _ _ H ds Hph) as (t & after & pre & Hrest & Hreads & Hpre).
        rewrite Hrest in Hstep. destruct ds as [|d ds].
        * destruct (notify_pool k (workers s)) as [ws'|] eqn:Hn; try discriminate.
          pose proof (submit_inv tr s t after ws' k H Hph Hrest Hn) as Hx.
          destruct (wrap_iterator (passed s) after) as [[b a] p]. inversion Hstep; subst. exact Hx.
        * assert (Hdt : In d (reads t)) by (rewrite Hreads; apply in_or_app; simpl; auto).
          destruct (known_result tr s t after _ d H Hrest Hdt Hph) as [r Hr].
          rewrite Hr in Hstep. destruct r.
          -- pose proof (skip_inv tr s t after _ d H Hph Hrest (or_introl eq_refl)) as Hx.
             destruct (wrap_iterator (passed s ++ [t]) after) as [[b a] p]. inversion Hstep; subst. exact Hx.
          -- inversion Hstep; subst. apply phase_inv; phase_goals.
             inversion H0; subst. exists t, after, (pre ++ [d]). split; auto. split.
             ++ rewrite <- app_assoc. auto.
             ++ intros x Hx. apply in_app_or in Hx. destruct Hx as [Hx|[<-|[]]]; auto.
          -- inversion Hstep; subst. eapply clear_inv; eauto.
      + (* EventWait *)
        destruct (event s) eqn:He; inversion Hstep; subst.
        * apply reset_inv; auto.
        * apply phase_inv; phase_goals.
      + (* CounterWait *)
        pose proof (inv_counter _ _ H) as Hc.
        destruct (counter s =? 0) eqn:He; inversion Hstep; subst.
        * apply Nat.eqb_eq in He. apply phase_inv; phase_goals. rewrite He in Hc.
          split; apply length_zero_iff_nil; lia.
        * apply Nat.eqb_neq in He. apply phase_inv; phase_goals.
      + (* Taking *)
        pose proof (inv_end _ _ H) as He. rewrite Hph in He.
        destruct (eptr s) as [v|] eqn:Hep; inversion Hstep; subst.
        * apply take_inv; auto.
        * apply phase_inv; phase_goals. inversion H0. auto.
    - unfold worker_step in Hstep. destruct (nth_error (workers s) i) as [w|] eqn:Hw; try discriminate.
      destruct w as [| |v|v|v|v]; try discriminate.
      + destruct (queue s) as [|v q] eqn:Hq; inversion Hstep; subst.
        * destruct (update_split _ i WChecking WSleeping _ Hw) as (l1 & l2 & E1 & E2 & _). rewrite E2.
          apply sleep_inv; auto.
        * destruct (update_split _ i WChecking (WRunning v) _ Hw) as (l1 & l2 & E1 & E2 & _). rewrite E2.
          apply start_inv; auto.
      + destruct o; inversion Hstep; subst.
        * destruct (update_split _ i _ (WLeaving v) _ Hw) as (l1 & l2 & E1 & E2 & _). rewrite E2.
          apply succ_inv; auto.
        * destruct (update_split _ i _ (WThrowing v) _ Hw) as (l1 & l2 & E1 & E2 & _). rewrite E2.
          apply exn_inv; auto.
        * destruct (update_split _ i _ (WThrowing v) _ Hw) as (l1 & l2 & E1 & E2 & _). rewrite E2.
          assert (Hsame : update v Pending (results s) = results s).
          { destruct (run_facts _ _ _ _ _ H E1) as (_ & _ & _ & Hp).
            destruct (update_split _ v _ Pending _ Hp) as (m1 & m2 & -> & F & _). auto. }
          rewrite <- Hsame at 1. apply exn_inv; auto.
      + inversion Hstep; subst. destruct (update_split _ i _ (WLeaving v) _ Hw) as (l1 & l2 & E1 & E2 & _).
        rewrite E2. apply store_inv; auto.
      + inversion Hstep; subst. destruct (update_split _ i _ (WUnlocking v) _ Hw) as (l1 & l2 & E1 & E2 & _).
        rewrite E2. apply set_inv; auto.
      + inversion Hstep; subst. destruct (update_split _ i _ WChecking _ Hw) as (l1 & l2 & E1 & E2 & _).
        rewrite E2. apply unlock_inv with v; auto.
    - unfold spurious_process in Hstep. pose proof (inv_position _ _ H) as [Hpos1 Hpos2].
      destruct (ph s) eqn:Hph; inversion Hstep; subst; apply phase_inv; phase_goals.
    - unfold spurious_worker in Hstep. destruct (nth_error (workers s) i) as [w|] eqn:Hw; try discriminate.
      destruct w; try discriminate. inversion Hstep; subst.
      destruct (update_split _ i _ WChecking _ Hw) as (l1 & l2 & E1 & E2 & _). rewrite E2. apply wake_inv; auto.
  Qed.

  Theorem exec_inv : forall tr s, exec reads (init rs tasks ws) tr s -> inv tr s.
  Proof. intros tr s H. induction H; [apply init_inv|]. eapply step_inv; eauto. Qed.

  (** ** What follows for executions *)

  Lemma started_tasks : forall tr s, exec reads (init rs tasks ws) tr s ->
      NoDup (started tr) /\ forall v, In v (started tr) -> In v tasks.
  Proof.
    intros tr s H. apply exec_inv in H. destruct (nodup_submitted _ _ H) as [Hn Hin].
    rewrite (inv_fifo _ _ H) in *. split; [eapply NoDup_app_l; eauto|]. intros v Hv. apply Hin. apply in_or_app. auto.
  Qed.

  Lemma exec_prefix : forall tr s, exec reads (init rs tasks ws) tr s ->
      forall tr1 l tr2, tr = tr1 ++ l :: tr2 ->
      exists s1 c s2, exec reads (init rs tasks ws) tr1 s1 /\ step reads c s1 = Some ([l], s2).
  Proof.
    intros tr s H. induction H as [|tr s c ls s' Hex IH Hstep]; intros tr1 l tr2 Heq.
    - destruct tr1; discriminate.
    - assert (Hls : ls = [] \/ exists x, ls = [x]).
      { destruct c as [k|i o| |i]; simpl in Hstep.
        - unfold process_step in Hstep.
          repeat match type of Hstep with
                 | context [match ?x with _ => _ end] => destruct x
                 end; inversion Hstep; eauto.
        - unfold worker_step in Hstep.
          repeat match type of Hstep with
                 | context [match ?x with _ => _ end] => destruct x
                 end; inversion Hstep; eauto.
        - unfold spurious_process in Hstep. destruct (ph s); inversion Hstep; auto.
        - unfold spurious_worker in Hstep. destruct (nth_error (workers s) i) as [[]|]; inversion Hstep; auto. }
      destruct Hls as [->|[x ->]].
      + rewrite app_nil_r in Heq. eauto.
      + destruct tr2 as [|y tr2] using rev_ind.
        * apply app_inj_tail in Heq. destruct Heq as [-> ->]. eauto.
        * rewrite app_comm_cons, app_assoc in Heq. apply app_inj_tail in Heq. destruct Heq as [Heq _].
          eapply IH; eauto.
  Qed.

  Theorem started_ready : forall tr s, exec reads (init rs tasks ws) tr s ->
      forall tr1 v tr2, tr = tr1 ++ Start v :: tr2 -> forall d, In d (reads v) -> In d tasks ->
      In (Finish d Succeeds) tr1.
  Proof.
    intros tr s H tr1 v tr2 Heq d Hd Ht.
    destruct (exec_prefix _ _ H _ _ _ Heq) as (s1 & c & s2 & Hex & Hstep).
    pose proof (exec_inv _ _ Hex) as H1. pose proof (step_inv _ _ _ _ _ H1 Hstep) as H2.
    assert (Hsub : In v (submitted tr1)).
    { assert (Hv : In v (submitted (tr1 ++ [Start v]))).
      { rewrite (inv_fifo _ _ H2). apply in_or_app. left. rewrite started_app. apply in_or_app. simpl. auto. }
      rewrite submitted_app in Hv. simpl in Hv. rewrite app_nil_r in Hv. auto. }
    pose proof (inv_ready _ _ H1 v Hsub d Hd) as Hs. unfold succeeded in Hs.
    destruct (inv_results _ _ H1) as (_ & _ & Hres).
    destruct (Hres d Ht) as [[A _]|[[_ A]|(_ & _ & A)]]; auto; congruence.
  Qed.
End Safety.

(** * The end of an execution *)

Section End.
  Variable reads : nat -> list nat.
  Variable rs : list task_result.
  Variable tasks : list nat.
  Variable ws : list worker.
  Hypothesis Hsetup : task_setup reads rs tasks.
  Hypothesis Hpool : idle_pool ws.

  Lemma nil_map : forall (f g : worker -> list nat) l,
      (forall w, g w = [] -> f w = []) -> flat_map g l = [] -> flat_map f l = [].
  Proof.
    intros f g l H. induction l; simpl; auto. intro E. apply app_eq_nil in E. destruct E as [E1 E2].
    rewrite H; auto.
  Qed.

  Lemma idle_workers : forall l, busy l = [] -> forall w, In w l -> w = WChecking \/ w = WSleeping.
  Proof.
    induction l; simpl; intros E w Hw; [tauto|]. apply app_eq_nil in E. destruct E as [E1 E2].
    destruct Hw as [<-|Hw]; auto. destruct a; try discriminate; auto.
  Qed.

  Theorem final_locals : forall tr s, exec reads (init rs tasks ws) tr s -> final (ph s) -> locals_unused s.
  Proof.
    intros tr s H Hf. apply (exec_inv reads rs tasks ws Hsetup Hpool) in H.
    pose proof (inv_end _ _ _ _ _ H) as He. destruct (ph s); simpl in Hf; try tauto; destruct He as [H1 H2];
      (split; [auto|apply idle_workers; auto]).
  Qed.

  Theorem final_finished : forall tr s, exec reads (init rs tasks ws) tr s -> final (ph s) ->
      Permutation (started tr) (finished tr) /\ submitted tr = started tr.
  Proof.
    intros tr s H Hf. apply (exec_inv reads rs tasks ws Hsetup Hpool) in H.
    pose proof (inv_end _ _ _ _ _ H) as He. pose proof (inv_running _ _ _ _ _ H) as Hr.
    pose proof (inv_fifo _ _ _ _ _ H) as Hq.
    assert (E : queue s = [] /\ busy (workers s) = []) by (destruct (ph s); simpl in Hf; tauto).
    destruct E as [E1 E2]. rewrite E1, app_nil_r in Hq. split; auto.
    assert (E3 : running (workers s) = []).
    { eapply nil_map; [|exact E2]. intros w Hw. destruct w; simpl in *; auto; discriminate. }
    rewrite E3 in Hr. auto.
  Qed.

  Theorem returned_all : forall tr s n, exec reads (init rs tasks ws) tr s -> ph s = Returned n ->
      n = length tasks /\ Permutation tasks (started tr) /\ forall v, In v tasks -> In (Finish v Succeeds) tr.
  Proof.
    intros tr s n Hex Hph. pose proof (final_finished _ _ Hex) as Hf. rewrite Hph in Hf. simpl in Hf.
    destruct (Hf I) as [Hperm Hsub].
    pose proof (exec_inv reads rs tasks ws Hsetup Hpool _ _ Hex) as H.
    pose proof (inv_end _ _ _ _ _ H) as He. rewrite Hph in He. destruct He as [Hq Hb].
    destruct (inv_returned _ _ _ _ _ H n Hph) as [Hn Hep].
    assert (Hall : forall v o, In (Finish v o) tr -> o = Succeeds).
    { intros v o Hv. destruct o; auto; exfalso;
        (destruct (inv_eptr_none _ _ _ _ _ H _ _ Hv) as [[u [Hu|Hu]]|Hx]; try congruence;
         assert (E3 : throwing (workers s) = [])
           by (eapply nil_map; [|exact Hb]; intros w Hw; destruct w; simpl in *; auto; discriminate);
         rewrite E3 in Hx; destruct Hx). }
    destruct (inv_split _ _ _ _ _ H) as [dropped [Hp Hd]].
    pose proof (inv_position _ _ _ _ _ H) as [_ Hpos]. rewrite Hph in Hpos. destruct Hpos as [Hpa Hre].
    assert (dropped = []).
    { destruct dropped as [|x l]; auto. destruct Hd as (_ & _ & v & Hv); [discriminate|].
      apply Hall in Hv. discriminate. }
    subst dropped. rewrite Hpa, Hre in Hp. simpl in Hp. rewrite Hsub in Hp.
    split; [|split; auto].
    - rewrite Hn, (inv_num _ _ _ _ _ H), Hsub. symmetry. apply Permutation_length. auto.
    - intros v Hv. assert (Hin : In v (finished tr)).
      { eapply Permutation_in; [exact Hperm|]. eapply Permutation_in; eauto. }
      apply finished_in in Hin. destruct Hin as [o Ho]. rewrite <- (Hall v o Ho). auto.
  Qed.

  Theorem threw_failed : forall tr s v, exec reads (init rs tasks ws) tr s -> ph s = Threw v ->
      In v tasks /\ (In (Finish v Fails) tr \/ In (Finish v Throws) tr).
  Proof.
    intros tr s v Hex Hph. pose proof (exec_inv reads rs tasks ws Hsetup Hpool _ _ Hex) as H.
    destruct (inv_eptr_some _ _ _ _ _ H v (or_intror Hph)) as [o [Ho Hne]].
    split; [|destruct o; auto; congruence].
    eapply started_tasks; eauto. eapply Permutation_in.
    - apply Permutation_sym. apply (inv_running _ _ _ _ _ H).
    - apply in_or_app. right. apply finished_in. eauto.
  Qed.

  Theorem failure_reported : forall tr s v o, exec reads (init rs tasks ws) tr s -> final (ph s) ->
      In (Finish v o) tr -> o <> Succeeds -> exists u, ph s = Threw u.
  Proof.
    intros tr s v o Hex Hf Hin Ho. destruct (ph s) eqn:Hph; simpl in Hf; try tauto; eauto.
    exfalso. pose proof (exec_inv reads rs tasks ws Hsetup Hpool _ _ Hex) as H.
    destruct (returned_all _ _ _ Hex Hph) as (_ & Hp & Hall).
    assert (Ht : In v tasks).
    { eapply Permutation_in; [apply Permutation_sym; exact Hp|].
      eapply Permutation_in; [apply Permutation_sym, (inv_running _ _ _ _ _ H)|].
      apply in_or_app. right. apply finished_in. eauto. }
    destruct (inv_returned _ _ _ _ _ H _ Hph) as [_ Hep].
    pose proof (inv_end _ _ _ _ _ H) as He. rewrite Hph in He. destruct He as [_ Hb].
    destruct (inv_eptr_none _ _ _ _ _ H _ _ Hin Ho) as [[u [Hu|Hu]]|Hx]; try congruence.
    assert (E3 : throwing (workers s) = [])
      by (eapply nil_map; [|exact Hb]; intros w Hw; destruct w; simpl in *; auto; discriminate).
    rewrite E3 in Hx. destruct Hx.
  Qed.

  Theorem finish_once : forall tr s, exec reads (init rs tasks ws) tr s -> NoDup (finished tr).
  Proof.
    intros tr s Hex. pose proof (exec_inv reads rs tasks ws Hsetup Hpool _ _ Hex) as H.
    pose proof (nodup_finished reads rs tasks Hsetup _ _ H) as Hn.
    clear - Hn. induction (running (workers s)); auto. inversion Hn; auto.
  Qed.

  Lemma finish_unique : forall tr v o o', NoDup (finished tr) -> In (Finish v o) tr -> In (Finish v o') tr -> o = o'.
  Proof.
    induction tr as [|l tr IH]; simpl; intros v o o' Hn H H'; [tauto|].
    destruct l as [u|u|u x]; simpl in Hn.
    - destruct H as [H|H]; [discriminate|]. destruct H' as [H'|H']; [discriminate|]. eauto.
    - destruct H as [H|H]; [discriminate|]. destruct H' as [H'|H']; [discriminate|]. eauto.
    - inversion Hn; subst. destruct H as [H|H]; destruct H' as [H'|H']; eauto.
      + congruence.
      + inversion H; subst. exfalso. apply H2. apply finished_in. eauto.
      + inversion H'; subst. exfalso. apply H2. apply finished_in. eauto.
  Qed.

  (** Tasks that directly or indirectly wait for one that did not succeed are
      never started. *)
  Theorem dependents_not_started : forall tr s, exec reads (init rs tasks ws) tr s ->
      forall d o, In (Finish d o) tr -> o <> Succeeds ->
      forall v, waits_for reads tasks v d -> ~ In (Start v) tr.
  Proof.
    intros tr s Hex d o Hd Ho v Hw.
    pose proof (exec_inv reads rs tasks ws Hsetup Hpool _ _ Hex) as H.
    assert (Hdt : In d tasks).
    { eapply started_tasks; eauto. eapply Permutation_in; [apply Permutation_sym, (inv_running _ _ _ _ _ H)|].
      apply in_or_app. right. apply finished_in. eauto. }
    assert (Hno : forall v, In d (reads v) -> ~ In (Start v) tr).
    { intros u Hu Hst. apply in_split in Hst. destruct Hst as (t1 & t2 & Heq).
      pose proof (started_ready reads rs tasks ws Hsetup Hpool _ _ Hex _ _ _ Heq d Hu Hdt) as Hs.
      apply Ho. eapply finish_unique; [eapply finish_once; eauto|exact Hd|]. rewrite Heq. apply in_or_app. auto. }
    induction Hw as [v d Hin|v u d Hin Hut Hw IH]; auto.
    intro Hst. specialize (IH Hd Hdt Hno). apply in_split in Hst. destruct Hst as (t1 & t2 & Heq).
    pose proof (started_ready reads rs tasks ws Hsetup Hpool _ _ Hex _ _ _ Heq u Hin Hut) as Hs.
    apply IH. apply started_in. eapply Permutation_in; [apply Permutation_sym, (inv_running _ _ _ _ _ H)|].
    apply in_or_app. right. apply finished_in. exists Succeeds. rewrite Heq. apply in_or_app. auto.
  Qed.

  (** If no failure is recorded, everything has been started in the end. *)
  Lemma final_all_started : forall tr s, exec reads (init rs tasks ws) tr s -> final (ph s) ->
      (forall u, ~ In (Finish u Fails) tr) -> Permutation tasks (started tr).
  Proof.
    intros tr s Hex Hf Hno. pose proof (exec_inv reads rs tasks ws Hsetup Hpool _ _ Hex) as H.
    destruct (final_finished _ _ Hex Hf) as [_ Hsub].
    destruct (inv_split _ _ _ _ _ H) as [dropped [Hp Hd]].
    pose proof (inv_position _ _ _ _ _ H) as [_ Hpos].
    assert (Hpr : passed s = [] /\ rest s = []) by (destruct (ph s); simpl in Hf; tauto).
    destruct Hpr as [Hpa Hre].
    assert (dropped = []).
    { destruct dropped as [|x l]; auto. destruct Hd as (_ & _ & v & Hv); [discriminate|]. apply Hno in Hv. tauto. }
    subst dropped. rewrite Hpa, Hre in Hp. simpl in Hp. rewrite Hsub in Hp. auto.
  Qed.

  Theorem thrown_never_final : forall tr s, exec reads (init rs tasks ws) tr s ->
      forall v t, In (Finish v Throws) tr -> In t tasks -> In v (reads t) ->
      (forall u, ~ In (Finish u Fails) tr) -> ~ final (ph s).
  Proof.
    intros tr s Hex v t Hv Ht Hr Hno Hf.
    assert (Hst : In t (started tr)) by (eapply Permutation_in; [eapply final_all_started; eauto|auto]).
    apply started_in in Hst. revert Hst.
    eapply dependents_not_started; [eauto|exact Hv|discriminate|]. apply waits_direct. auto.
  Qed.

  Lemma finish_started : forall tr s v o, exec reads (init rs tasks ws) tr s -> In (Finish v o) tr -> In (Start v) tr.
  Proof.
    intros tr s v o Hex Hv. pose proof (exec_inv reads rs tasks ws Hsetup Hpool _ _ Hex) as H.
    apply started_in. eapply Permutation_in; [apply Permutation_sym, (inv_running _ _ _ _ _ H)|].
    apply in_or_app. right. apply finished_in. eauto.
  Qed.
End End.

(** * Progress *)

Section Progress.
  Variable reads : nat -> list nat.
  Variable rs : list task_result.
  Variable tasks : list nat.
  Variable ws : list worker.
  Hypothesis Hsetup : task_setup reads rs tasks.
  Hypothesis Hpool : idle_pool ws.

  (** The event is set, or will be. *)
  Definition coming (s : state) : Prop :=
    event s = true \/ queue s <> [] \/ setting (workers s) <> [].

  Lemma coming_dec : forall s, coming s \/ (event s = false /\ queue s = [] /\ setting (workers s) = []).
  Proof.
    intros s. unfold coming. destruct (event s); auto. destruct (queue s); [|left; right; left; discriminate].
    destruct (setting (workers s)); auto. left. right. right. discriminate.
  Qed.

  Definition not_stuck (s : state) : Prop :=
    match ph s with
    | Loop | Checking _ => passed s = [] \/ coming s
    | EventWait | EventSleep => coming s
    | _ => True
    end.

  Lemma setting_running : forall l, setting l = [] -> running l = [].
  Proof. intros l H. eapply nil_map; [|exact H]. intros w Hw. destruct w; simpl in *; auto; discriminate. Qed.

  (** If nothing is coming, a task at the front of the list is not waiting. *)
  Lemma front_ready : forall tr s t after d, inv reads rs tasks tr s -> harmless reads tasks tr ->
      passed s = [] -> rest s = t :: after -> In d (reads t) -> nth_error (results s) d = Some Pending ->
      coming s.
  Proof.
    intros tr s t after d H Hh Hp Hr Hd Hres.
    destruct (coming_dec s) as [|(_ & Hq & Hset)]; auto. exfalso.
    assert (Heq : passed s ++ rest s = [] ++ t :: after) by (rewrite Hp, Hr; auto).
    destruct (inv_order _ _ _ _ _ H _ _ _ Heq d Hd) as [[]|[Hx|[_ Hx]]]; [|unfold succeeded in Hx; congruence].
    pose proof (nodup_submitted reads rs tasks Hsetup _ _ H) as [_ Hsub]. pose proof (Hsub d Hx) as Hdt.
    rewrite (inv_fifo _ _ _ _ _ H), Hq, app_nil_r in Hx.
    eapply Permutation_in in Hx; [|apply (inv_running _ _ _ _ _ H)].
    rewrite (setting_running _ Hset) in Hx. simpl in Hx. apply finished_in in Hx. destruct Hx as [o Ho].
    destruct (inv_results _ _ _ _ _ H) as (_ & _ & Hall).
    destruct (Hall d Hdt) as [[_ A]|[[_ A]|(A & B & _)]]; try congruence.
    destruct o; auto. apply (Hh d Ho t); auto.
    destruct (inv_split _ _ _ _ _ H) as [dropped [Hperm _]].
    eapply Permutation_in; [apply Permutation_sym; exact Hperm|]. rewrite Hp, Hr. simpl. auto.
  Qed.

  Lemma coming_workers : forall s l1 w w' l2 (q : list nat) e,
      coming s -> workers s = l1 ++ w :: l2 ->
      (setting_of w <> [] -> setting_of w' <> [] \/ e = true) ->
      (event s = true -> e = true) -> (queue s <> [] -> q <> [] \/ setting_of w' <> []) ->
      e = true \/ q <> [] \/ setting (l1 ++ w' :: l2) <> [].
  Proof.
    intros s l1 w w' l2 q e Hc Hw Hset He Hq. unfold coming in Hc. rewrite Hw in Hc.
    unfold setting in *. rewrite split_map in *.
    assert (Hx : forall (a b c : list nat), b <> [] -> a ++ b ++ c <> []).
    { intros [|x a] [|y b] c Hb; simpl; congruence. }
    destruct Hc as [Hc|[Hc|Hc]]; auto.
    - destruct (Hq Hc); auto.
    - destruct (flat_map setting_of l1) as [|x a] eqn:E1; [|right; right; discriminate].
      simpl in *. destruct (setting_of w) as [|y b] eqn:E2.
      + simpl in Hc. destruct (setting_of w'); simpl; auto. right. right. discriminate.
      + destruct Hset as [Hs|Hs]; [discriminate| |auto]. right. right. apply (Hx [] _ _ Hs).
  Qed.

  Lemma not_stuck_inv : forall tr s, exec reads (init rs tasks ws) tr s -> harmless reads tasks tr -> not_stuck s.
  Proof.
    intros tr s Hex. induction Hex as [|tr s c l s' Hex IH Hstep]; intro Hh.
    { unfold not_stuck. simpl. auto. }
    assert (Hh' : harmless reads tasks tr) by (intros v Hv; apply Hh; apply in_or_app; auto).
    specialize (IH Hh'). pose proof (exec_inv reads rs tasks ws Hsetup Hpool _ _ Hex) as H.
    destruct c as [k|i o| |i]; simpl in Hstep.
    - unfold process_step in Hstep. pose proof (inv_position _ _ _ _ _ H) as [Hpos1 Hpos2]. unfold not_stuck in *.
      destruct (ph s) as [|ds| | | | | | | |] eqn:Hph; try discriminate.
      + destruct (passed s) as [|x xs] eqn:Hpa; destruct (rest s) as [|t after] eqn:Hre; inversion Hstep; subst; simpl; auto;
        rewrite Hpa; auto.
      + destruct (rest s) as [|t after] eqn:Hre; [inversion Hstep; subst; simpl; auto|].
        destruct ds as [|d ds].
        * destruct (notify_pool k (workers s)) as [ws'|]; try discriminate.
          assert (Hc : forall b a p, coming (mk_state (results s) b a p (queue s ++ [t]) ws' (event s)
                            (S (counter s)) (eptr s) (S (num_tasks s)))).
          { intros. right. left. simpl. destruct (queue s); discriminate. }
          destruct after; simpl in Hstep; inversion Hstep; subst; simpl; [apply Hc|right; apply Hc].
        * destruct (inv_checking _ _ _ _ _ H _ Hph) as (t' & after' & pre & E & Hreads & _).
          rewrite Hre in E. inversion E; subst t' after'.
          destruct (nth_error (results s) d) as [[]|] eqn:Hres; try (inversion Hstep; subst; simpl; auto; fail).
          assert (Hc : coming s).
          { destruct IH as [IH|IH]; auto. eapply front_ready; eauto. rewrite Hreads. apply in_or_app. simpl. auto. }
          destruct after; simpl in Hstep; inversion Hstep; subst; simpl; [apply Hc|right; apply Hc].
      + destruct (event s); inversion Hstep; subst; simpl; auto.
      + destruct (counter s =? 0); inversion Hstep; subst; simpl; auto.
      + destruct (eptr s); inversion Hstep; subst; simpl; auto.
    - unfold worker_step in Hstep. destruct (nth_error (workers s) i) as [w|] eqn:Hw; try discriminate.
      assert (Hk : forall w' q e p, (coming s -> coming (mk_state (results s') (passed s) (rest s) p q
                      (update i w' (workers s)) e (counter s') (eptr s') (num_tasks s'))) ->
                   (p = ph s \/ p = wake_event (ph s) \/ p = wake_counter (ph s)) ->
                   not_stuck (mk_state (results s') (passed s) (rest s) p q
                      (update i w' (workers s)) e (counter s') (eptr s') (num_tasks s'))).
      { intros w' q e p Hc Hp. unfold not_stuck in *. simpl.
        destruct (ph s); simpl in *; destruct Hp as [->|[-> | ->]]; simpl; auto; destruct IH; auto. }
      destruct w as [| |v|v|v|v]; try discriminate.
      + destruct (queue s) as [|v q] eqn:Hq; inversion Hstep; subst; apply Hk; auto; intro Hc;
          destruct (update_split _ i WChecking WChecking _ Hw) as (l1 & l2 & E1 & _ & <-).
        * destruct (update_split _ _ WChecking WSleeping _ Hw) as (l3 & l4 & E3 & E4 & _).
          unfold coming. simpl. rewrite E4. eapply coming_workers; eauto; simpl; try congruence.
        * destruct (update_split _ _ WChecking (WRunning v) _ Hw) as (l3 & l4 & E3 & E4 & _).
          unfold coming. simpl. rewrite E4. eapply coming_workers; eauto; simpl; try congruence.
          intros _. right. discriminate.
      + destruct o; inversion Hstep; subst; apply Hk; auto; intro Hc; unfold coming; simpl;
          match goal with |- context [update _ ?w' _] =>
            destruct (update_split _ _ _ w' _ Hw) as (l3 & l4 & E3 & E4 & _) end;
          rewrite E4; eapply coming_workers; eauto; simpl; try congruence; left; discriminate.
      + inversion Hstep; subst; apply Hk; auto; intro Hc; unfold coming; simpl;
          match goal with |- context [update _ ?w' _] =>
            destruct (update_split _ _ _ w' _ Hw) as (l3 & l4 & E3 & E4 & _) end;
          rewrite E4; eapply coming_workers; eauto; simpl; try congruence; left; discriminate.
      + inversion Hstep; subst; apply Hk; auto; intro Hc; unfold coming; simpl; auto.
      + inversion Hstep; subst; apply Hk; auto; intro Hc; unfold coming; simpl;
          match goal with |- context [update _ ?w' _] =>
            destruct (update_split _ _ _ w' _ Hw) as (l3 & l4 & E3 & E4 & _) end;
          rewrite E4; eapply coming_workers; eauto; simpl; try congruence; auto.
    - unfold spurious_process in Hstep. unfold not_stuck in *. destruct (ph s); inversion Hstep; subst; simpl; auto.
    - unfold spurious_worker in Hstep. destruct (nth_error (workers s) i) as [w|] eqn:Hw; try discriminate.
      destruct w; try discriminate. inversion Hstep; subst.
      destruct (update_split _ i _ WChecking _ Hw) as (l1 & l2 & E1 & E2 & _). rewrite E2.
      unfold not_stuck, coming, setting in *. rewrite E1 in IH. simpl in *. rewrite split_map in *. simpl in *. auto.
  Qed.

  Lemma worker_enabled : forall s w, In w (workers s) -> w <> WSleeping ->
      exists c l s', proper c /\ step reads c s = Some (l, s').
  Proof.
    intros s w Hin Hw. apply In_nth_error in Hin. destruct Hin as [i Hi].
    assert (H : exists l s', worker_step i Succeeds s = Some (l, s')).
    { unfold worker_step. rewrite Hi. destruct w; try congruence; eauto. destruct (queue s); eauto. }
    destruct H as (l & s' & H). exists (ByWorker i Succeeds), l, s'. simpl. auto.
  Qed.

  Lemma not_all_sleeping : forall tr s, inv reads rs tasks tr s -> queue s <> [] \/ busy (workers s) <> [] ->
      exists w, In w (workers s) /\ w <> WSleeping.
  Proof.
    intros tr s H Hor.
    assert (Hdec : (forall w, In w (workers s) -> w = WSleeping) \/ exists w, In w (workers s) /\ w <> WSleeping).
    { clear. induction (workers s) as [|w l IH]; [left; simpl; tauto|].
      assert (Hw : w = WSleeping \/ w <> WSleeping) by (destruct w; auto; right; discriminate).
      destruct Hw as [->|Hw]; [|right; exists w; simpl; auto].
      destruct IH as [IH|[w [Hin Hw]]]; [|right; exists w; simpl; auto].
      left. intros w [<-|Hin]; auto. }
    destruct Hdec as [Hall|]; auto. exfalso. destruct Hor as [Hq|Hb].
    - apply Hq. apply (inv_awake _ _ _ _ _ H). auto.
    - apply Hb. clear - Hall. induction (workers s) as [|w l IH]; auto. simpl.
      rewrite (Hall w) by (simpl; auto). simpl. apply IH. intros. apply Hall. simpl. auto.
  Qed.

  Theorem progress : forall tr s, exec reads (init rs tasks ws) tr s -> harmless reads tasks tr ->
      ~ final (ph s) -> exists c l s', proper c /\ step reads c s = Some (l, s').
  Proof.
    intros tr s Hex Hh Hf. pose proof (exec_inv reads rs tasks ws Hsetup Hpool _ _ Hex) as H.
    pose proof (not_stuck_inv _ _ Hex Hh) as Hns.
    assert (Hproc : forall k l s', process_step reads k s = Some (l, s') ->
                    exists c l s', proper c /\ step reads c s = Some (l, s')).
    { intros k l s' Hs. exists (ByProcess k), l, s'. simpl. auto. }
    unfold not_stuck in Hns. pose proof (inv_position _ _ _ _ _ H) as [Hpos1 Hpos2].
    destruct (ph s) as [|ds| | | | | | | |] eqn:Hph; simpl in Hf; try tauto.
    - destruct (rest s) as [|t after] eqn:Hr; eapply (Hproc 0); unfold process_step; rewrite Hph, Hr.
      + rewrite Hpos1 by auto. reflexivity.
      + destruct (passed s); reflexivity.
    - destruct (inv_checking _ _ _ _ _ H _ Hph) as (t & after & pre & Hr & _ & _).
      destruct ds as [|d ds].
      + destruct (notify_enabled (workers s)) as (k & ws' & Hk).
        destruct (wrap_iterator (passed s) after) as [[b a] p] eqn:Hwrap.
        eapply (Hproc k). unfold process_step. rewrite Hph, Hr, Hk, Hwrap. reflexivity.
      + destruct (wrap_iterator (passed s ++ [t]) after) as [[b a] p] eqn:Hwrap.
        destruct (nth_error (results s) d) as [r|] eqn:E; [destruct r|];
          eapply (Hproc 0); unfold process_step; rewrite Hph, Hr, E, ?Hwrap; reflexivity.
    - destruct (event s) eqn:He; eapply (Hproc 0); unfold process_step; rewrite Hph, He; reflexivity.
    - pose proof (inv_event_sleep _ _ _ _ _ H Hph) as He. destruct Hns as [Hx|Hx]; [congruence|].
      destruct (not_all_sleeping _ _ H) as [w [Hin Hw]].
      { destruct Hx as [Hx|Hx]; auto. right. intro Hb. apply Hx.
        eapply nil_map; [|exact Hb]. intros w Hw. destruct w; simpl in *; auto; discriminate. }
      eapply worker_enabled; eauto.
    - destruct (counter s =? 0) eqn:Hc; eapply (Hproc 0); unfold process_step; rewrite Hph, Hc; reflexivity.
    - pose proof (inv_counter_sleep _ _ _ _ _ H Hph) as Hc. rewrite (inv_counter _ _ _ _ _ H) in Hc.
      destruct (not_all_sleeping _ _ H) as [w [Hin Hw]].
      { destruct (queue s); [|left; discriminate]. right. intro Hb. rewrite Hb in Hc. simpl in Hc. auto. }
      eapply worker_enabled; eauto.
    - destruct (eptr s) eqn:He; eapply (Hproc 0); unfold process_step; rewrite Hph, He; reflexivity.
  Qed.
End Progress.

(** * Termination *)

Section Termination.
  Variable reads : nat -> list nat.

  Definition stage (w : worker) : nat :=
    match w with WRunning _ => 4 | WThrowing _ => 3 | WLeaving _ => 2 | WUnlocking _ => 1 | _ => 0 end.
  Definition sum (f : worker -> nat) (l : list worker) : nat := fold_right (fun w n => f w + n) 0 l.
  Definition sets (w : worker) : nat :=
    match w with WRunning _ | WThrowing _ | WLeaving _ => 1 | _ => 0 end.
  Definition checks (w : worker) : nat := match w with WChecking => 1 | _ => 0 end.

  (** Work that is left, and the number of times the event can still wake up
      [process]. *)
  Definition work (s : state) : nat :=
    7 * (length (passed s) + length (rest s)) + 6 * length (queue s) +
    sum stage (workers s) + sum sets (workers s) + (if event s then 1 else 0).

  Definition scan_cost (l : list nat) : nat := fold_right (fun t n => length (reads t) + 3 + n) 0 l.

  Definition phase_cost (s : state) : nat :=
    match ph s with
    | Loop => 7 + scan_cost (rest s)
    | Checking ds => 9 + length ds + scan_cost (tl (rest s))
    | EventWait => 6
    | EventSleep => 5
    | CounterWait => 2
    | CounterSleep => 1
    | Taking => 1
    | Returned _ | Threw _ | UndefinedPhase => 0
    end.

  Definition scan (s : state) : nat := phase_cost s + sum checks (workers s).

  Lemma sum_app : forall f l1 l2, sum f (l1 ++ l2) = sum f l1 + sum f l2.
  Proof. induction l1; simpl; intros; auto. rewrite IHl1. lia. Qed.

  Lemma sum_split : forall f l1 w l2, sum f (l1 ++ w :: l2) = sum f l1 + f w + sum f l2.
  Proof. intros. rewrite sum_app. simpl. lia. Qed.

  Lemma sum_notify : forall f k l l', f WChecking = f WSleeping -> notify_pool k l = Some l' -> sum f l' = sum f l.
  Proof.
    intros f k l l' Hf H. apply notify_cases in H. destruct H as [[_ ->]|(l1 & l2 & -> & ->)]; auto.
    rewrite !sum_split, Hf. auto.
  Qed.

  Lemma step_decreases : forall s s', program_step reads s s' ->
      work s' < work s \/ (work s' = work s /\ scan s' < scan s).
  Proof.
    intros s s' (c & l & Hp & Hstep). destruct c as [k|i o| |i]; simpl in Hp; try tauto; simpl in Hstep.
    - unfold process_step in Hstep. unfold work, scan, phase_cost.
      destruct (ph s) as [|ds| | | | | | | |] eqn:Hph; try discriminate.
      + destruct (rest s) as [|t after] eqn:Hr; destruct (passed s) as [|x xs] eqn:Hpa; inversion Hstep; subst;
          simpl; rewrite ?Hr, ?Hpa; simpl; right; split; lia.
      + destruct (rest s) as [|t after] eqn:Hr.
        { inversion Hstep; subst; simpl; rewrite ?Hr; simpl. right. split; lia. }
        destruct ds as [|d ds].
        * destruct (notify_pool k (workers s)) as [ws'|] eqn:Hn; try discriminate.
          left. destruct after; simpl in Hstep; inversion Hstep; subst; simpl; rewrite ?app_length;
            rewrite ?(sum_notify stage _ _ _ eq_refl Hn), ?(sum_notify sets _ _ _ eq_refl Hn); simpl; lia.
        * destruct (nth_error (results s) d) as [[]|] eqn:E.
          -- destruct after; simpl in Hstep; inversion Hstep; subst; simpl; rewrite ?app_length; simpl; right; split; lia.
          -- inversion Hstep; subst; simpl; rewrite ?Hr; simpl. right. split; lia.
          -- inversion Hstep; subst; simpl. left. lia.
          -- inversion Hstep; subst; simpl; rewrite ?Hr; simpl. right. split; lia.
      + destruct (event s) eqn:He; inversion Hstep; subst; simpl; rewrite ?He; [left|right; split]; lia.
      + destruct (counter s =? 0); inversion Hstep; subst; simpl; right; split; lia.
      + destruct (eptr s); inversion Hstep; subst; simpl; right; split; lia.
    - unfold worker_step in Hstep. unfold work, scan.
      destruct (nth_error (workers s) i) as [w|] eqn:Hw; try discriminate.
      destruct w as [| |v|v|v|v]; try discriminate.
      + destruct (queue s) as [|v q] eqn:Hq; inversion Hstep; subst; simpl;
          match goal with |- context [update _ ?w' _] =>
            destruct (update_split _ _ _ w' _ Hw) as (l3 & l4 & E3 & E4 & _) end;
          rewrite E4, E3, !sum_split; simpl; [right; unfold phase_cost; simpl; split|left]; lia.
      + destruct o; inversion Hstep; subst; simpl;
          match goal with |- context [update _ (_ v) _] =>
            match goal with |- context [update i ?w' _] =>
            destruct (update_split _ _ _ w' _ Hw) as (l3 & l4 & E3 & E4 & _) end end;
          rewrite E4, E3, !sum_split; simpl; left; lia.
      + inversion Hstep; subst; simpl;
          match goal with |- context [update _ ?w' _] =>
            destruct (update_split _ _ _ w' _ Hw) as (l3 & l4 & E3 & E4 & _) end;
          rewrite E4, E3, !sum_split; simpl; left; lia.
      + inversion Hstep; subst; simpl;
          match goal with |- context [update _ ?w' _] =>
            destruct (update_split _ _ _ w' _ Hw) as (l3 & l4 & E3 & E4 & _) end;
          rewrite E4, E3, !sum_split; simpl; left; destruct (event s); lia.
      + inversion Hstep; subst; simpl;
          match goal with |- context [update _ ?w' _] =>
            destruct (update_split _ _ _ w' _ Hw) as (l3 & l4 & E3 & E4 & _) end;
          rewrite E4, E3, !sum_split; simpl; left; lia.
  Qed.

  Theorem terminates : well_founded (fun s' s => program_step reads s s').
  Proof.
    assert (H : forall n m s, work s <= n -> scan s <= m -> Acc (fun s' s => program_step reads s s') s).
    { induction n as [n IHn] using lt_wf_ind. induction m as [m IHm] using lt_wf_ind.
      intros s Hn Hm. constructor. intros s' Hs. apply step_decreases in Hs.
      destruct Hs as [Hs|[Hs1 Hs2]].
      - apply (IHn (work s')) with (m := scan s'); lia.
      - apply (IHm (scan s')); lia. }
    intros s. eapply H; eauto.
  Qed.
End Termination.

Theorem process_ends : forall reads rs tasks ws tr s,
    task_setup reads rs tasks -> idle_pool ws ->
    exec reads (init rs tasks ws) tr s -> harmless reads tasks tr ->
    always_ends reads tasks s.
Proof.
  intros reads rs tasks ws tr s Hsetup Hpool. revert tr.
  induction s as [s IH] using (well_founded_induction (terminates reads)). intros tr Hex Hh.
  assert (Hdec : final (ph s) \/ ~ final (ph s)) by (destruct (ph s); simpl; auto).
  destruct Hdec as [Hf|Hf]; [apply ends_now; auto|]. apply ends_later.
  - eapply progress; eauto.
  - intros c l s' Hp Hl Hstep. apply (IH s') with (tr := tr ++ l).
    + exists c, l. auto.
    + eapply exec_step; eauto.
    + intros v Hv. apply in_app_or in Hv. destruct Hv; auto.
Qed.

(** * A task that throws *)

Definition pair_reads (v : nat) : list nat := match v with 1 => [0] | _ => [] end.

Lemma pair_setup : task_setup pair_reads [Pending; Pending] [0; 1].
Proof.
  constructor.
  - repeat constructor; simpl; intuition discriminate.
  - intros v [<-|[<-|[]]]; reflexivity.
  - intros l1 v l2 H d Hd. destruct l1 as [|x l1]; simpl in H; inversion H; subst; simpl in Hd; [tauto|].
    destruct l1 as [|y l1]; simpl in *; inversion H2; subst; simpl in *.
    + destruct Hd as [<-|[]]. auto.
    + destruct l1; discriminate.
Qed.

Lemma one_idle : idle_pool [WChecking].
Proof. split; [discriminate|]. intros w [<-|[]]. auto. Qed.

Lemma run_app : forall reads cs1 cs2 s tr1 s1 tr2 s2,
    run reads cs1 s = Some (tr1, s1) -> run reads cs2 s1 = Some (tr2, s2) ->
    run reads (cs1 ++ cs2) s = Some (tr1 ++ tr2, s2).
Proof.
  induction cs1 as [|c cs1 IH]; simpl; intros cs2 s tr1 s1 tr2 s2 H1 H2.
  - inversion H1; subst. auto.
  - destruct (step reads c s) as [[l s']|]; [|discriminate].
    destruct (run reads cs1 s') as [[tr s'']|] eqn:E; [|discriminate]. inversion H1; subst.
    rewrite (IH cs2 s' tr s1 tr2 s2); auto. rewrite app_assoc. auto.
Qed.

(** Submits task 0, and lets it throw. *)
Definition pair_schedule : list choice :=
  [ByProcess 0; ByProcess 0; ByWorker 0 Succeeds; ByWorker 0 Throws].

Theorem thrown_stuck : exists reads rs tasks ws cs tr s,
    task_setup reads rs tasks /\ idle_pool ws /\
    run reads cs (init rs tasks ws) = Some (tr, s) /\ In (Finish 0 Throws) tr /\
    forall cs' tr' s', run reads cs' s = Some (tr', s') -> ~ final (ph s').
Proof.
  exists pair_reads, [Pending; Pending], [0; 1], [WChecking], pair_schedule.
  destruct (run pair_reads pair_schedule (init [Pending; Pending] [0; 1] [WChecking])) as [[tr s]|] eqn:E.
  2: { vm_compute in E. discriminate. }
  assert (Ht : In (Finish 0 Throws) tr).
  { vm_compute in E. inversion E; subst. simpl. auto. }
  exists tr, s. split; [apply pair_setup|]. split; [apply one_idle|]. split; auto. split; auto.
  intros cs' tr' s' H. pose proof (run_app _ _ _ _ _ _ _ _ E H) as Hr. apply run_exec in Hr.
  assert (Ht' : In (Finish 0 Throws) (tr ++ tr')) by (apply in_or_app; auto).
  eapply (thrown_never_final _ _ _ _ pair_setup one_idle _ _ Hr 0 1); simpl; auto.
  intros u Hu.
  pose proof (finish_started _ _ _ _ pair_setup one_idle _ _ _ _ Hr Hu) as Hst.
  assert (Hin : In u [0; 1]).
  { eapply (proj2 (started_tasks _ _ _ _ pair_setup one_idle _ _ Hr)). apply started_in. auto. }
  destruct Hin as [<-|[<-|[]]].
  - assert (Throws = Fails); [|discriminate]. eapply finish_unique; eauto.
    eapply finish_once; [apply pair_setup|apply one_idle|eauto].
  - revert Hst. eapply (dependents_not_started _ _ _ _ pair_setup one_idle _ _ Hr 0 Throws); auto; [discriminate|].
    apply waits_direct. simpl. auto.
Qed.
