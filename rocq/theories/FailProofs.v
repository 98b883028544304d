(** Building again after a failure. *)

From Coq Require Import List ZArith Lia.
From Verif Require Import Str Path SMap PathProofs DbModel GraphModel DepGraphModel DepGraphSpec FileListModel FileListSpec.
From Verif Require Import SchedModel SchedSpec SchedProofs TaskListModel TaskListSpec TaskListProofs BuildModel BuildSpec BuildProofs FailSpec.
Import ListNotations.

Lemma noted_building : forall g force W D0 tr D dec left,
    noted_build g force W D0 tr D dec left -> building g force D0 tr D dec.
Proof.
  intros g force W D0 tr D dec left H. induction H;
    [constructor|apply building_submits|apply building_starts|eapply building_writes|apply building_finishes]; eauto.
Qed.

Lemma building_noted : forall g force D0 tr D dec, building g force D0 tr D dec ->
    exists left, noted_build g force anything D0 tr D dec left.
Proof.
  intros g force D0 tr D dec H. induction H as [|? ? ? v ? (l & IH)|? ? ? v ? (l & IH)|? ? ? ? ? ? (l & IH)|? ? ? ? ? ? (l & IH)].
  - eexists. constructor.
  - eexists. apply noted_submits. exact IH.
  - eexists. apply noted_starts. exact IH.
  - eexists. eapply noted_writes; eauto. exact I.
  - eexists. eapply noted_finishes; eauto.
Qed.

Lemma noted_finished : forall g force W D0 tr D dec left, noted_build g force W D0 tr D dec left ->
    forall v o D', In (v, o, D') left -> In (Finish v o) tr.
Proof.
  intros g force W D0 tr D dec left H. induction H; intros w o' D'' Hin.
  - destruct Hin.
  - apply in_or_app. left. eauto.
  - apply in_or_app. left. eauto.
  - eauto.
  - apply in_or_app. destruct Hin as [E|Hin]; [right; left; congruence|left; eauto].
Qed.

Lemma noted_possible : forall g force W D0 tr D dec left, noted_build g force W D0 tr D dec left ->
    W D0 -> W D.
Proof. intros g force W D0 tr D dec left H. induction H; auto. Qed.

Lemma building_finish_started : forall g force D0 tr D dec v o, building g force D0 tr D dec ->
    In (Finish v o) tr -> In (Start v) tr.
Proof.
  intros g force D0 tr D dec v o H Hf. induction H; [destruct Hf| | | |].
  - apply in_or_app. left. apply IHbuilding. apply in_app_or in Hf. destruct Hf as [Hf|[Hf|[]]]; auto; discriminate.
  - apply in_or_app. left. apply IHbuilding. apply in_app_or in Hf. destruct Hf as [Hf|[Hf|[]]]; auto; discriminate.
  - auto.
  - apply in_or_app. left. apply in_app_or in Hf. destruct Hf as [Hf|[Hf|[]]]; auto.
    inversion Hf; subst. destruct H0; auto.
Qed.

Section Fail.
  Variables fs g : file_list.
  Hypothesis Hload : loaded fs g.
  Hypothesis Hnames : proper_names fs g.
  Variable rs : list task_result.
  Variable tasks : list nat.
  Hypothesis Htl : task_list g rs tasks.

  (** What others do while or after [w] has been started does not matter to [w]. *)
  Lemma others_apart : forall force D0 tr D dec, building g force D0 tr D dec -> orderly g tasks tr ->
      forall u w D', In w tasks -> u <> w -> In (Start w) tr -> in_progress tr u ->
      (forall q, ~ target_of g u q -> D' q = D q) -> (current g D w <-> current g D' w).
  Proof.
    intros force D0 tr D dec H Ho u w D' Hw Hne Hst Hu Hch.
    assert (Hno : ~ (exists p pu, numbered g w p /\ numbered g u pu /\ builds g pu /\ file_needs g p pu)).
    { intros (p & pu & Hwp & Hup & Hb & Hn).
      apply in_split in Hst. destruct Hst as (tr1 & tr2 & Heq).
      pose proof (orderly_ready _ _ _ Ho tr1 w tr2 p Heq Hwp u pu Hup Hn Hb) as Hfin.
      destruct Hu as [_ Hu]. apply (Hu Succeeds). rewrite Heq. apply in_or_app. auto. }
    split; intro Hc.
    - eapply (current_same fs g Hload Hnames rs tasks Htl D D' u w); eauto.
    - eapply (current_same fs g Hload Hnames rs tasks Htl D' D u w); eauto.
      intros q Hq. symmetry. auto.
  Qed.

  (** What a task has left behind stays as it is. *)
  Lemma left_stays : forall force W D0 tr D dec left, noted_build g force W D0 tr D dec left -> orderly g tasks tr ->
      forall v o D', In (v, o, D') left -> In v tasks -> (current g D' v <-> current g D v).
  Proof.
    intros force W D0 tr D dec left H. induction H; intros Ho w o' D'' Hin Hw.
    - destruct Hin.
    - eapply IHnoted_build; eauto. eapply orderly_prefix; eauto.
    - eapply IHnoted_build; eauto. eapply orderly_prefix; eauto.
    - rewrite (IHnoted_build Ho w o' D'' Hin Hw). pose proof (noted_building _ _ _ _ _ _ _ _ H) as Hb.
      pose proof (noted_finished _ _ _ _ _ _ _ _ H _ _ _ Hin) as Hf.
      assert (Hne : v <> w) by (intros ->; destruct H1 as [_ H1]; eapply H1; eauto).
      exact (others_apart _ _ _ _ _ Hb Ho v w D' Hw Hne (building_finish_started _ _ _ _ _ _ _ _ Hb Hf) H1 H2).
    - destruct Hin as [E|Hin].
      + injection E as <- <- <-. tauto.
      + eapply IHnoted_build; eauto. eapply orderly_prefix; eauto.
  Qed.

  Variables ws ws2 : list worker.
  Hypothesis Hws : idle_pool ws.
  Hypothesis Hws2 : idle_pool ws2.

  Lemma src_not_written : forall v p info, In v tasks -> nth_error g v = Some (p, info) ->
      forall u, target_of g u p -> u = v.
  Proof.
    intros v p info Hv Hn u Hu. destruct (Nat.eq_dec u v) as [|Hne]; auto. exfalso.
    destruct (target_source fs g Hload Hnames u p Hu) as (pu & iu & t & Hup & Hin & Ht & Htq & Hb & Hc).
    assert (Hvp : numbered g v p) by (eapply node_numbered; eauto).
    destruct Hc as [Hc|[[_ Hno] _]].
    - subst pu. apply Hne. eapply numbered_same; eauto.
    - destruct (task_list_facts _ _ Hload _ _ Htl) as (_ & Hbl & _). destruct (Hbl v Hv) as [p' [Hp' Hb']].
      assert (p' = p) by (unfold numbered in *; congruence). subst p'.
      apply (builds_sources _ _ Hload) in Hb'. destruct Hb' as [i0 [Hi0 _]]. apply Hno. apply in_map_iff. exists (p, i0). auto.
  Qed.

  Lemma target_dec : forall q, (exists u, target_of g u q) \/ forall u, ~ target_of g u q.
  Proof.
    intro q. destruct (existsb (fun e => existsb (fun t => path_eqb (ti_name t) q) (targets (snd e))) g) eqn:E.
    - left. apply existsb_exists in E. destruct E as ([p info] & Hin & E). apply existsb_exists in E. destruct E as (t & Ht & E).
      apply path_eqb_eq in E. apply In_nth_error in Hin. destruct Hin as [u Hu]. exists u, p, info, t. auto.
    - right. intros u (p & info & t & Hu & Ht & Hq). apply Bool.not_true_iff_false in E. apply E.
      apply existsb_exists. exists (p, info). split; [eapply nth_error_In; eauto|].
      apply existsb_exists. exists t. split; auto. apply path_eqb_eq. auto.
  Qed.

  (** If [v] looks current while building, nothing of it having been built, then it was current. *)
  Lemma current_before : forall force T D1 tr D dec left, noted_build g force (since T D1) D1 tr D dec left ->
      orderly g tasks tr -> forall v, In v tasks -> ~ In (Start v) tr -> not_after T g v D1 ->
      (forall p u q, numbered g v p -> numbered g u q -> file_needs g p q -> builds g q -> In (Finish u Succeeds) tr) ->
      current g D v -> current g D1 v.
  Proof.
    intros force T D1 tr D dec left H Ho v Hv Hns HT Hready (p & info & Hnth & Hup).
    pose proof (noted_building _ _ _ _ _ _ _ _ H) as Hb.
    assert (HW : since T D1 D) by (apply (noted_possible _ _ _ _ _ _ _ _ H); intro q; auto).
    assert (Hni : ~ invoked dec v) by (intro Hi; apply Hns; eapply invoked_started; eauto).
    assert (Hvp : numbered g v p) by (eapply node_numbered; eauto).
    assert (Hown : forall t, In t (targets info) -> D (ti_name t) = D1 (ti_name t)).
    { intros t Ht. eapply (own_targets fs g Hload Hnames); eauto. exists p, info, t. auto. }
    assert (Hsrc : D p = D1 p).
    { destruct (target_dec p) as [[u Hu]|Hno]; [|eapply unbuilt_same; eauto].
      pose proof (src_not_written v p info Hv Hnth u Hu). subst u. eapply (own_targets fs g Hload Hnames); eauto. }
    exists p, info. split; auto. intros t Ht. pose proof (Hown t Ht) as Et.
    destruct (Hup t Ht) as [Hd|[Hn Hc]]; [left|right].
    - unfold directory in *. rewrite <- Et. exact Hd.
    - assert (Hn1 : newer D1 (ti_name t) p) by (unfold newer, stamped in *; rewrite <- Et, <- Hsrc; exact Hn).
      split; auto. intros q (d & Hd & Hdn & Hext & Hnd).
      destruct (HW q) as [E|[E|[(tq & E & Htq)|[Hdir Hnp]]]].
      + assert (Hcq : compared D (task_use_deps g v) q).
        { exists d. repeat split; auto. unfold directory in *. rewrite E. exact Hnd. }
        specialize (Hc q Hcq). unfold newer, stamped in *. rewrite <- Et, <- E. exact Hc.
      + destruct (target_dec q) as [[u Hu]|Hno].
        * destruct (Nat.eq_dec u v) as [->|Hne].
          { assert (E1 : D q = D1 q) by (eapply (own_targets fs g Hload Hnames); eauto).
            destruct Hn1 as (ta & Hta & _). exists ta. split; auto. intros tb. unfold stamped. rewrite <- E1, E. intros [X|X]; discriminate. }
          destruct (reads_apart fs g Hload Hnames rs tasks Htl v p info u q Hv Hnth Hne) as (pu & Hpu & Hbu & Hnu); eauto.
          assert (Hcu : current g D u).
          { eapply (built_current fs g Hload Hnames rs tasks Htl); eauto.
            - eapply (task_list_closed fs g Hload rs tasks Htl); eauto.
            - left. eauto. }
          destruct Hcu as (pu' & iu & Hnu' & Hupu). destruct Hu as (pu2 & iu2 & tu & Hnu2 & Htu & Hq).
          rewrite Hnu' in Hnu2. injection Hnu2 as <- <-. exfalso.
          destruct (Hupu tu Htu) as [[z Hz]|[(ta & Hta & _) _]].
          -- rewrite Hq, E in Hz. discriminate.
          -- unfold stamped in Hta. rewrite Hq, E in Hta. destruct Hta; discriminate.
        * assert (E1 : D q = D1 q) by (eapply unbuilt_same; eauto).
          destruct Hn1 as (ta & Hta & _). exists ta. split; auto. intros tb. unfold stamped. rewrite <- E1, E. intros [X|X]; discriminate.
      + assert (Hcq : compared D (task_use_deps g v) q).
        { exists d. repeat split; auto. intros [z Hz]. congruence. }
        destruct (Hc q Hcq) as (ta & Hta & Hall). specialize (Hall tq (or_introl E)).
        assert (ta <= T)%Z.
        { apply (HT (ti_name t) ta); [exists p, info, t; auto|]. unfold stamped in *. rewrite <- Et. exact Hta. }
        lia.
      + destruct Hn1 as (ta & Hta & _). exists ta. split; auto. intros tb [X|X]; [exfalso; eapply Hnp; eauto|].
        exfalso. apply Hnd. exists tb. exact X.
  Qed.

  Lemma success_decided : forall force D0 tr D dec v, building g force D0 tr D dec -> In (Finish v Succeeds) tr ->
      In (v, Some true) dec \/ In (v, Some false) dec.
  Proof.
    intros force D0 tr D dec v H Hfin. induction H.
    - destruct Hfin.
    - apply IHbuilding. apply in_app_or in Hfin. destruct Hfin as [Hf|[Hf|[]]]; auto; discriminate.
    - apply in_app_or in Hfin. destruct Hfin as [Hf|[Hf|[]]]; [|discriminate].
      destruct (IHbuilding Hf); [left|right]; right; auto.
    - auto.
    - apply in_app_or in Hfin. destruct Hfin as [Hf|[Hf|[]]]; auto. inversion Hf; subst.
      destruct (started_decided _ _ _ _ _ _ v H (proj1 H0)) as [[[]|] Hb]; auto.
      exfalso. apply H2; auto.
  Qed.

  Lemma not_current_decision : forall force T D1 tr D dec left, noted_build g force (since T D1) D1 tr D dec left ->
      orderly g tasks tr -> forall v, In v tasks -> not_after T g v D1 -> ~ current g D1 v -> ~ In (v, Some false) dec.
  Proof.
    intros force T D1 tr D dec left H. induction H; intros Ho w Hw HT Hnc Hin.
    - destruct Hin.
    - revert Hin. apply IHnoted_build; auto. eapply orderly_prefix; eauto.
    - assert (Ho' : orderly g tasks tr) by (eapply orderly_prefix; eauto).
      destruct Hin as [E|Hin]; [|revert Hin; apply IHnoted_build; auto].
      injection E as -> E. apply Hnc. eapply current_before; eauto.
      + intro Hst. pose proof (orderly_once _ _ _ Ho) as Hn. rewrite started_app in Hn. simpl in Hn.
        apply NoDup_remove_2 in Hn. apply Hn. rewrite app_nil_r. apply started_in. exact Hst.
      + intros p u q Hp Hu Hneed Hb. eapply (orderly_ready _ _ _ Ho tr w [] p); eauto.
      + eapply not_needed_current; eauto.
    - revert Hin. apply IHnoted_build; auto.
    - revert Hin. apply IHnoted_build; auto. eapply orderly_prefix; eauto.
  Qed.

  (** A task that is not current gets its recipe run by a build that returns. *)
  Theorem rebuilt : forall cs tr s n force T D1 D2 dec left,
      run (task_reads g) cs (init rs tasks ws2) = Some (tr, s) -> ph s = Returned n ->
      noted_build g force (since T D1) D1 tr D2 dec left ->
      forall v, In v tasks -> not_after T g v D1 -> ~ current g D1 v -> invoked dec v /\ In (Finish v Succeeds) tr.
  Proof.
    intros cs tr s n force T D1 D2 dec left Hrun Hph H v Hv HT Hnc.
    assert (Hf : In (Finish v Succeeds) tr).
    { destruct (task_list_facts _ _ Hload _ _ Htl) as (Hsetup & _).
      destruct (returned_all _ _ _ _ Hsetup Hws2 _ _ _ (run_exec _ _ _ _ _ Hrun) Hph) as (_ & _ & X). auto. }
    split; auto. pose proof (noted_building _ _ _ _ _ _ _ _ H) as Hb.
    destruct (success_decided _ _ _ _ _ v Hb Hf) as [|Hd]; auto. exfalso. revert Hd.
    eapply not_current_decision; eauto. eapply run_orderly; eauto.
  Qed.

  Theorem rebuilt_after_failure : forall cs1 tr1 s1 cs2 tr2 s2 n force1 D0 D1 dec1 left1 force2 T D2 dec2 left2,
      run (task_reads g) cs1 (init rs tasks ws) = Some (tr1, s1) ->
      noted_build g force1 anything D0 tr1 D1 dec1 left1 ->
      run (task_reads g) cs2 (init rs tasks ws2) = Some (tr2, s2) -> ph s2 = Returned n ->
      noted_build g force2 (since T D1) D1 tr2 D2 dec2 left2 ->
      forall v o D, In (v, o, D) left1 -> ~ current g D v -> not_after T g v D1 ->
      invoked dec2 v /\ In (Finish v Succeeds) tr2.
  Proof.
    intros cs1 tr1 s1 cs2 tr2 s2 n force1 D0 D1 dec1 left1 force2 T D2 dec2 left2 R1 B1 R2 P2 B2 v o D Hin Hnc HT.
    pose proof (run_orderly fs g Hload rs tasks Htl ws cs1 tr1 s1 Hws R1) as Ho.
    assert (Hv : In v tasks).
    { apply (orderly_tasks _ _ _ Ho). apply started_in. eapply building_finish_started; [eapply noted_building; eauto|].
      eapply noted_finished; eauto. }
    eapply rebuilt; eauto. rewrite <- (left_stays _ _ _ _ _ _ _ B1 Ho v o D Hin Hv). exact Hnc.
  Qed.

  (** ** A failure that is forgotten *)

  Section Clean.
    Variable clean : nat -> Prop.
    Hypothesis clean_policy : forall v, In v tasks -> clean v -> ~ always_rebuilt g v.
    Hypothesis clean_needs : forall v u p q, In v tasks -> In u tasks -> numbered g v p -> numbered g u q ->
        file_needs g p q -> clean v -> clean u.

    Lemma clean_quiet : forall D0 tr D dec, building g false D0 tr D dec ->
        (forall v, In v (started tr) -> In v tasks) ->
        (forall v, In v tasks -> clean v -> current g D0 v) ->
        forall v, In v tasks -> clean v -> current g D v /\ ~ invoked dec v.
    Proof.
      intros D0 tr D dec H. induction H; intros Hst H0' w Hw Hnd.
      - split; auto.
      - rewrite started_app in Hst. simpl in Hst. rewrite app_nil_r in Hst. auto.
      - rewrite started_app in Hst. simpl in Hst.
        assert (Hst' : forall x, In x (started tr) -> In x tasks) by (intros; apply Hst; apply in_or_app; auto).
        destruct (IHbuilding Hst' H0' w Hw Hnd) as [Hc Hi]. split; auto.
        intros [E|E]; [|auto]. inversion E; subst. revert H2. apply current_not_needed; auto.
      - destruct (IHbuilding Hst H0' w Hw Hnd) as [Hc Hi]. split; auto.
        assert (Hv : In v tasks) by (apply Hst; apply started_in; eapply invoked_started; eauto).
        assert (Hne : v <> w) by (intros ->; auto).
        eapply (current_same fs g Hload Hnames rs tasks Htl D D' v w); auto.
        intros (p & pu & Hwp & Hup & Hb & Hn).
        destruct (IHbuilding Hst H0' v Hv (clean_needs w v p pu Hw Hv Hwp Hup Hn Hnd)) as [_ Hy]. auto.
      - rewrite started_app in Hst. simpl in Hst. rewrite app_nil_r in Hst. auto.
    Qed.
  End Clean.

  Theorem forgotten : forall cs1 tr1 s1 cs2 tr2 s2 force D0 D1 dec1 left1 D2 dec2,
      run (task_reads g) cs1 (init rs tasks ws) = Some (tr1, s1) ->
      noted_build g force anything D0 tr1 D1 dec1 left1 ->
      run (task_reads g) cs2 (init rs tasks ws2) = Some (tr2, s2) ->
      building g false D1 tr2 D2 dec2 ->
      forall v o D, In (v, o, D) left1 -> current g D v -> ~ affected_by_policy g v -> ~ invoked dec2 v.
  Proof.
    intros cs1 tr1 s1 cs2 tr2 s2 force D0 D1 dec1 left1 D2 dec2 R1 B1 R2 B2 v o D Hin Hc Hna.
    pose proof (run_orderly fs g Hload rs tasks Htl ws cs1 tr1 s1 Hws R1) as Ho1.
    pose proof (run_orderly fs g Hload rs tasks Htl ws2 cs2 tr2 s2 Hws2 R2) as Ho2.
    pose proof (noted_building _ _ _ _ _ _ _ _ B1) as B1'.
    assert (Hst : In (Start v) tr1) by (eapply building_finish_started; [exact B1'|eapply noted_finished; eauto]).
    assert (Hv : In v tasks) by (apply (orderly_tasks _ _ _ Ho1); apply started_in; exact Hst).
    set (clean := fun w => ~ affected_by_policy g w /\ (w = v \/ exists p q, numbered g v p /\ numbered g w q /\ file_needs g p q)).
    assert (Hq : current g D2 v /\ ~ invoked dec2 v); [|tauto].
    apply (clean_quiet clean) with (D0 := D1) (tr := tr2); auto.
    - intros w Hw [Hx _] Ha. apply Hx. left. exact Ha.
    - intros w u p q Hw Hu Hwp Huq Hn [Hx Hd]. split.
      + intro Ha. apply Hx. eapply (affected_needs fs g Hload Hnames rs tasks Htl w u p q); eauto.
      + destruct Hd as [->|(pv & pw & Hpv & Hpw & Hvw)]; [right; exists p, q; auto|].
        assert (pw = p) by (unfold numbered in *; congruence). subst pw.
        destruct (path_eqb q pv) eqn:E.
        * apply path_eqb_eq in E. subst q. left. eapply numbered_same; eauto.
        * right. exists pv, q. split; auto. split; auto. eapply needs_trans; eauto. apply path_eqb_neq. auto.
    - apply (orderly_tasks _ _ _ Ho2).
    - intros w Hw [_ [->|(p & q & Hp & Hqw & Hn)]].
      + rewrite <- (left_stays _ _ _ _ _ _ _ B1 Ho1 v o D Hin Hv). exact Hc.
      + eapply (built_current fs g Hload Hnames rs tasks Htl); eauto. left.
        apply in_split in Hst. destruct Hst as (a & b & E). rewrite E.
        apply in_or_app. left. eapply (orderly_ready _ _ _ Ho1 a v b p E Hp w q); eauto.
        destruct (task_list_facts _ _ Hload _ _ Htl) as (_ & Hbl & _). destruct (Hbl w Hw) as [q' [Hq' Hb']].
        assert (q' = q) by (unfold numbered in *; congruence). subst. auto.
    - split; auto.
  Qed.
End Fail.
