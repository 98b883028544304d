(** Proofs about which recipes a build runs. *)

From Coq Require Import List ZArith Lia Bool.
From Verif Require Import Str Path SMap PathProofs DbModel DepGraphSpec FileListModel FileListSpec SchedModel SchedSpec SchedProofs TaskListModel TaskListSpec TaskListProofs.
From Verif Require Import BuildModel BuildSpec BuildProofs DueSpec.
Import ListNotations.

Lemma fresh_building g force folder T D0 tr D dec : fresh_build g force folder T D0 tr D dec -> building g force D0 tr D dec.
Proof. induction 1; econstructor; eassumption. Qed.

Lemma target_dec g v q : target_of g v q \/ ~ target_of g v q.
Proof.
  unfold target_of. destruct (nth_error g v) as [[p info]|] eqn:E.
  - destruct (in_dec path_eq_dec q (map ti_name (targets info))) as [I|I].
    + apply in_map_iff in I. destruct I as (t & Q & I). left. exists p, info, t. auto.
    + right. intros (p' & i' & t & E' & I' & Q). injection E' as -> ->. apply I. apply in_map_iff. exists t. auto.
  - right. intros (p' & i' & t & E' & _). discriminate.
Qed.

Lemma newer_dec D a b : newer D a b \/ ~ newer D a b.
Proof.
  unfold newer, stamped. destruct (D a) as [| |ta|ta] eqn:A.
  1, 2: right; intros (t & [H|H] & _); discriminate.
  all: destruct (D b) as [| |tb|tb] eqn:B.
  all: try (left; exists ta; split; [auto|]; intros t [H|H]; discriminate).
  all: destruct (Z_lt_dec tb ta) as [L|L]; [left; exists ta; split; [auto|]; intros t [H|H]; congruence|].
  all: right; intros (t & [H|H] & F); try discriminate; injection H as <-; apply L; apply F; auto.
Qed.

Lemma stamped_same D p t t' : stamped D p t -> stamped D p t' -> t = t'.
Proof. intros [H|H] [H'|H']; congruence. Qed.

Section Due.
  Variables fs g : file_list.
  Hypothesis Hload : loaded fs g.
  Hypothesis Hnames : proper_names fs g.
  Variable rs : list task_result.
  Variable tasks : list nat.
  Hypothesis Htl : task_list g rs tasks.
  Variable force : bool.
  Variable folder : path -> bool.
  Variable T : Z.
  Variable D0 : disk.
  Hypothesis Hsound : sound_before g folder T D0.

  Lemma finished_started tr D dec v o : building g force D0 tr D dec -> In (Finish v o) tr -> In (Start v) tr.
  Proof.
    intros H F. induction H.
    - destruct F.
    - apply in_or_app. left. apply IHbuilding. apply in_app_or in F. destruct F as [F|[F|[]]]; [exact F|discriminate].
    - apply in_or_app. left. apply IHbuilding. apply in_app_or in F. destruct F as [F|[F|[]]]; [exact F|discriminate].
    - auto.
    - apply in_or_app. left. apply in_app_or in F. destruct F as [F|[F|[]]]; [auto|]. injection F as -> ->. apply H0.
  Qed.

  (** Files that have changed are targets of tasks that were run. *)
  Lemma changed_target tr D dec : building g force D0 tr D dec ->
    forall q, D q = D0 q \/ exists u, invoked dec u /\ target_of g u q.
  Proof.
    intro H. induction H as [|tr D dec v H IH|tr D dec v H IH|tr D D' dec v H IH Iv P W|tr D dec v o H IH P C N]; intro q.
    - now left.
    - exact (IH q).
    - destruct (IH q) as [E|(u & I & Q)]; [now left|right]. exists u. split; [now right|exact Q].
    - destruct (target_dec g v q) as [Q|Q].
      + right. now exists v.
      + rewrite (W q Q). exact (IH q).
    - exact (IH q).
  Qed.

  Definition made (D : disk) (q : path) : Prop :=
    if folder q then directory D q else exists t, D q = PlainFile t /\ (T < t)%Z.

  (** What a recipe has made stays as it is. *)
  Lemma finished_made tr D dec : fresh_build g force folder T D0 tr D dec -> NoDup (started tr) ->
    forall u q, invoked dec u -> In (Finish u Succeeds) tr -> target_of g u q -> made D q.
  Proof.
    intro H. induction H as [|tr D dec v H IH|tr D dec v H IH|tr D D' dec v H IH Iv P W|tr D dec v o H IH P C M N];
      intros Nd u q I F Q.
    - destruct F.
    - rewrite started_app in Nd. cbn in Nd. rewrite app_nil_r in Nd.
      apply in_app_or in F. destruct F as [F|[F|[]]]; [|discriminate]. exact (IH Nd u q I F Q).
    - apply in_app_or in F. destruct F as [F|[F|[]]]; [|discriminate].
      rewrite started_app in Nd. cbn in Nd.
      destruct I as [I|I].
      + exfalso. injection I as -> _. apply NoDup_remove_2 in Nd. apply Nd. rewrite app_nil_r.
        apply started_in. exact (finished_started _ _ _ _ _ (fresh_building _ _ _ _ _ _ _ _ H) F).
      + apply NoDup_app_l in Nd. exact (IH Nd u q I F Q).
    - pose proof (IH Nd u q I F Q) as K. unfold made, directory in *. rewrite (W q); [exact K|].
      intro Q'. pose proof (target_owner fs g Hload Hnames u v q Q Q') as E. subst v. destruct P as [_ P]. exact (P _ F).
    - rewrite started_app in Nd. cbn in Nd. rewrite app_nil_r in Nd.
      apply in_app_or in F. destruct F as [F|[F|[]]]; [exact (IH Nd u q I F Q)|]. injection F as -> ->.
      exact (M I eq_refl q Q).
  Qed.

  Lemma node_of v p : numbered g v p -> exists info, nth_error g v = Some (p, info).
  Proof.
    unfold numbered. rewrite nth_error_map. destruct (nth_error g v) as [[p' info]|]; [|discriminate].
    intro H. injection H as ->. now exists info.
  Qed.

  (** The source file of a task is not changed before the task has been started. *)
  Lemma source_same tr D dec v p info : building g force D0 tr D dec -> In v tasks -> nth_error g v = Some (p, info) ->
    ~ invoked dec v -> D p = D0 p.
  Proof.
    intros H Hv E Ni. destruct (changed_target _ _ _ H p) as [K|(u & I & Q)]; [exact K|]. exfalso.
    pose proof (node_numbered g v p info E) as Np.
    destruct (target_source fs g Hload Hnames u p Q) as (pu & iu & t & Nu & _ & _ & _ & _ & C).
    destruct C as [<-|[[_ C] _]].
    - assert (K : u = v) by exact (numbered_same fs g Hload Hnames u v p Nu Np). subst u. exact (Ni I).
    - apply C. destruct (task_list_facts _ _ Hload _ _ Htl) as (_ & Hbl & _). destruct (Hbl v Hv) as [p' [Hp' Hb']].
      assert (K : p' = p) by (unfold numbered in *; congruence). subst p'.
      apply (builds_sources _ _ Hload) in Hb'. destruct Hb' as [i0 [Hi0 _]]. apply in_map_iff. exists (p, i0). auto.
  Qed.

  (** What happened when a task was started. *)
  Lemma decision_made tr D dec v b : fresh_build g force folder T D0 tr D dec -> In (v, b) dec ->
    exists tr1 D1 dec1 tr2, fresh_build g force folder T D0 tr1 D1 dec1 /\ b = task_needs_run g D1 force v /\
      tr = tr1 ++ Start v :: tr2 /\ incl dec1 dec.
  Proof.
    intros H. induction H as [|tr D dec w H IH|tr D dec w H IH|tr D D' dec w H IH Iv P W|tr D dec w o H IH P C M N]; intro I.
    - destruct I.
    - destruct (IH I) as (tr1 & D1 & dec1 & tr2 & A & B & -> & L). exists tr1, D1, dec1, (tr2 ++ [Submit w]).
      split; [exact A|]. split; [exact B|]. split; [now rewrite <- app_assoc|exact L].
    - destruct I as [I|I].
      + injection I as -> <-. exists tr, D, dec, []. split; [exact H|]. split; [reflexivity|]. split; [reflexivity|].
        intros x X. now right.
      + destruct (IH I) as (tr1 & D1 & dec1 & tr2 & A & B & -> & L). exists tr1, D1, dec1, (tr2 ++ [Start w]).
        split; [exact A|]. split; [exact B|]. split; [now rewrite <- app_assoc|]. intros x X. right. exact (L x X).
    - exact (IH I).
    - destruct (IH I) as (tr1 & D1 & dec1 & tr2 & A & B & -> & L). exists tr1, D1, dec1, (tr2 ++ [Finish w o]).
      split; [exact A|]. split; [exact B|]. split; [now rewrite <- app_assoc|exact L].
  Qed.

  Lemma not_yet tr1 v tr2 D1 dec1 : orderly g tasks (tr1 ++ Start v :: tr2) -> building g force D0 tr1 D1 dec1 ->
    forall b, ~ In (v, b) dec1.
  Proof.
    intros [Nd _ _] H b I. rewrite started_app in Nd. cbn in Nd. apply NoDup_remove_2 in Nd. apply Nd.
    apply in_or_app. left. apply started_in. exact (invoked_started g force D0 _ _ _ v b H I).
  Qed.

  (** A needed file that has changed was made by a task that is due, and has succeeded. *)
  Lemma maker_finished tr1 v tr2 p info u d : orderly g tasks (tr1 ++ Start v :: tr2) -> nth_error g v = Some (p, info) ->
    In v tasks -> u <> v -> In d (task_use_deps g v) -> target_of g u (dep_name d) -> In (Finish u Succeeds) tr1.
  Proof.
    intros O E Hv Ne Hd Q.
    destruct (reads_apart fs g Hload Hnames rs tasks Htl v p info u (dep_name d) Hv E Ne) as (pu & Nu & B & N); [|exact Q|].
    - right. left. exists d. auto.
    - exact (orderly_ready _ _ _ O tr1 v tr2 p eq_refl (node_numbered g v p info E) u pu Nu N B).
  Qed.

  Lemma orderly_task tr1 v tr2 : orderly g tasks (tr1 ++ Start v :: tr2) -> In v tasks.
  Proof.
    intro O. apply (orderly_tasks _ _ _ O). rewrite started_app. apply in_or_app. right. now left.
  Qed.

  Lemma started_due tr1 D1 dec1 v tr2 : fresh_build g force folder T D0 tr1 D1 dec1 -> orderly g tasks (tr1 ++ Start v :: tr2) ->
    (forall u, invoked dec1 u -> due g force folder D0 u) ->
    task_needs_run g D1 force v = Some true -> due g force folder D0 v.
  Proof.
    intros F O IH R. pose proof (fresh_building _ _ _ _ _ _ _ _ F) as B.
    pose proof (orderly_task _ _ _ O) as Hv. pose proof (not_yet _ _ _ _ _ O B) as Ny.
    assert (Nd1 : NoDup (started tr1)) by (destruct O as [O _ _]; rewrite started_app in O; exact (NoDup_app_l _ _ _ O)).
    unfold task_needs_run in R. destruct (nth_error g v) as [[p info]|] eqn:E; [|discriminate].
    unfold needs_run in R. destruct (bool_dec force true) as [Ef|Ef]; [now apply due_forced|].
    apply not_true_is_false in Ef. rewrite Ef in R.
    destruct (is_always (si_policy info)) eqn:Ea.
    { apply due_always. exists p, info. split; [exact E|]. destruct (si_policy info); [reflexivity|discriminate]. }
    cbn [orb] in R. destruct (is_up_to_date D1 p info (task_use_deps g v)) as [[]|] eqn:U; try discriminate. clear R.
    unfold is_up_to_date in U. apply all_of_false in U. destruct U as (t & Ht & U).
    assert (Qt : target_of g v (ti_name t)) by (exists p, info, t; auto).
    assert (St : D1 (ti_name t) = D0 (ti_name t)) by exact (own_targets fs g Hload Hnames _ _ _ _ _ B v (ti_name t) Qt (Ny (Some true))).
    assert (Sp : D1 p = D0 p) by exact (source_same _ _ _ v p info B Hv E (Ny (Some true))).
    unfold target_is_up_to_date in U. destruct (is_directory D1 (ti_name t)) eqn:Ed; [discriminate|].
    assert (Nt : ~ directory D0 (ti_name t)).
    { intros (x & X). unfold is_directory in Ed. rewrite St, X in Ed. discriminate. }
    assert (Old : ~ (newer D0 (ti_name t) p /\ forall q, compared D0 (task_use_deps g v) q -> newer D0 (ti_name t) q) ->
              due g force folder D0 v).
    { intro N. apply due_itself. intros (p' & info' & E' & C). rewrite E in E'. injection E' as <- <-.
      destruct (C t Ht) as [C'|C']; [exact (Nt C')|exact (N C')]. }
    destruct (newer_dec D0 (ti_name t) p) as [Np|Np]; [|apply Old; tauto].
    pose proof (is_older_spec D1 p (ti_name t)) as Os.
    destruct (is_older D1 p (ti_name t)) as [[]|]; [|exfalso; apply Os; unfold newer, stamped in *; rewrite St, Sp; exact Np|discriminate].
    apply all_of_false in U. destruct U as (d & Hd & U).
    pose proof (dep_is_older_spec D1 d (ti_name t)) as Ds. rewrite U in Ds. destruct Ds as (Ex & Nd & Nn).
    destruct (changed_target _ _ _ B (dep_name d)) as [K|(u & I & Q)].
    - apply Old. intros (_ & C). apply Nn. unfold newer, stamped. rewrite St, K. apply C.
      exists d. split; [exact Hd|]. split; [reflexivity|]. split; [exact Ex|]. unfold directory in *. now rewrite <- K.
    - assert (Ne : u <> v) by (intros ->; exact (Ny (Some true) I)).
      pose proof (maker_finished _ _ _ p info u d O E Hv Ne Hd Q) as Fu.
      pose proof (finished_made _ _ _ F Nd1 u (dep_name d) I Fu Q) as M. unfold made in M.
      destruct (folder (dep_name d)) eqn:Fd; [destruct (Nd M)|].
      apply (due_because g force folder D0 v p (ti_name t) u (dep_name d)); auto.
      + exact (node_numbered g v p info E).
      + destruct Np as (tt & [Pt|Pt] & _); [|destruct Nt; now exists tt].
        exact (proj2 (proj2 Hsound v (ti_name t) Qt) tt Pt).
      + exact (deps_needed fs g Hload rs tasks Htl v p d Hv (node_numbered g v p info E) Hd).
  Qed.

  (** Whatever happens, a recipe is run only if it is due. *)
  Lemma invoked_due tr D dec : fresh_build g force folder T D0 tr D dec -> orderly g tasks tr ->
    forall v, invoked dec v -> due g force folder D0 v.
  Proof.
    intros H. induction H as [|tr D dec w H IH|tr D dec w H IH|tr D D' dec w H IH Iv P W|tr D dec w o H IH P C M N]; intros O v I.
    - destruct I.
    - exact (IH (orderly_prefix _ _ _ _ O) v I).
    - pose proof (orderly_prefix _ _ _ _ O) as O1. destruct I as [I|I]; [|exact (IH O1 v I)].
      injection I as -> R. exact (started_due tr D dec v [] H O (IH O1) R).
    - exact (IH O v I).
    - exact (IH (orderly_prefix _ _ _ _ O) v I).
  Qed.

  (** A task that is current when it is started was current from the beginning. *)
  Lemma current_before tr1 D1 dec1 v tr2 : fresh_build g force folder T D0 tr1 D1 dec1 -> orderly g tasks (tr1 ++ Start v :: tr2) ->
    current g D1 v -> current g D0 v.
  Proof.
    intros F O (p & info & E & C). pose proof (fresh_building _ _ _ _ _ _ _ _ F) as B.
    pose proof (orderly_task _ _ _ O) as Hv. pose proof (not_yet _ _ _ _ _ O B) as Ny.
    assert (Nd1 : NoDup (started tr1)) by (destruct O as [O _ _]; rewrite started_app in O; exact (NoDup_app_l _ _ _ O)).
    exists p, info. split; [exact E|]. intros t Ht.
    assert (Qt : target_of g v (ti_name t)) by (exists p, info, t; auto).
    assert (St : D1 (ti_name t) = D0 (ti_name t)) by exact (own_targets fs g Hload Hnames _ _ _ _ _ B v (ti_name t) Qt (Ny (Some true))).
    assert (Sp : D1 p = D0 p) by exact (source_same _ _ _ v p info B Hv E (Ny (Some true))).
    destruct (C t Ht) as [Dt|[Np Nq]]; [left; unfold directory in *; now rewrite <- St|].
    right. split; [unfold newer, stamped in *; rewrite <- St, <- Sp; exact Np|].
    intros q (d & Hd & Hq & Ex & Nd). subst q.
    destruct (changed_target _ _ _ B (dep_name d)) as [K|(u & I & Q)].
    - unfold newer, stamped in *. rewrite <- St, <- K. apply Nq.
      exists d. split; [exact Hd|]. split; [reflexivity|]. split; [exact Ex|]. unfold directory in *. now rewrite K.
    - assert (Ne : u <> v) by (intros ->; exact (Ny (Some true) I)).
      pose proof (maker_finished _ _ _ p info u d O E Hv Ne Hd Q) as Fu.
      pose proof (finished_made _ _ _ F Nd1 u (dep_name d) I Fu Q) as M. unfold made in M.
      destruct Np as (tt & Ptt & _). exists tt. split; [unfold stamped in *; now rewrite <- St|].
      intros tb Sb. pose proof (proj1 Hsound _ _ Sb) as Lb.
      destruct (folder (dep_name d)) eqn:Fd.
      + destruct Sb as [Sb|Sb]; [|destruct Nd; now exists tb].
        pose proof (proj2 (proj2 Hsound u (dep_name d) Q) tb Sb). congruence.
      + destruct M as (tq & Pq & Lq).
        destruct (Nq (dep_name d)) as (ta & Pa & La).
        { exists d. split; [exact Hd|]. split; [reflexivity|]. split; [exact Ex|]. intros (x & X). congruence. }
        pose proof (stamped_same _ _ _ _ Pa Ptt). subst ta.
        pose proof (La tq (or_introl Pq)). lia.
  Qed.

  Hypothesis Hint : forall u q, target_of g u q -> internal g q.

  (** In a build that succeeds, a recipe is run if it is due. *)
  Lemma due_invoked tr D dec : fresh_build g force folder T D0 tr D dec -> orderly g tasks tr ->
    (forall v, In v tasks -> In (Finish v Succeeds) tr) ->
    forall v, due g force folder D0 v -> In v tasks -> invoked dec v.
  Proof.
    intros F O All v Hd. pose proof (fresh_building _ _ _ _ _ _ _ _ F) as B.
    assert (Dec : forall v, In v tasks -> (invoked dec v \/ exists tr1 D1 dec1 tr2,
              fresh_build g force folder T D0 tr1 D1 dec1 /\ task_needs_run g D1 force v = Some false /\
              tr = tr1 ++ Start v :: tr2 /\ incl dec1 dec /\ In (v, Some false) dec)).
    { intros w Hw. assert (K : In (w, Some true) dec \/ In (w, Some false) dec).
      { assert (Hfin := All w Hw). clear - B Hfin. induction B.
        - destruct Hfin.
        - apply IHB. apply in_app_or in Hfin. destruct Hfin as [Hf|[Hf|[]]]; auto; discriminate.
        - apply in_app_or in Hfin. destruct Hfin as [Hf|[Hf|[]]]; [|discriminate].
          destruct (IHB Hf); [left|right]; right; auto.
        - auto.
        - apply in_app_or in Hfin. destruct Hfin as [Hf|[Hf|[]]]; auto. inversion Hf; subst.
          destruct (started_decided g _ _ _ _ _ w B (proj1 H)) as [[[]|] Hb]; auto.
          exfalso. apply H1; auto. }
      destruct K as [K|K]; [left; exact K|right].
      destruct (decision_made _ _ _ _ _ F K) as (tr1 & D1 & dec1 & tr2 & F1 & R & Et & L).
      exists tr1, D1, dec1, tr2. auto 6. }
    induction Hd as [v Hf|v Ha|v Hc|v p t u q Np Qt Ft Hu IH Q Fq N]; intro Hv;
      (destruct (Dec v Hv) as [K|(tr1 & D1 & dec1 & tr2 & F1 & R & Et & L & Kf)]; [exact K|exfalso]).
    - unfold task_needs_run in R. destruct (nth_error g v) as [[p info]|]; [|discriminate].
      unfold needs_run in R. rewrite Hf in R. discriminate.
    - destruct Ha as (p & info & E & P). unfold task_needs_run in R. rewrite E in R. unfold needs_run in R.
      rewrite P in R. cbn [is_always] in R. rewrite orb_true_r in R. discriminate.
    - apply Hc. subst tr. apply (current_before tr1 D1 dec1 v tr2 F1 O). exact (not_needed_current g _ _ _ R).
    - subst tr. pose proof (fresh_building _ _ _ _ _ _ _ _ F1) as B1. pose proof (not_yet _ _ _ _ _ O B1) as Ny.
      destruct (node_of v p Np) as (info & E).
      assert (Cq : exists d, In d (task_use_deps g v) /\ dep_name d = q).
      { destruct (needs_compared fs g Hload rs tasks Htl (fun _ => Missing) v p q Hv Np N (Hint u q Q)) as (d & Hd & Eq & _).
        - intros (x & X). discriminate.
        - exists d. auto. }
      destruct Cq as (d & Hd & Eq). subst q.
      assert (Ht : In u tasks).
      { destruct (PeanoNat.Nat.eq_dec u v) as [->|Ne]; [exact Hv|].
        pose proof (maker_finished _ _ _ p info u d O E Hv Ne Hd Q) as Fu.
        apply (orderly_tasks _ _ _ O). rewrite started_app. apply in_or_app. left. apply started_in.
        exact (finished_started _ _ _ _ _ B1 Fu). }
      pose proof (IH Ht) as Iu.
      pose proof (orderly_once _ _ _ O) as Nd.
      assert (Ne : u <> v).
      { intros ->. pose proof (decision_unique g force D0 _ _ _ v _ _ B Nd Iu Kf). discriminate. }
      pose proof (maker_finished _ _ _ p info u d O E Hv Ne Hd Q) as Fu.
      assert (Iu1 : invoked dec1 u).
      { destruct (started_decided g force D0 _ _ _ u B1 (finished_started _ _ _ _ _ B1 Fu)) as (b & Hb).
        pose proof (decision_unique g force D0 _ _ _ u _ _ B Nd Iu (L _ Hb)) as <-. exact Hb. }
      assert (Nd1 : NoDup (started tr1)) by (rewrite started_app in Nd; exact (NoDup_app_l _ _ _ Nd)).
      pose proof (finished_made _ _ _ F1 Nd1 u (dep_name d) Iu1 Fu Q) as M. unfold made in M. rewrite Fq in M.
      destruct M as (tq & Pq & Lq).
      destruct Qt as (p' & info' & ti & E' & Ht' & <-). rewrite E in E'. injection E' as <- <-.
      assert (Qt : target_of g v (ti_name ti)) by (exists p, info, ti; auto).
      assert (St : D1 (ti_name ti) = D0 (ti_name ti)) by exact (own_targets fs g Hload Hnames _ _ _ _ _ B1 v (ti_name ti) Qt (Ny (Some true))).
      destruct (project_up_to_date fs g Hload rs tasks Htl D1 v p info Hv E (not_needed_current g _ _ _ R) ti Ht') as [Dt|[_ Nq]].
      + unfold directory in Dt. rewrite St in Dt. pose proof (proj1 (proj2 Hsound v _ Qt) Dt). congruence.
      + destruct (Nq (dep_name d) N (Hint u _ Q)) as (ta & Pa & La); [intros (x & X); congruence|].
        unfold stamped in Pa. rewrite St in Pa. pose proof (proj1 Hsound _ _ Pa). pose proof (La tq (or_introl Pq)). lia.
  Qed.
End Due.

Section Runs.
  Variables fs g : file_list.
  Hypothesis Hload : loaded fs g.
  Hypothesis Hnames : proper_names fs g.
  Variable rs : list task_result.
  Variable tasks : list nat.
  Hypothesis Htl : task_list g rs tasks.
  Variable folder : path -> bool.
  Variable T : Z.
  Variable D0 : disk.
  Hypothesis Hsound : sound_before g folder T D0.

  Theorem only_due : forall (force : bool) (ws : list worker) (cs : list choice) (tr : list label) (s : state) (D : disk)
      (dec : list (nat * option bool)) (v : nat),
      idle_pool ws -> run (task_reads g) cs (init rs tasks ws) = Some (tr, s) ->
      fresh_build g force folder T D0 tr D dec -> invoked dec v -> due g force folder D0 v.
  Proof.
    intros force ws cs tr s D dec v Hws Hrun F I.
    pose proof (run_orderly fs g Hload rs tasks Htl ws cs tr s Hws Hrun) as O.
    exact (invoked_due fs g Hload Hnames rs tasks Htl force folder T D0 Hsound tr D dec F O v I).
  Qed.

  Hypothesis Hint : forall u q, target_of g u q -> internal g q.

  Theorem exactly_due : forall (force : bool) (ws : list worker) (cs : list choice) (tr : list label) (s : state) (n : nat) (D : disk)
      (dec : list (nat * option bool)) (v : nat),
      idle_pool ws -> run (task_reads g) cs (init rs tasks ws) = Some (tr, s) -> ph s = Returned n ->
      fresh_build g force folder T D0 tr D dec -> In v tasks -> (invoked dec v <-> due g force folder D0 v).
  Proof.
    intros force ws cs tr s n D dec v Hws Hrun Hph F Hv.
    pose proof (run_orderly fs g Hload rs tasks Htl ws cs tr s Hws Hrun) as O.
    split; intro H.
    - exact (invoked_due fs g Hload Hnames rs tasks Htl force folder T D0 Hsound tr D dec F O v H).
    - destruct (task_list_facts _ _ Hload _ _ Htl) as (Hsetup & _).
      destruct (returned_all _ _ _ _ Hsetup Hws _ _ _ (run_exec _ _ _ _ _ Hrun) Hph) as (_ & _ & All).
      exact (due_invoked fs g Hload Hnames rs tasks Htl force folder T D0 Hsound Hint tr D dec F O All v H Hv).
  Qed.

  (** Afterwards, the targets of what was due have been made, and nothing else has changed. *)
  Theorem outcome_due : forall (force : bool) (ws : list worker) (cs : list choice) (tr : list label) (s : state) (n : nat) (D : disk)
      (dec : list (nat * option bool)) (q : path),
      idle_pool ws -> run (task_reads g) cs (init rs tasks ws) = Some (tr, s) -> ph s = Returned n ->
      fresh_build g force folder T D0 tr D dec ->
      (forall v, In v tasks -> due g force folder D0 v -> target_of g v q ->
         if folder q then directory D q else exists t, D q = PlainFile t /\ (T < t)%Z) /\
      ((forall v, In v tasks -> due g force folder D0 v -> ~ target_of g v q) -> D q = D0 q).
  Proof.
    intros force ws cs tr s n D dec q Hws Hrun Hph F.
    pose proof (run_orderly fs g Hload rs tasks Htl ws cs tr s Hws Hrun) as O.
    destruct (task_list_facts _ _ Hload _ _ Htl) as (Hsetup & _).
    destruct (returned_all _ _ _ _ Hsetup Hws _ _ _ (run_exec _ _ _ _ _ Hrun) Hph) as (_ & _ & All).
    split.
    - intros v Hv Hd Q. apply (finished_made fs g Hload Hnames force folder T D0 tr D dec F (orderly_once _ _ _ O) v q); auto.
      exact (due_invoked fs g Hload Hnames rs tasks Htl force folder T D0 Hsound Hint tr D dec F O All v Hd Hv).
    - intro No. pose proof (fresh_building _ _ _ _ _ _ _ _ F) as B.
      destruct (changed_target g force D0 tr D dec B q) as [K|(u & I & Q)]; [exact K|]. exfalso.
      apply (No u); [| |exact Q].
      + apply (orderly_tasks _ _ _ O). apply started_in. exact (invoked_started g force D0 _ _ _ u _ B I).
      + exact (invoked_due fs g Hload Hnames rs tasks Htl force folder T D0 Hsound tr D dec F O u I).
  Qed.

  Theorem same_recipes : forall (force : bool) (ws1 ws2 : list worker) (cs1 cs2 : list choice) (tr1 tr2 : list label) (s1 s2 : state)
      (n1 n2 : nat) (D1 D2 : disk) (dec1 dec2 : list (nat * option bool)),
      idle_pool ws1 -> run (task_reads g) cs1 (init rs tasks ws1) = Some (tr1, s1) -> ph s1 = Returned n1 ->
      fresh_build g force folder T D0 tr1 D1 dec1 ->
      idle_pool ws2 -> run (task_reads g) cs2 (init rs tasks ws2) = Some (tr2, s2) -> ph s2 = Returned n2 ->
      fresh_build g force folder T D0 tr2 D2 dec2 ->
      forall v, invoked dec1 v <-> invoked dec2 v.
  Proof.
    intros force ws1 ws2 cs1 cs2 tr1 tr2 s1 s2 n1 n2 D1 D2 dec1 dec2 W1 R1 P1 F1 W2 R2 P2 F2 v.
    pose proof (run_orderly fs g Hload rs tasks Htl ws1 cs1 tr1 s1 W1 R1) as O1.
    pose proof (run_orderly fs g Hload rs tasks Htl ws2 cs2 tr2 s2 W2 R2) as O2.
    assert (Is : forall tr D dec, fresh_build g force folder T D0 tr D dec -> orderly g tasks tr -> invoked dec v -> In v tasks).
    { intros tr D dec F O I. apply (orderly_tasks _ _ _ O). apply started_in.
      exact (invoked_started g force D0 _ _ _ v _ (fresh_building _ _ _ _ _ _ _ _ F) I). }
    split; intro I.
    - pose proof (Is _ _ _ F1 O1 I) as Hv. apply (exactly_due force ws2 cs2 tr2 s2 n2 D2 dec2 v W2 R2 P2 F2 Hv).
      apply (exactly_due force ws1 cs1 tr1 s1 n1 D1 dec1 v W1 R1 P1 F1 Hv). exact I.
    - pose proof (Is _ _ _ F2 O2 I) as Hv. apply (exactly_due force ws1 cs1 tr1 s1 n1 D1 dec1 v W1 R1 P1 F1 Hv).
      apply (exactly_due force ws2 cs2 tr2 s2 n2 D2 dec2 v W2 R2 P2 F2 Hv). exact I.
  Qed.
End Runs.
