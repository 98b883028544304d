(** Proofs about building. *)

From Coq Require Import List Arith ZArith Bool Lia.
From Verif Require Import Str Path SMap PathProofs DbModel GraphModel DepGraphModel DepGraphSpec DepGraphProofs.
From Verif Require Import FileListModel FileListSpec FileListProofs SchedModel SchedSpec SchedProofs.
From Verif Require Import TaskListModel TaskListSpec TaskListProofs BuildModel BuildSpec.
Import ListNotations.

(** * Comparing ages *)

Lemma last_write_stamped : forall D p t, last_write_time D p = Some t <-> stamped D p t.
Proof.
  intros D p t. unfold last_write_time, stamped. destruct (D p); split; intro H; try discriminate;
    try (destruct H; discriminate); try (inversion H; auto); destruct H as [H|H]; inversion H; auto.
Qed.

Lemma last_write_none : forall D p, last_write_time D p = None <-> ~ present D p.
Proof.
  intros D p. split.
  - intros H [t Ht]. apply last_write_stamped in Ht. congruence.
  - intro H. destruct (last_write_time D p) eqn:E; auto. exfalso. apply H. exists z. apply last_write_stamped. auto.
Qed.

Lemma is_older_spec : forall D a b,
    match is_older D a b with
    | None => ~ present D a /\ ~ present D b
    | Some true => newer D b a
    | Some false => ~ newer D b a /\ present D a
    end.
Proof.
  intros D a b. unfold is_older.
  destruct (last_write_time D a) eqn:Ea, (last_write_time D b) eqn:Eb.
  - apply last_write_stamped in Ea. apply last_write_stamped in Eb.
    destruct (Z.ltb z z0) eqn:El.
    + apply Z.ltb_lt in El. exists z0. split; auto. intros tb Hb. apply last_write_stamped in Ea. apply last_write_stamped in Hb.
      rewrite Ea in Hb. inversion Hb; subst. auto.
    + apply Z.ltb_ge in El. split; [|exists z; auto]. intros (ta & Hta & Hall).
      apply last_write_stamped in Eb. apply last_write_stamped in Hta. rewrite Eb in Hta. inversion Hta; subst.
      specialize (Hall z Ea). lia.
  - apply last_write_none in Eb. split.
    + intros (ta & Hta & _). apply Eb. exists ta. auto.
    + exists z. apply last_write_stamped. auto.
  - apply last_write_stamped in Eb. exists z. split; auto. intros tb Hb. apply last_write_stamped in Hb. congruence.
  - apply last_write_none in Ea. apply last_write_none in Eb. auto.
Qed.

Lemma is_newer_spec : forall D a b,
    match is_newer D a b with
    | None => ~ present D a /\ ~ present D b
    | Some true => newer D a b
    | Some false => ~ newer D a b /\ present D b
    end.
Proof.
  intros D a b. pose proof (is_older_spec D b a) as H. unfold is_newer, is_older in *.
  destruct (last_write_time D a), (last_write_time D b); tauto.
Qed.

Lemma newer_asym : forall D a b, newer D a b -> newer D b a -> False.
Proof.
  intros D a b (ta & Ha & Hb') (tb & Hb & Ha'). specialize (Hb' tb Hb). specialize (Ha' ta Ha). lia.
Qed.

Theorem ages_compared : forall D a b,
    ((~ present D a /\ ~ present D b) /\ is_older D a b = None /\ is_newer D a b = None) \/
    ((present D a \/ present D b) /\
     exists o n, is_older D a b = Some o /\ is_newer D a b = Some n /\
       (o = true <-> newer D b a) /\ (n = true <-> newer D a b) /\ (o = true -> n = true -> False) /\
       (o = false -> n = false -> exists t, stamped D a t /\ stamped D b t)).
Proof.
  intros D a b. pose proof (is_older_spec D a b) as Ho. pose proof (is_newer_spec D a b) as Hn.
  destruct (is_older D a b) as [o|] eqn:Eo; destruct (is_newer D a b) as [n|] eqn:En.
  - right. split.
    + destruct o; [right; destruct Ho as (t & Ht & _); exists t; auto|left; tauto].
    + exists o, n. split; auto. split; auto.
      split; [destruct o; [tauto|split; [discriminate|tauto]]|].
      split; [destruct n; [tauto|split; [discriminate|tauto]]|].
      split.
      * intros -> ->. eapply newer_asym; eauto.
      * intros -> ->. unfold is_older, is_newer in *.
        destruct (last_write_time D a) eqn:Ea, (last_write_time D b) eqn:Eb; try discriminate.
        inversion Eo. inversion En. apply Z.ltb_ge in H0. apply Z.ltb_ge in H1.
        assert (z = z0) by lia. subst. exists z0. split; apply last_write_stamped; auto.
  - unfold is_older, is_newer in *. destruct (last_write_time D a), (last_write_time D b); discriminate.
  - unfold is_older, is_newer in *. destruct (last_write_time D a), (last_write_time D b); discriminate.
  - left. tauto.
Qed.

(** * Up to date *)

Lemma is_directory_spec : forall D p, is_directory D p = true <-> directory D p.
Proof.
  intros D p. unfold is_directory, directory. destruct (D p) eqn:E; split; intro H; try discriminate;
    try (destruct H; discriminate); eauto.
Qed.

Lemma all_of_true : forall A (f : A -> option bool) l, all_of f l = Some true <-> forall x, In x l -> f x = Some true.
Proof.
  induction l as [|y l IH]; simpl; [split; [intros _ x []|auto]|].
  destruct (f y) as [[]|] eqn:E.
  - rewrite IH. split; [intros H x [<-|Hx]; auto|auto].
  - split; [discriminate|]. intro H. specialize (H y (or_introl eq_refl)). congruence.
  - split; [discriminate|]. intro H. specialize (H y (or_introl eq_refl)). congruence.
Qed.

Lemma all_of_false : forall A (f : A -> option bool) l, all_of f l = Some false -> exists x, In x l /\ f x = Some false.
Proof.
  induction l as [|y l IH]; simpl; [discriminate|].
  destruct (f y) as [[]|] eqn:E; [|eauto|discriminate].
  intro H. destruct (IH H) as [x [Hx Hf]]. eauto.
Qed.

Lemma all_of_none : forall A (f : A -> option bool) l, all_of f l = None -> exists x, In x l /\ f x = None.
Proof.
  induction l as [|y l IH]; simpl; [discriminate|].
  destruct (f y) as [[]|] eqn:E; [|discriminate|eauto].
  intro H. destruct (IH H) as [x [Hx Hf]]. eauto.
Qed.

Lemma dep_is_older_spec : forall D d f,
    match dep_is_older D d f with
    | None => is_external (dep_origin d) = false /\
              (D (dep_name d) = Inaccessible \/ ~ present D f)
    | Some true => is_external (dep_origin d) = true \/ directory D (dep_name d) \/ newer D f (dep_name d)
    | Some false => is_external (dep_origin d) = false /\ ~ directory D (dep_name d) /\ ~ newer D f (dep_name d)
    end.
Proof.
  intros D d f. unfold dep_is_older. destruct (is_external (dep_origin d)); auto.
  unfold is_directory_or_throw. destruct (D (dep_name d)) eqn:E.
  - pose proof (is_older_spec D (dep_name d) f) as H. destruct (is_older D (dep_name d) f) as [[]|]; auto; [|tauto].
    split; auto. split; [|tauto]. intros [t Ht]. congruence.
  - auto.
  - pose proof (is_older_spec D (dep_name d) f) as H. destruct (is_older D (dep_name d) f) as [[]|]; auto; [|tauto].
    split; auto. split; [|tauto]. intros [t' Ht]. congruence.
  - right. left. exists t. auto.
Qed.

Definition target_current (D : disk) (src : path) (deps : list dependency) (t : target_info) : Prop :=
  directory D (ti_name t) \/
  (newer D (ti_name t) src /\ forall q, compared D deps q -> newer D (ti_name t) q).

Lemma target_up_to_date_spec : forall D src deps t,
    match target_is_up_to_date D src deps t with
    | None => (~ present D src /\ ~ present D (ti_name t)) \/
              (exists d, In d deps /\ is_external (dep_origin d) = false /\ D (dep_name d) = Inaccessible)
    | Some true => target_current D src deps t
    | Some false => ~ target_current D src deps t
    end.
Proof.
  intros D src deps t. unfold target_is_up_to_date, target_current.
  destruct (is_directory D (ti_name t)) eqn:Ed; [left; apply is_directory_spec; auto|].
  assert (Hd : ~ directory D (ti_name t)) by (intro H; apply is_directory_spec in H; congruence).
  pose proof (is_older_spec D src (ti_name t)) as Ho. destruct (is_older D src (ti_name t)) as [[]|]; [|tauto|tauto].
  destruct (all_of _ deps) as [[]|] eqn:E.
  - rewrite all_of_true in E. right. split; auto. intros q (d & Hin & <- & He & Hnd).
    specialize (E d Hin). pose proof (dep_is_older_spec D d (ti_name t)) as H. rewrite E in H.
    destruct H as [H|[H|H]]; [congruence|tauto|auto].
  - apply all_of_false in E. destruct E as [d [Hin E]].
    pose proof (dep_is_older_spec D d (ti_name t)) as H. rewrite E in H. destruct H as (He & Hnd & Hnn).
    intros [H|[_ H]]; [tauto|]. apply Hnn. apply H. exists d. auto.
  - apply all_of_none in E. destruct E as [d [Hin E]].
    pose proof (dep_is_older_spec D d (ti_name t)) as H. rewrite E in H. destruct H as (He & [Hi|Hnp]).
    + right. eauto.
    + exfalso. apply Hnp. destruct Ho as (ta & Hta & _). exists ta. auto.
Qed.

Theorem up_to_date_spec : forall D src info deps,
    match is_up_to_date D src info deps with
    | None => undecidable D src (targets info) deps
    | Some true => up_to_date D src (targets info) deps
    | Some false => ~ up_to_date D src (targets info) deps
    end.
Proof.
  intros D src info deps. unfold is_up_to_date. destruct (all_of _ _) as [[]|] eqn:E.
  - rewrite all_of_true in E. intros t Ht. pose proof (target_up_to_date_spec D src deps t) as H.
    rewrite (E t Ht) in H. exact H.
  - apply all_of_false in E. destruct E as [t [Ht E]]. pose proof (target_up_to_date_spec D src deps t) as H.
    rewrite E in H. intro Hu. apply H. apply Hu. auto.
  - apply all_of_none in E. destruct E as [t [Ht E]]. pose proof (target_up_to_date_spec D src deps t) as H.
    rewrite E in H. destruct H as [[H1 H2]|H]; [left; eauto|right; auto].
Qed.

Theorem up_to_date_decided : forall D src info deps, ~ undecidable D src (targets info) deps ->
    exists b, is_up_to_date D src info deps = Some b /\ (b = true <-> up_to_date D src (targets info) deps).
Proof.
  intros D src info deps H. pose proof (up_to_date_spec D src info deps) as Hs.
  destruct (is_up_to_date D src info deps) as [[]|]; [| |tauto].
  - exists true. tauto.
  - exists false. split; auto. split; [discriminate|tauto].
Qed.

(** * Running a task *)

Section Run.
  Variable command world : Type.
  Variable disk_of : world -> disk.
  Variable invoke : command -> world -> world * option exit_status.

  Theorem run_task_spec : forall force src info deps c w w' cs o,
      run_task command world disk_of invoke force src info deps c w = (w', cs, o) ->
      let needed := force = true \/ si_policy info = Always \/
                    ~ up_to_date (disk_of w) src (targets info) deps in
      (cs = [] /\ w' = w /\
       ((o = Succeeds /\ ~ needed) \/
        (o = Throws /\ force = false /\ si_policy info <> Always /\
         undecidable (disk_of w) src (targets info) deps))) \/
      (cs = [c] /\ needed /\ w' = fst (invoke c w) /\
       (o = Succeeds <-> snd (invoke c w) = Some (ExitCode 0)) /\
       (o = Throws <-> snd (invoke c w) = None)).
  Proof.
    intros force src info deps c w w' cs o H. unfold run_task, needs_run in H. simpl.
    destruct (force || is_always (si_policy info)) eqn:Ef.
    - right. destruct (invoke c w) as [w1 [e|]]; inversion H; subst; simpl.
      + split; auto. split; [apply orb_prop in Ef; destruct Ef; auto; right; left; destruct (si_policy info); auto; discriminate|].
        split; auto. destruct e as [z|z]; simpl.
        * destruct (Z.eqb z 0) eqn:Ez; simpl.
          -- apply Z.eqb_eq in Ez. subst. split; split; congruence.
          -- apply Z.eqb_neq in Ez. split; split; intro; try congruence; try discriminate.
        * split; split; congruence.
      + split; auto. split; [apply orb_prop in Ef; destruct Ef; auto; right; left; destruct (si_policy info); auto; discriminate|].
        split; auto. split; split; congruence.
    - apply orb_false_elim in Ef. destruct Ef as [-> Ha].
      assert (Hpol : si_policy info <> Always) by (intro E; rewrite E in Ha; discriminate).
      pose proof (up_to_date_spec (disk_of w) src info deps) as Hs.
      destruct (is_up_to_date (disk_of w) src info deps) as [[]|]; simpl in H.
      + left. inversion H; subst. split; auto. split; auto. left. split; auto.
        intros [X|[X|X]]; [discriminate|tauto|tauto].
      + right. destruct (invoke c w) as [w1 [e|]]; inversion H; subst; simpl.
        * split; auto. split; auto. split; auto. destruct e as [z|z]; simpl.
          -- destruct (Z.eqb z 0) eqn:Ez; simpl.
             ++ apply Z.eqb_eq in Ez. subst. split; split; congruence.
             ++ apply Z.eqb_neq in Ez. split; split; intro; try congruence; try discriminate.
          -- split; split; congruence.
        * split; auto. split; auto. split; auto. split; split; congruence.
      + left. inversion H; subst. split; [reflexivity|]. split; [reflexivity|]. right. auto.
  Qed.
End Run.

Theorem dry_run_no_effect : forall command world run_process c w,
    local_execve command world run_process true c w = (w, Some (ExitCode 0)).
Proof. reflexivity. Qed.

Theorem dry_run_task : forall command world run_process disk_of force src info deps c w w' cs o,
    run_task command world disk_of (local_execve command world run_process true) force src info deps c w = (w', cs, o) ->
    w' = w /\ o <> Fails.
Proof.
  intros command world run_process disk_of force src info deps c w w' cs o H. unfold run_task in H.
  destruct (needs_run _ _ _ _ _) as [[]|]; simpl in H; inversion H; subst; split; auto; discriminate.
Qed.

(** * Building twice *)

Lemma up_to_date_same : forall D D' src ts deps,
    D' src = D src -> (forall d, In d deps -> D' (dep_name d) = D (dep_name d)) ->
    (forall t, In t ts -> D' (ti_name t) = D (ti_name t)) ->
    up_to_date D src ts deps -> up_to_date D' src ts deps.
Proof.
  intros D D' src ts deps Hs Hd Ht H t Hin. specialize (H t Hin). unfold compared, directory, newer, stamped in *.
  rewrite (Ht t Hin). destruct H as [H|[Hn Hc]]; [left; auto|right]. split.
  - destruct Hn as (ta & Hta & Hall). exists ta. split; auto. intros tb. rewrite Hs. auto.
  - intros q (d & Hd1 & <- & He & Hnd). rewrite (Hd d Hd1) in Hnd.
    destruct (Hc (dep_name d)) as (ta & Hta & Hall); [exists d; auto|].
    exists ta. split; auto. intros tb. rewrite (Hd d Hd1). auto.
Qed.

Section Twice.
  Variables fs g : file_list.
  Hypothesis Hload : loaded fs g.
  Hypothesis Hnames : proper_names fs g.

  Lemma graph_facts : project_graph fs g /\ NoDup (map fst (declared_targets fs)).
  Proof.
    destruct Hload as (Hscan & [ts Hl] & _).
    destruct (load_project_graph fs Hscan) as [[_ [n [Hx _]]]|[Hnd [[_ Hx]|[_ [[_ Hx]|[_ Hx]]]]]]; try congruence.
    destruct Hx as (ts' & g' & Heq & _ & _ & Hg). rewrite Hl in Heq. inversion Heq; subst. split; auto.
  Qed.

  Lemma node_numbered : forall v p info, nth_error g v = Some (p, info) -> numbered g v p.
  Proof. intros v p info H. unfold numbered. rewrite nth_error_map, H. reflexivity. Qed.

  Lemma numbered_same : forall u v p, numbered g u p -> numbered g v p -> u = v.
  Proof.
    intros u v p Hu Hv. destruct graph_facts as [(Hs & _) _]. eapply numbered_inj; eauto.
  Qed.

  (** The source file of a target. *)
  Lemma target_source : forall u q, target_of g u q ->
      exists p info t, numbered g u p /\ In (p, info) fs /\ In t (targets info) /\ ti_name t = q /\ builds g p /\
        (q = p \/ (generated fs q (mk_target p t) /\ file_depends g q p)).
  Proof.
    intros u q (p & info' & t & Hnth & Ht & Hq). destruct graph_facts as [(Hs & Hk & Hr & Hsrc & Hgen & Hoth) Hnd].
    assert (Hb : builds g p).
    { exists info'. split; [eapply nth_error_In; eauto|]. intro E. rewrite E in Ht. destruct Ht. }
    pose proof Hb as Hb'. apply (builds_sources _ _ Hload) in Hb'. destruct Hb' as [info [Hin Hne]].
    destruct (Hsrc p info Hin) as [i2 [Hin2 (Hkt & _)]].
    assert (i2 = info') by (eapply sorted_in_unique; [exact Hs|exact Hin2|eapply nth_error_In; eauto]). subst i2.
    rewrite Hkt in Ht.
    exists p, info, t. split; [eapply node_numbered; eauto|]. split; auto. split; auto. split; auto. split; auto.
    destruct (proj2 Hnames p info t Hin Ht) as [Hnorm [He|Hno]]; [left; congruence|right].
    assert (Hgen1 : generated fs q (mk_target p t)).
    { split; [|congruence]. apply declared_targets_spec. subst q.
      assert (p <> ti_name t) by (intro E; apply Hno; rewrite <- E; apply in_map_iff; exists (p, info); auto).
      exists info. simpl. repeat split; auto. }
    split; auto. destruct (Hgen q _ Hgen1) as [i' [Hi' (_ & _ & Hbd & _)]].
    assert (Hx : exists d, In d (build_deps i') /\ dep_name d = p).
    { destruct (build_deps i') as [|d l]; simpl in Hbd; [discriminate|]. inversion Hbd. exists d. simpl. auto. }
    destruct Hx as [d [Hd Hdn]]. split.
    - exists u. eapply node_numbered; eauto.
    - exists d. split; auto. exists i'. auto.
  Qed.

  Lemma target_owner : forall u v q, target_of g u q -> target_of g v q -> u = v.
  Proof.
    intros u v q Hu Hv. pose proof graph_facts as [_ Hnd].
    destruct (target_source u q Hu) as (p & i & t & Hup & Hin & Ht & Hq & _ & Hc).
    destruct (target_source v q Hv) as (p' & i' & t' & Hvp & Hin' & Ht' & Hq' & _ & Hc').
    assert (Hk : forall p i, In (p, i) fs -> In p (map fst fs)) by (intros p0 i0 H0; apply in_map_iff; exists (p0, i0); auto).
    destruct Hc as [Hc|[[Hc1 Hc2] _]]; destruct Hc' as [Hc'|[[Hc1' Hc2'] _]].
    - assert (E : p' = p) by congruence. rewrite E in Hvp. eapply numbered_same; eauto.
    - exfalso. apply Hc2'. rewrite Hc. eauto.
    - exfalso. apply Hc2. rewrite Hc'. eauto.
    - assert (E : mk_target p t = mk_target p' t') by (eapply declared_target_unique; eauto).
      inversion E; subst. eapply numbered_same; eauto.
  Qed.

  Variable rs : list task_result.
  Variable tasks : list nat.
  Hypothesis Htl : task_list g rs tasks.

  Lemma deps_needed : forall v p d, In v tasks -> numbered g v p -> In d (task_use_deps g v) ->
      file_needs g p (dep_name d).
  Proof.
    intros v p d Hv Hvp Hd. destruct (task_list_facts _ _ Hload _ _ Htl) as (_ & _ & Hreads).
    destruct (loaded_project _ _ Hload) as (fs0 & Hp & Hg & Hr).
    unfold task_use_deps in Hd.
    destruct (use_deps_recursive_spec false fs0 g v p (project_sorted _ Hp) (project_unresolved _ Hp) Hg)
      as [[_ E]|[_ (ds & E & _ & Hds & _)]]; [apply (same_numbered fs0 g Hr); auto| |]; rewrite E in Hd; [destruct Hd|].
    assert (Hx : In (dep_name d) (map dep_name ds)) by (apply in_map; auto). apply Hds in Hx.
    apply (same_needs fs0 g Hr). split; tauto.
  Qed.

  (** A file that is looked at for [v] is not written by other tasks, except for
      those that [v] waits for. *)
  Lemma reads_apart : forall v p info u q, In v tasks -> nth_error g v = Some (p, info) -> u <> v ->
      (q = p \/ (exists d, In d (task_use_deps g v) /\ dep_name d = q) \/ (exists t, In t (targets info) /\ ti_name t = q)) ->
      target_of g u q -> exists pu, numbered g u pu /\ builds g pu /\ file_needs g p pu.
  Proof.
    intros v p info u q Hv Hnth Hne Hq Hu.
    destruct (target_source u q Hu) as (pu & iu & t & Hup & Hin & Ht & Htq & Hb & Hc).
    assert (Hvp : numbered g v p) by (eapply node_numbered; eauto).
    assert (Hnp : pu <> p) by (intro E; subst; apply Hne; eapply numbered_same; eauto).
    assert (Hsrcp : In p (map fst fs)).
    { destruct (task_list_facts _ _ Hload _ _ Htl) as (_ & Hbl & _). destruct (Hbl v Hv) as [p' [Hp' Hb']].
      assert (p' = p) by (unfold numbered in *; congruence). subst p'.
      apply (builds_sources _ _ Hload) in Hb'. destruct Hb' as [i0 [Hi0 _]]. apply in_map_iff. exists (p, i0). auto. }
    exists pu. split; auto. split; auto.
    destruct Hq as [->|[[d [Hd Hdq]]|[t' [Ht' Htq']]]].
    - destruct Hc as [Hc|[[_ Hno] _]]; [congruence|tauto].
    - pose proof (deps_needed v p d Hv Hvp Hd) as Hn. rewrite Hdq in Hn.
      destruct Hc as [Hc|[_ Hdep]]; [rewrite <- Hc; auto|].
      split; auto. destruct Hn as [Hn _]. clear - Hn Hdep. induction Hn.
      + eapply reach_step; [exact Hdep|constructor].
      + eapply reach_step; eauto.
    - exfalso. apply Hne. apply (target_owner u v q); auto. exists p, info, t'. auto.
  Qed.

  (** What [u] does has no effect on [v], unless [v] waits for it. *)
  Lemma current_same : forall D D' u v, In v tasks -> u <> v ->
      (forall q, ~ target_of g u q -> D' q = D q) ->
      ~ (exists p pu, numbered g v p /\ numbered g u pu /\ builds g pu /\ file_needs g p pu) ->
      current g D v -> current g D' v.
  Proof.
    intros D D' u v Hv Hne Hch Hno (p & info & Hnth & Hup). exists p, info. split; auto.
    assert (Hvp : numbered g v p) by (eapply node_numbered; eauto).
    assert (Heq : forall q, (q = p \/ (exists d, In d (task_use_deps g v) /\ dep_name d = q) \/
                             (exists t, In t (targets info) /\ ti_name t = q)) -> D' q = D q).
    { intros q Hq. apply Hch. intro Htu.
      destruct (reads_apart v p info u q Hv Hnth Hne Hq Htu) as (pu & Hpu & Hb & Hn).
      apply Hno. exists p, pu. auto. }
    eapply up_to_date_same; [| | |exact Hup]; eauto 8.
  Qed.

  (** ** Facts about traces *)

  Record orderly (tr : list label) : Prop := mk_orderly {
    orderly_once : NoDup (started tr);
    orderly_tasks : forall v, In v (started tr) -> In v tasks;
    orderly_ready : forall tr1 v tr2 p, tr = tr1 ++ Start v :: tr2 -> numbered g v p ->
        forall d q, numbered g d q -> file_needs g p q -> builds g q -> In (Finish d Succeeds) tr1
  }.

  Lemma orderly_prefix : forall tr tr', orderly (tr ++ tr') -> orderly tr.
  Proof.
    intros tr tr' [H1 H2 H3]. rewrite started_app in *. constructor.
    - apply NoDup_app_l in H1. auto.
    - intros v Hv. apply H2. apply in_or_app. auto.
    - intros tr1 v tr2 p Heq. apply (H3 tr1 v (tr2 ++ tr')). rewrite Heq, <- app_assoc. reflexivity.
  Qed.

  Lemma run_orderly : forall ws cs tr s, idle_pool ws ->
      run (task_reads g) cs (init rs tasks ws) = Some (tr, s) -> orderly tr.
  Proof.
    intros ws cs tr s Hws Hrun. destruct (task_list_facts _ _ Hload _ _ Htl) as (Hsetup & _).
    pose proof (run_exec _ _ _ _ _ Hrun) as E.
    destruct (started_tasks _ _ _ _ Hsetup Hws _ _ E) as [H1 H2]. constructor; auto.
    exact (project_started_ready fs g Hload rs tasks Htl ws Hws cs tr s Hrun).
  Qed.

  Lemma decided : forall force D0 tr D dec, building g force D0 tr D dec -> map fst dec = rev (started tr).
  Proof.
    intros force D0 tr D dec H. induction H; simpl; auto; rewrite ?started_app, ?rev_app_distr, IHbuilding; simpl; rewrite ?app_nil_r; auto.
  Qed.

  Lemma decision_unique : forall force D0 tr D dec v a b, building g force D0 tr D dec -> NoDup (started tr) ->
      In (v, a) dec -> In (v, b) dec -> a = b.
  Proof.
    intros force D0 tr D dec v a b H Hn Ha Hb. assert (Hnd : NoDup (map fst dec)).
    { rewrite (decided _ _ _ _ _ H). apply NoDup_rev. auto. }
    clear - Ha Hb Hnd. induction dec as [|[x y] dec IH]; [destruct Ha|]. simpl in Hnd. inversion Hnd; subst.
    destruct Ha as [Ha|Ha], Hb as [Hb|Hb].
    - congruence.
    - inversion Ha; subst. exfalso. apply H1. apply in_map_iff. exists (v, b). auto.
    - inversion Hb; subst. exfalso. apply H1. apply in_map_iff. exists (v, a). auto.
    - auto.
  Qed.

  Lemma invoked_started : forall force D0 tr D dec v b, building g force D0 tr D dec -> In (v, b) dec -> In (Start v) tr.
  Proof.
    intros force D0 tr D dec v b H Hin. apply started_in. apply in_rev. rewrite <- (decided _ _ _ _ _ H).
    apply in_map_iff. exists (v, b). auto.
  Qed.

  Lemma started_decided : forall force D0 tr D dec v, building g force D0 tr D dec -> In (Start v) tr ->
      exists b, In (v, b) dec.
  Proof.
    intros force D0 tr D dec v H Hin. apply started_in in Hin. apply in_rev in Hin.
    rewrite <- (decided _ _ _ _ _ H) in Hin. apply in_map_iff in Hin. destruct Hin as [[a b] [Ha Hb]].
    simpl in Ha. subst. eauto.
  Qed.

  Lemma not_needed_current : forall D force v, task_needs_run g D force v = Some false -> current g D v.
  Proof.
    intros D force v H. unfold task_needs_run in H. destruct (nth_error g v) as [[p info]|] eqn:E; [|discriminate].
    unfold needs_run in H. destruct (force || _); [discriminate|].
    exists p, info. split; auto. pose proof (up_to_date_spec D p info (task_use_deps g v)) as Hs.
    destruct (is_up_to_date D p info (task_use_deps g v)) as [[]|]; simpl in H; try discriminate. auto.
  Qed.

  Lemma current_not_needed : forall D v, current g D v -> ~ always_rebuilt g v ->
      task_needs_run g D false v <> Some true.
  Proof.
    intros D v (p & info & E & Hup) Ha. unfold task_needs_run. rewrite E. unfold needs_run. simpl.
    destruct (is_always (si_policy info)) eqn:Ep.
    - exfalso. apply Ha. exists p, info. split; auto. destruct (si_policy info); auto; discriminate.
    - pose proof (up_to_date_spec D p info (task_use_deps g v)) as Hs.
      destruct (is_up_to_date D p info (task_use_deps g v)) as [[]|]; simpl; congruence.
  Qed.

  (** ** The first build *)

  Definition settled (tr : list label) (dec : list (nat * option bool)) (v : nat) : Prop :=
    In (Finish v Succeeds) tr \/ In (v, Some false) dec.

  Lemma built_current : forall force D0 tr D dec, building g force D0 tr D dec -> orderly tr ->
      forall v, In v tasks -> settled tr dec v -> current g D v.
  Proof.
    intros force D0 tr D dec H. induction H; intros Ho w Hw Hset.
    - destruct Hset as [[]|[]].
    - apply IHbuilding; auto; [eapply orderly_prefix; eauto|].
      destruct Hset as [Hf|Hf]; [left|right; auto]. apply in_app_or in Hf. destruct Hf as [Hf|[Hf|[]]]; auto; discriminate.
    - destruct Hset as [Hf|[Hf|Hf]].
      + apply IHbuilding; auto; [eapply orderly_prefix; eauto|]. left.
        apply in_app_or in Hf. destruct Hf as [Hf|[Hf|[]]]; auto; discriminate.
      + inversion Hf; subst. eapply not_needed_current; eauto.
      + apply IHbuilding; auto; [eapply orderly_prefix; eauto|]. right. auto.
    - assert (Hne : v <> w).
      { intros ->. destruct Hset as [Hf|Hf].
        - destruct H1 as [_ H1]. eapply H1; eauto.
        - assert (E : Some true = Some false) by (eapply decision_unique; eauto; apply Ho). discriminate. }
      eapply (current_same D D' v w); auto.
      intros (p & pu & Hwp & Hup & Hb & Hn).
      assert (Hst : In (Start w) tr).
      { destruct Hset as [Hf|Hf].
        - assert (Hc : current g D w) by (apply IHbuilding; auto; left; auto).
          clear IHbuilding. (* finished implies started *)
          revert Hf. clear - H. intro Hf. induction H; [destruct Hf| | | |].
          + apply in_or_app. left. apply IHbuilding. apply in_app_or in Hf. destruct Hf as [Hf|[Hf|[]]]; auto; discriminate.
          + apply in_or_app. left. apply IHbuilding. apply in_app_or in Hf. destruct Hf as [Hf|[Hf|[]]]; auto; discriminate.
          + auto.
          + apply in_or_app. left. apply in_app_or in Hf. destruct Hf as [Hf|[Hf|[]]]; auto.
            inversion Hf; subst. destruct H0; auto.
        - eapply invoked_started; eauto. }
      apply in_split in Hst. destruct Hst as (tr1 & tr2 & Heq).
      pose proof (orderly_ready _ Ho tr1 w tr2 p Heq Hwp v pu Hup Hn Hb) as Hfin.
      destruct H1 as [_ H1]. apply (H1 Succeeds). rewrite Heq. apply in_or_app. auto.
    - assert (Ho' : orderly tr) by (eapply orderly_prefix; eauto).
      destruct Hset as [Hf|Hf]; [|apply IHbuilding; auto; right; auto].
      apply in_app_or in Hf. destruct Hf as [Hf|[Hf|[]]]; [apply IHbuilding; auto; left; auto|].
      inversion Hf; subst. destruct (started_decided _ _ _ _ _ w H (proj1 H0)) as [[[]|] Hb].
      + auto.
      + apply IHbuilding; auto. right. auto.
      + exfalso. apply H2; auto.
  Qed.

  (** ** The second build *)

  Section Second.
    Variable dirty : nat -> Prop.
    Hypothesis dirty_always : forall v, In v tasks -> always_rebuilt g v -> dirty v.
    Hypothesis dirty_needs : forall v u p q, In v tasks -> In u tasks -> numbered g v p -> numbered g u q ->
        file_needs g p q -> dirty u -> dirty v.

    Lemma clean_untouched : forall D0 tr D dec, building g false D0 tr D dec ->
        (forall v, In v (started tr) -> In v tasks) ->
        (forall v, In v tasks -> ~ dirty v -> current g D0 v) ->
        forall v, In v tasks -> ~ dirty v -> current g D v /\ ~ invoked dec v.
    Proof.
      intros D0 tr D dec H. induction H; intros Hst H0' w Hw Hnd.
      - split; auto.
      - rewrite started_app in Hst. simpl in Hst. rewrite app_nil_r in Hst. auto.
      - rewrite started_app in Hst. simpl in Hst.
        assert (Hst' : forall x, In x (started tr) -> In x tasks) by (intros; apply Hst; apply in_or_app; auto).
        destruct (IHbuilding Hst' H0' w Hw Hnd) as [Hc Hi]. split; auto.
        intros [E|E]; [|auto]. inversion E; subst. revert H2. apply current_not_needed; auto.
      - destruct (IHbuilding Hst H0' w Hw Hnd) as [Hc Hi]. split; auto.
        assert (Hv : In v tasks) by (apply Hst; apply started_in; eapply invoked_started; eauto).
        assert (Hne : v <> w) by (intros ->; auto).
        eapply (current_same D D' v w); auto.
        intros (p & pu & Hwp & Hup & Hb & Hn). apply Hnd.
        assert (Hdv : ~ ~ dirty v) by (intro Hx; destruct (IHbuilding Hst H0' v Hv Hx) as [_ Hy]; auto).
        exfalso. apply Hdv. intro Hdv'. apply Hnd. eapply dirty_needs; eauto.
      - rewrite started_app in Hst. simpl in Hst. rewrite app_nil_r in Hst. auto.
    Qed.
  End Second.

  (** ** Completeness *)

  Lemma own_targets : forall force D0 tr D dec, building g force D0 tr D dec -> forall v q,
      target_of g v q -> ~ invoked dec v -> D q = D0 q.
  Proof.
    intros force D0 tr D dec H. induction H; intros w q Hq Hi; auto.
    - eapply IHbuilding; eauto.
    - apply (IHbuilding w q Hq). intro. apply Hi. unfold invoked. simpl. auto.
    - rewrite <- (IHbuilding w q Hq Hi). apply H2. intro Hv. apply Hi.
      rewrite <- (target_owner v w q Hv Hq). auto.
    - eapply IHbuilding; eauto.
  Qed.

  Lemma unbuilt_same : forall force D0 tr D dec, building g force D0 tr D dec -> forall q,
      (forall u, ~ target_of g u q) -> D q = D0 q.
  Proof.
    intros force D0 tr D dec H. induction H; intros q Hq; auto.
    rewrite <- (IHbuilding q Hq). auto.
  Qed.

  Definition stale (D : disk) (v : nat) : Prop :=
    exists p info t, nth_error g v = Some (p, info) /\ In t (targets info) /\
      (D (ti_name t) = Missing \/
       exists x tt tx, (x = p \/ compared D (task_use_deps g v) x) /\ (forall u, ~ target_of g u x) /\
         D (ti_name t) = PlainFile tt /\ stamped D x tx /\ (tt <= tx)%Z).

  Lemma outdated_invoked : forall force D0 tr D dec, building g force D0 tr D dec -> NoDup (started tr) ->
      forall v, stale D0 v -> In (Finish v Succeeds) tr -> invoked dec v.
  Proof.
    intros force D0 tr D dec H Hn v Hout Hfin.
    assert (Hst : In (v, Some true) dec \/ In (v, Some false) dec).
    { clear - H Hfin. induction H.
      - destruct Hfin.
      - apply IHbuilding. apply in_app_or in Hfin. destruct Hfin as [Hf|[Hf|[]]]; auto; discriminate.
      - apply in_app_or in Hfin. destruct Hfin as [Hf|[Hf|[]]]; [|discriminate].
        destruct (IHbuilding Hf); [left|right]; right; auto.
      - auto.
      - apply in_app_or in Hfin. destruct Hfin as [Hf|[Hf|[]]]; auto. inversion Hf; subst.
        destruct (started_decided _ _ _ _ _ v H (proj1 H0)) as [[[]|] Hb]; auto.
        exfalso. apply H2; auto. }
    destruct Hst as [|Hst]; auto. exfalso. clear Hfin.
    (* the decision was wrong *)
    induction H.
    - destruct Hst.
    - rewrite started_app in Hn. simpl in Hn. rewrite app_nil_r in Hn. auto.
    - rewrite started_app in Hn. pose proof (NoDup_app_l _ _ _ Hn) as Hn'.
      destruct Hst as [E|E]; [|auto]. inversion E; subst.
      assert (Hni : ~ invoked dec v).
      { intro Hi. pose proof (invoked_started _ _ _ _ _ _ _ H Hi) as Hs. apply started_in in Hs.
        simpl in Hn. apply NoDup_remove_2 in Hn. apply Hn. rewrite app_nil_r. auto. }
      destruct (not_needed_current _ _ _ H2) as (p & info & Hnth & Hup).
      destruct Hout as (p' & info' & t & Hnth' & Ht & Hcase). rewrite Hnth in Hnth'. inversion Hnth'; subst p' info'.
      assert (Htt : D (ti_name t) = D0 (ti_name t)).
      { eapply own_targets; eauto. exists p, info, t. auto. }
      specialize (Hup t Ht). unfold directory, newer, stamped in Hup. rewrite Htt in Hup.
      destruct Hcase as [Hm|(x & tt & tx & Hx & Hu & Hpt & Hsx & Hle)].
      + rewrite Hm in Hup. destruct Hup as [[t0 Hd]|[[ta [[Hta|Hta] _]] _]]; discriminate.
      + assert (Hxx : D x = D0 x) by (eapply unbuilt_same; eauto).
        rewrite Hpt in Hup. destruct Hup as [[t0 Hd]|[Hs Hc]]; [discriminate|].
        assert (Hnew : newer D (ti_name t) x).
        { destruct Hx as [->|Hx].
          - unfold newer, stamped. rewrite Htt, Hpt. exact Hs.
          - destruct Hx as (d & Hd1 & Hd2 & Hd3 & Hd4).
            destruct (Hc x) as (ta & Hta & Hall).
            + exists d. repeat split; auto. unfold directory in *. rewrite Hxx. auto.
            + exists ta. unfold stamped. rewrite Htt, Hpt. split; auto. }
        destruct Hnew as (ta & Hta & Hall). unfold stamped in *. rewrite Htt, Hpt in Hta. rewrite Hxx in Hall.
        assert (ta = tt) by (destruct Hta as [E'|E']; inversion E'; auto). subst.
        specialize (Hall tx Hsx). lia.
    - auto.
    - rewrite started_app in Hn. simpl in Hn. rewrite app_nil_r in Hn. auto.
  Qed.
End Twice.

Lemma nothing_invoked : forall g force D0 tr D dec, building g force D0 tr D dec ->
    (forall v, ~ invoked dec v) -> forall q, D q = D0 q.
Proof.
  intros g force D0 tr D dec H. induction H; intros Hn q; auto.
  - apply IHbuilding. intros w Hw. apply (Hn w). unfold invoked. simpl. auto.
  - exfalso. eapply Hn; eauto.
Qed.

Lemma forced_invoked : forall g D0 tr D dec, building g true D0 tr D dec -> forall v, In (Start v) tr ->
    v < length g -> invoked dec v.
Proof.
  intros g D0 tr D dec H. induction H; intros w Hw Hl.
  - destruct Hw.
  - apply in_app_or in Hw. destruct Hw as [Hw|[Hw|[]]]; [auto|discriminate].
  - apply in_app_or in Hw. destruct Hw as [Hw|[Hw|[]]]; [right; apply IHbuilding; auto|]. inversion Hw; subst.
    left. unfold task_needs_run. destruct (nth_error g w) as [[p info]|] eqn:E; auto.
    apply nth_error_None in E. lia.
  - auto.
  - apply in_app_or in Hw. destruct Hw as [Hw|[Hw|[]]]; [auto|discriminate].
Qed.

Section Results.
  Variables fs g : file_list.
  Hypothesis Hload : loaded fs g.
  Hypothesis Hnames : proper_names fs g.
  Variable rs : list task_result.
  Variable tasks : list nat.
  Hypothesis Htl : task_list g rs tasks.

  Lemma tasks_acyclic : forall v p, In v tasks -> numbered g v p ->
      ~ exists q, file_reachable g p q /\ file_on_cycle g q.
  Proof.
    intros v p Hv Hvp. destruct Htl as [H|[src [Hk H]]].
    - destruct (make_task_list_spec _ _ Hload) as [[_ Hx]|[Hno _]]; [congruence|].
      intros [q [_ Hq]]. apply Hno. eauto.
    - destruct (make_target_task_list_spec _ _ Hload src Hk) as [[_ Hx]|[Hno (rs' & tasks' & Hx & _ & H2 & _)]]; [congruence|].
      rewrite H in Hx. inversion Hx; subst. apply (H2 v p Hvp) in Hv. destruct Hv as [_ Hr].
      intros [q [Hq Hc]]. apply Hno. exists q. split; auto. clear - Hr Hq. induction Hr; auto. eapply reach_step; eauto.
  Qed.

  Lemma needs_compared : forall D v p q, In v tasks -> numbered g v p ->
      file_needs g p q -> internal g q -> ~ directory D q -> compared D (task_use_deps g v) q.
  Proof.
    intros D v p q Hv Hvp Hq Hint Hnd.
    pose proof (tasks_acyclic v p Hv Hvp) as Hac.
    assert (Hkq : known g q).
    { destruct Hq as [Hq Hne]. eapply reach_known; eauto. exists v. auto. }
    assert (Hne : ~ known g empty_path) by apply Hload.
    destruct (loaded_project _ _ Hload) as (fs0 & Hp & Hg & Hr).
    destruct (use_deps_recursive_spec false fs0 g v p (project_sorted _ Hp) (project_unresolved _ Hp) Hg)
      as [[[c [Hc1 Hc2]] _]|[_ (ds & E & _ & Hds & _ & Hdd & _)]]; [apply (same_numbered fs0 g Hr); auto| |].
    - exfalso. apply Hac. exists c. rewrite (same_reachable fs0 g Hr), (same_cycle fs0 g Hr). auto.
    - unfold task_use_deps. rewrite E.
      assert (Hx : In q (map dep_name ds)).
      { apply Hds. apply (same_needs fs0 g Hr) in Hq. destruct Hq. split; auto. split; auto.
        intros ->. auto. }
      apply in_map_iff in Hx. destruct Hx as [d [Hdn Hd]]. exists d. split; auto. split; auto. split; auto.
      destruct (Hdd d Hd) as (q0 & d0 & _ & Hdecl & (Hn1 & Ho & _)).
      destruct Hdecl as (i0 & Hin0 & Hd0).
      destruct (Forall2_in_l _ _ _ _ _ _ Hr Hin0) as [[p1 i1] [Hin1 (Hp1 & Hu1 & Hb1 & _)]]. simpl in *. subst p1.
      assert (Hd1 : exists d1, (In d1 (use_deps i1) \/ In d1 (build_deps i1)) /\ dependency_resolved fs0 d0 d1).
      { destruct Hd0 as [Hd0|Hd0].
        - destruct (Forall2_in_l _ _ _ _ _ _ Hu1 Hd0) as [d1 [H1 H2]]. eauto.
        - destruct (Forall2_in_l _ _ _ _ _ _ Hb1 Hd0) as [d1 [H1 H2]]. eauto. }
      destruct Hd1 as [d1 [Hd1 (Hn2 & Ho2 & _)]]. rewrite Ho, <- Ho2. apply Hint; [|congruence].
      exists q0, i1. auto.
  Qed.

  Theorem project_up_to_date : forall D v p info, In v tasks -> nth_error g v = Some (p, info) ->
      current g D v -> forall t, In t (targets info) ->
      directory D (ti_name t) \/
      (newer D (ti_name t) p /\
       forall q, file_needs g p q -> internal g q -> ~ directory D q -> newer D (ti_name t) q).
  Proof.
    intros D v p info Hv Hnth (p' & info' & Hnth' & Hup) t Ht. rewrite Hnth in Hnth'. inversion Hnth'; subst p' info'.
    destruct (Hup t Ht) as [H|[Hn Hc]]; auto. right. split; auto.
    intros q Hq Hint Hnd. apply Hc. eapply needs_compared; eauto. eapply node_numbered; eauto.
  Qed.

  Variables ws1 ws2 : list worker.
  Hypothesis Hws1 : idle_pool ws1.
  Hypothesis Hws2 : idle_pool ws2.

  Theorem built_all_current : forall force cs tr s n D0 D dec,
      run (task_reads g) cs (init rs tasks ws1) = Some (tr, s) -> ph s = Returned n ->
      building g force D0 tr D dec -> forall v, In v tasks -> current g D v.
  Proof.
    intros force cs tr s n D0 D dec Hrun Hph Hb v Hv.
    eapply (built_current fs g Hload Hnames rs tasks Htl); eauto.
    - exact (run_orderly fs g Hload rs tasks Htl ws1 cs tr s Hws1 Hrun).
    - left. destruct (task_list_facts _ _ Hload _ _ Htl) as (Hsetup & _).
      destruct (returned_all _ _ _ _ Hsetup Hws1 _ _ _ (run_exec _ _ _ _ _ Hrun) Hph) as (_ & _ & H). auto.
  Qed.

  Lemma always_dec : forall v, always_rebuilt g v \/ ~ always_rebuilt g v.
  Proof.
    intro v. unfold always_rebuilt. destruct (nth_error g v) as [[p info]|] eqn:E.
    - destruct (si_policy info) eqn:Ep; [left; eauto|]. right. intros (p' & i' & H & H'). inversion H; subst. congruence.
    - right. intros (p' & i' & H & _). discriminate.
  Qed.

  Lemma exists_in_dec : forall (P : nat -> Prop), (forall u, P u \/ ~ P u) -> forall l,
      (exists u, In u l /\ P u) \/ ~ (exists u, In u l /\ P u).
  Proof.
    intros P HP. induction l as [|x l [[u [Hu H]]|IH]].
    - right. intros [u [[] _]].
    - left. exists u. simpl. auto.
    - destruct (HP x) as [Hx|Hx]; [left; exists x; simpl; auto|].
      right. intros [u [[<-|Hu] H]]; [auto|]. apply IH. eauto.
  Qed.

  Lemma needs_dec : forall (P : nat -> Prop), (forall u, P u \/ ~ P u) -> forall v, In v tasks ->
      (exists p u q, numbered g v p /\ numbered g u q /\ P u /\ file_needs g p q) \/
      ~ (exists p u q, numbered g v p /\ numbered g u q /\ P u /\ file_needs g p q).
  Proof.
    intros P HP v Hv. destruct (task_list_facts _ _ Hload _ _ Htl) as (_ & Hbl & Hreads).
    destruct (Hbl v Hv) as [p [Hvp _]]. specialize (Hreads v p Hv Hvp).
    destruct (exists_in_dec P HP (task_reads g v)) as [[u [Hu H]]|H].
    - left. apply Hreads in Hu. destruct Hu as [q [Hq Hn]]. exists p, u, q. auto.
    - right. intros (p' & u & q & Hp' & Hq & HPu & Hn). assert (p' = p) by (unfold numbered in *; congruence). subst.
      apply H. exists u. split; auto. apply Hreads. eauto.
  Qed.

  Lemma needs_trans : forall p q r, file_needs g p q -> file_needs g q r -> r <> p -> file_needs g p r.
  Proof.
    intros p q r [H _] [H' _] Hn. split; auto. clear Hn. induction H; auto. eapply reach_step; eauto.
  Qed.

  Lemma builds_dec : forall u, (exists q, numbered g u q /\ builds g q) \/ ~ (exists q, numbered g u q /\ builds g q).
  Proof.
    intro u. destruct (nth_error g u) as [[q info]|] eqn:E.
    - assert (Hq : numbered g u q) by (eapply node_numbered; eauto).
      destruct (targets info) as [|t l] eqn:Et.
      + right. intros (q' & Hq' & (i' & Hin & Hne)).
        assert (q' = q) by (unfold numbered in *; congruence). subst.
        pose proof (proj1 (proj1 (graph_facts fs g Hload Hnames))) as Hs.
        assert (i' = info) by (eapply sorted_in_unique; [exact Hs|exact Hin|eapply nth_error_In; eauto]). congruence.
      + left. exists q. split; auto. exists info. split; [eapply nth_error_In; eauto|congruence].
    - right. intros (q & Hq & _). unfold numbered in Hq. rewrite nth_error_map, E in Hq. discriminate.
  Qed.

  Lemma affected_dec : forall v, In v tasks -> affected_by_policy g v \/ ~ affected_by_policy g v.
  Proof.
    intros v Hv. unfold affected_by_policy. destruct (always_dec v) as [H|H]; auto.
    destruct (needs_dec (fun u => always_rebuilt g u /\ exists q, numbered g u q /\ builds g q)) with (v := v)
      as [(p & u & q & H1 & H2 & [H3 (q' & H4 & H5)] & H6)|Hn]; auto.
    - intro u. destruct (always_dec u), (builds_dec u); tauto.
    - left. right. assert (q' = q) by (unfold numbered in *; congruence). subst. exists p, u, q. auto.
    - right. intros [Ha|(p & u & q & H1 & H2 & H3 & H4 & H5)]; [auto|].
      apply Hn. exists p, u, q. repeat split; eauto; apply H5.
  Qed.

  Lemma affected_needs : forall v u p q, In u tasks -> numbered g v p -> numbered g u q ->
      file_needs g p q -> affected_by_policy g u -> affected_by_policy g v.
  Proof.
    intros v u p q Hut Hv Hu Hn [Ha|(q' & w & r & Hq' & Hw & Ha & Hb & Hn')].
    - right. exists p, u, q. repeat split; auto; try apply Hn.
      destruct (task_list_facts _ _ Hload _ _ Htl) as (_ & Hbl & _). destruct (Hbl u Hut) as [q' [Hq' Hb]].
      assert (q' = q) by (unfold numbered in *; congruence). subst. auto.
    - assert (q' = q) by (unfold numbered in *; congruence). subst q'.
      destruct (Path.path_eqb r p) eqn:E.
      + apply path_eqb_eq in E. subst r. left.
        assert (w = v) by (eapply numbered_same; eauto). subst. auto.
      + right. exists p, w, r. split; auto. split; auto. split; auto. split; auto. eapply needs_trans; eauto.
        apply path_eqb_neq. auto.
  Qed.

  Theorem rebuild_nothing : forall D0 cs2 tr2 s2 D2 dec2,
      (forall v, In v tasks -> current g D0 v) ->
      run (task_reads g) cs2 (init rs tasks ws2) = Some (tr2, s2) ->
      building g false D0 tr2 D2 dec2 ->
      (forall v, invoked dec2 v -> affected_by_policy g v) /\
      ((forall v, In v tasks -> ~ always_rebuilt g v) -> (forall v, ~ invoked dec2 v) /\ forall q, D2 q = D0 q).
  Proof.
    intros D0 cs2 tr2 s2 D2 dec2 Hcur Hrun Hb.
    pose proof (run_orderly fs g Hload rs tasks Htl ws2 cs2 tr2 s2 Hws2 Hrun) as Ho.
    assert (Hin : forall v, invoked dec2 v -> In v tasks).
    { intros v Hv. apply (orderly_tasks _ _ _ Ho). apply started_in. eapply invoked_started; eauto. }
    assert (H1 : forall v, invoked dec2 v -> affected_by_policy g v).
    { intros v Hv. destruct (affected_dec v (Hin v Hv)) as [H|H]; auto. exfalso.
      destruct (clean_untouched fs g Hload Hnames rs tasks Htl (affected_by_policy g)
                  (fun v _ H => or_introl H)
                  (fun v u p q _ Hu => affected_needs v u p q Hu)
                  D0 tr2 D2 dec2 Hb (orderly_tasks _ _ _ Ho) (fun v Hv _ => Hcur v Hv) v (Hin v Hv) H) as [_ Hx]. auto. }
    split; auto. intro Hna.
    assert (H2 : forall v, ~ invoked dec2 v).
    { intros v Hv. destruct (H1 v Hv) as [Ha|(p & u & q & Hvp & Huq & Ha & Hbq & Hn)].
      - apply (Hna v); auto.
      - apply (Hna u); auto. eapply (task_list_closed fs g Hload rs tasks Htl v p); eauto. }
    split; auto. eapply nothing_invoked; eauto.
  Qed.

  (** ** After a change *)

  Lemma touched_dec : forall x v, In v tasks -> made_from g v x \/ ~ made_from g v x.
  Proof.
    intros x v Hv. destruct (task_list_facts _ _ Hload _ _ Htl) as (_ & Hbl & _). destruct (Hbl v Hv) as [p [Hvp _]].
    destruct (path_eqb p x) eqn:E; [apply path_eqb_eq in E; left; exists p; auto|]. apply path_eqb_neq in E.
    assert (Hk : forall u, numbered g u x \/ ~ numbered g u x).
    { intro u. unfold numbered. destruct (nth_error (map fst g) u) as [y|]; [|right; discriminate].
      destruct (path_eqb y x) eqn:E'; [apply path_eqb_eq in E'; left; congruence|].
      apply path_eqb_neq in E'. right. congruence. }
    destruct (needs_dec (fun u => numbered g u x) Hk v Hv) as [(p' & u & q & H1 & H2 & H3 & H4)|Hn].
    - left. assert (p' = p) by (unfold numbered in *; congruence). assert (q = x) by (unfold numbered in *; congruence).
      subst. exists p. auto.
    - right. intros [p' [Hp' [He|Hne]]]; [unfold numbered in *; congruence|].
      assert (Hkx : known g x). { destruct Hne as [Hr _]. eapply reach_known; eauto. exists v. auto. }
      destruct Hkx as [u Hu]. apply Hn. exists p', u, x. auto.
  Qed.

  Lemma touched_needs : forall x v u p q, numbered g v p -> numbered g u q ->
      file_needs g p q -> made_from g u x -> made_from g v x.
  Proof.
    intros x v u p q Hv Hu Hn [q' [Hq' Hc]]. assert (q' = q) by (unfold numbered in *; congruence). subst q'.
    exists p. split; auto. destruct Hc as [->|Hc]; auto.
    destruct (path_eqb p x) eqn:E; [apply path_eqb_eq in E; auto|]. apply path_eqb_neq in E. right.
    eapply needs_trans; eauto.
  Qed.

  Theorem rebuild_minimal : forall x D0 D1 cs2 tr2 s2 D2 dec2,
      (forall v, In v tasks -> current g D0 v) -> same_except x D0 D1 -> (forall u, ~ target_of g u x) ->
      run (task_reads g) cs2 (init rs tasks ws2) = Some (tr2, s2) ->
      building g false D1 tr2 D2 dec2 ->
      forall v, invoked dec2 v -> affected_by_policy g v \/ made_from g v x.
  Proof.
    intros x D0 D1 cs2 tr2 s2 D2 dec2 Hcur Hsame Hnt Hrun Hb v Hv.
    pose proof (run_orderly fs g Hload rs tasks Htl ws2 cs2 tr2 s2 Hws2 Hrun) as Ho.
    assert (Hin : In v tasks).
    { apply (orderly_tasks _ _ _ Ho). apply started_in. eapply invoked_started; eauto. }
    destruct (affected_dec v Hin) as [H|H]; auto. destruct (touched_dec x v Hin) as [H'|H']; auto. exfalso.
    assert (Hcl : forall w, In w tasks -> ~ (affected_by_policy g w \/ made_from g w x) -> current g D1 w).
    { intros w Hw Hn. destruct (Hcur w Hw) as (p & info & Hnth & Hup). exists p, info. split; auto.
      assert (Hwp : numbered g w p) by (eapply node_numbered; eauto).
      eapply up_to_date_same; [| | |exact Hup].
      - apply Hsame. intros ->. apply Hn. right. exists x. auto.
      - intros d Hd. apply Hsame. intro E. apply Hn. right. exists p. split; auto. right.
        rewrite <- E. eapply (deps_needed fs g Hload rs tasks Htl w); eauto.
      - intros t Ht. apply Hsame. intro E. apply (Hnt w). exists p, info, t. auto. }
    destruct (clean_untouched fs g Hload Hnames rs tasks Htl (fun v => affected_by_policy g v \/ made_from g v x)
                (fun v _ H => or_introl (or_introl H))
                (fun v u p q _ Hu H1 H2 H3 H4 =>
                   match H4 with
                   | or_introl Ha => or_introl (affected_needs v u p q Hu H1 H2 H3 Ha)
                   | or_intror Ht => or_intror (touched_needs x v u p q H1 H2 H3 Ht)
                   end)
                D1 tr2 D2 dec2 Hb (orderly_tasks _ _ _ Ho) Hcl v Hin) as [_ Hx]; [tauto|]. auto.
  Qed.

  Theorem rebuild_complete : forall force D1 cs2 tr2 s2 n D2 dec2,
      run (task_reads g) cs2 (init rs tasks ws2) = Some (tr2, s2) -> ph s2 = Returned n ->
      building g force D1 tr2 D2 dec2 ->
      forall v, In v tasks -> outdated g D1 v -> invoked dec2 v.
  Proof.
    intros force D1 cs2 tr2 s2 n D2 dec2 Hrun Hph Hb v Hv Hout.
    pose proof (run_orderly fs g Hload rs tasks Htl ws2 cs2 tr2 s2 Hws2 Hrun) as Ho.
    destruct (task_list_facts _ _ Hload _ _ Htl) as (Hsetup & _).
    destruct (returned_all _ _ _ _ Hsetup Hws2 _ _ _ (run_exec _ _ _ _ _ Hrun) Hph) as (_ & _ & H).
    eapply (outdated_invoked fs g); eauto; [apply Ho|].
    destruct Hout as (p & info & t & Hnth & Ht & [Hm|(x & tt & tx & Hx & Hrest)]); exists p, info, t; split; auto; split; auto.
    right. exists x, tt, tx. split; auto. destruct Hx as [Hx|(Hx & Hi & Hd)]; auto. right.
    eapply needs_compared; eauto. eapply node_numbered; eauto.
  Qed.

  Theorem forced_complete : forall D1 cs2 tr2 s2 n D2 dec2,
      run (task_reads g) cs2 (init rs tasks ws2) = Some (tr2, s2) -> ph s2 = Returned n ->
      building g true D1 tr2 D2 dec2 ->
      forall v, In v tasks -> invoked dec2 v.
  Proof.
    intros D1 cs2 tr2 s2 n D2 dec2 Hrun Hph Hb v Hv.
    destruct (task_list_facts _ _ Hload _ _ Htl) as (Hsetup & Hbl & _).
    destruct (returned_all _ _ _ _ Hsetup Hws2 _ _ _ (run_exec _ _ _ _ _ Hrun) Hph) as (_ & _ & H).
    eapply forced_invoked; eauto.
    - assert (Hfin : In (Finish v Succeeds) tr2) by auto. clear - Hb Hfin. induction Hb.
      + destruct Hfin.
      + apply in_or_app. apply in_app_or in Hfin. destruct Hfin as [Hf|[Hf|[]]]; [auto|discriminate].
      + apply in_or_app. apply in_app_or in Hfin. destruct Hfin as [Hf|[Hf|[]]]; [auto|discriminate].
      + auto.
      + apply in_or_app. apply in_app_or in Hfin. destruct Hfin as [Hf|[Hf|[]]]; [auto|]. inversion Hf; subst.
        left. apply H.
    - destruct (Hbl v Hv) as [p [Hp _]]. unfold numbered in Hp. rewrite <- (map_length fst g). apply nth_error_Some. congruence.
  Qed.
End Results.
