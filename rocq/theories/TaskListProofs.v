(** Proofs about the list of tasks. *)

From Coq Require Import List Arith Bool Lia Relations Permutation.
From Verif Require Import Str Path SMap PathProofs DbModel GraphModel GraphSpec GraphProofs.
From Verif Require Import DepGraphModel DepGraphSpec DepGraphProofs FileListModel FileListSpec FileListProofs SchedModel SchedSpec SchedProofs.
From Verif Require Import TaskListModel TaskListSpec.
Import ListNotations.

Lemma record_nodes_from : forall g vs rs ts, NoDup vs -> (forall v, In v vs -> v < length rs) ->
    exists rs', fold_left (record_node g) vs (rs, ts) = (rs', ts ++ filter (has_targets g) vs) /\
      length rs' = length rs /\
      (forall v, ~ In v vs -> nth_error rs' v = nth_error rs v) /\
      (forall v, In v vs -> nth_error rs' v = Some (if has_targets g v then Pending else Success)).
Proof.
  intros g vs. induction vs as [|v vs IH]; intros rs ts Hn Hlt; simpl.
  - exists rs. rewrite app_nil_r. repeat split; auto. tauto.
  - inversion Hn; subst.
    assert (Hstep : exists r, record_node g (rs, ts) v = (update v r rs, ts ++ if has_targets g v then [v] else []) /\
                              r = if has_targets g v then Pending else Success).
    { unfold record_node. destruct (has_targets g v); eexists; split; simpl; auto. rewrite app_nil_r. auto. }
    destruct Hstep as [r [-> Hr]].
    destruct (IH (update v r rs) (ts ++ if has_targets g v then [v] else [])) as (rs' & E & Hl & Hout & Hin); auto.
    { intros u Hu. rewrite update_length. apply Hlt. simpl. auto. }
    exists rs'. rewrite E. rewrite update_length in Hl. split.
    { rewrite <- app_assoc. destruct (has_targets g v); auto. }
    split; auto. split.
    + intros u Hu. rewrite Hout by tauto. apply nth_update_other. intro; subst; tauto.
    + intros u [<-|Hu]; auto. rewrite Hout by auto. rewrite nth_update_same; [congruence|].
      apply Hlt. simpl. auto.
Qed.

Lemma filter_split : forall (f : nat -> bool) l l1 v l2, filter f l = l1 ++ v :: l2 ->
    exists m1 m2, l = m1 ++ v :: m2 /\ filter f m1 = l1 /\ f v = true.
Proof.
  induction l as [|x l IH]; simpl; intros l1 v l2 H.
  - destruct l1; discriminate.
  - destruct (f x) eqn:E.
    + destruct l1 as [|y l1]; simpl in H; inversion H; subst.
      * exists [], l. auto.
      * destruct (IH _ _ _ H2) as (m1 & m2 & -> & Hf & Hv). exists (y :: m1), m2. simpl. rewrite E, Hf. auto.
    + destruct (IH _ _ _ H) as (m1 & m2 & -> & Hf & Hv). exists (x :: m1), m2. simpl. rewrite E. auto.
Qed.

(** A list of files whose dependencies have been found. *)
Record project (fs : file_list) : Prop := mk_project {
  project_sorted : sorted_map fs;
  project_unresolved : unresolved fs;
  project_complete : forall d, declared fs d -> known fs (dep_name d);
  project_named : ~ known fs empty_path
}.


Section Tasks.
  Variables fs g : file_list.
  Hypothesis Hp : project fs.
  Hypothesis Hg : make_graph false fs = Some g.

  Let Hs := project_sorted _ Hp.
  Let Hu := project_unresolved _ Hp.

  Lemma tasks_resolved : files_resolved fs g.
  Proof. eapply make_graph_resolved; eauto. Qed.

  Lemma tasks_length : length g = length fs.
  Proof.
    rewrite <- (map_length fst g), <- (map_length fst fs), (files_resolved_keys fs g); auto. apply tasks_resolved.
  Qed.

  Lemma has_targets_builds : forall v p, numbered fs v p -> (has_targets g v = true <-> builds fs p).
  Proof.
    intros v p Hv. unfold has_targets, numbered in *. rewrite nth_error_map in Hv.
    pose proof (Forall2_nth _ _ _ _ _ tasks_resolved v) as HF.
    destruct (nth_error fs v) as [[p0 info0]|] eqn:Ef; [|discriminate]. simpl in Hv. inversion Hv; subst p0.
    destruct (nth_error g v) as [[p' info']|]; [|tauto].
    destruct HF as (_ & _ & _ & _ & Ht & _). simpl in Ht. rewrite Ht.
    assert (Hin : In (p, info0) fs) by (eapply nth_error_In; eauto).
    split.
    - intro H. exists info0. split; auto. destruct (targets info0); discriminate.
    - intros [info [Hi Hne]]. assert (info = info0).
      { apply map_find_in in Hin; auto. apply map_find_in in Hi; auto. congruence. }
      subst. destruct (targets info0); congruence.
  Qed.

  (** What a task looks at, if there is no cycle. *)
  Lemma reads_needed : forall v p, numbered fs v p ->
      (~ exists q, file_reachable fs p q /\ file_on_cycle fs q) ->
      forall d, In d (task_reads g v) <-> exists q, numbered fs d q /\ file_needs fs p q.
  Proof.
    intros v p Hv Hac d. unfold task_reads, task_reads_opt.
    pose proof (Forall2_nth _ _ _ _ _ tasks_resolved v) as HF.
    pose proof Hv as Hv'. unfold numbered in Hv'. rewrite nth_error_map in Hv'.
    destruct (nth_error fs v) as [[p0 info0]|] eqn:Ef; [|discriminate]. simpl in Hv'. inversion Hv'; subst p0.
    destruct (nth_error g v) as [[p' info']|]; [|tauto].
    destruct HF as (_ & _ & Hb & _). simpl in Hb.
    destruct (use_deps_recursive_spec false fs g v p Hs Hu Hg Hv) as [[Hc _]|[_ (ds & -> & _ & Hds & Hnum & _)]]; [tauto|].
    rewrite in_app_iff, !in_map_iff. split.
    - intros [[e [He Hin]]|[e [He Hin]]].
      + destruct (Forall2_in_r _ _ _ _ _ _ Hb Hin) as [d0 [Hd0 (Hn & _ & _ & Href & _)]].
        assert (Hdecl : declared_by fs p d0) by (exists info0; split; auto; eapply nth_error_In; eauto).
        destruct (project_complete _ Hp d0) as [k Hk]; [exists p; auto|].
        specialize (Href k Hk). unfold ref_value in He. rewrite Href in He. subst k.
        exists (dep_name d0). split; auto.
        assert (Hdep : file_depends fs p (dep_name d0)) by (split; [exists d; auto|eauto]).
        split; [eapply reach_step; [exact Hdep|constructor]|].
        intro Heq. apply Hac. exists p. split; [constructor|]. exists p. rewrite Heq in Hdep. split; auto. constructor.
      + destruct (Hnum e Hin) as [k [Hk Hkn]]. unfold ref_value in He. rewrite Hk in He. subst k.
        exists (dep_name e). split; auto. assert (Hx : In (dep_name e) (map dep_name ds)) by (apply in_map; auto).
        apply Hds in Hx. split; tauto.
    - intros [q [Hq [Hr Hne]]]. right.
      assert (Hx : In q (map dep_name ds)).
      { apply Hds. split; auto. split; auto. intro; subst. apply (project_named _ Hp). exists d. auto. }
      apply in_map_iff in Hx. destruct Hx as [e [He Hin]]. exists e. split; auto.
      destruct (Hnum e Hin) as [k [Hk Hkn]]. unfold ref_value. rewrite Hk. rewrite He in Hkn.
      apply (numbered_inj fs Hs k d q); auto.
  Qed.

  (** The list made from a traversal. *)
  Lemma setup_ok : forall vs, NoDup vs -> (forall v, In v vs -> v < length g) ->
      dependencies_first dep_ref (edges_of g) vs ->
      let (rs, tasks) := record_nodes g vs in
      task_setup (task_reads g) rs tasks /\
      (forall v, In v tasks <-> In v vs /\ exists p, numbered fs v p /\ builds fs p) /\
      (forall v p, In v vs -> numbered fs v p ->
         forall d, In d (task_reads g v) <-> exists q, numbered fs d q /\ file_needs fs p q).
  Proof.
    intros vs Hn Hlt Hfirst. unfold record_nodes.
    destruct (record_nodes_from g vs (repeat Pending (length g)) [] Hn) as (rs & -> & Hl & Hout & Hin).
    { rewrite repeat_length. auto. }
    simpl.
    assert (Hac : forall v p, In v vs -> numbered fs v p -> ~ exists q, file_reachable fs p q /\ file_on_cycle fs q).
    { intros v p Hv Hvp [q [Hr Hc]].
      assert (Hk : known fs q) by (eapply reach_known; eauto; exists v; auto). destruct Hk as [u Hu'].
      apply (cycle_files fs g Hs Hu tasks_resolved u q Hu') in Hc.
      apply (reachable_files fs g Hs Hu tasks_resolved v u p q Hvp Hu') in Hr.
      exact (deps_first_acyclic _ dep_ref (edges_of g) vs u Hfirst Hn
               (closed_reachable _ dep_ref (edges_of g) vs v u Hfirst Hv Hr) Hc). }
    assert (Hreads : forall v p, In v vs -> numbered fs v p ->
         forall d, In d (task_reads g v) <-> exists q, numbered fs d q /\ file_needs fs p q).
    { intros v p Hv Hvp. apply reads_needed; eauto. }
    split; [|split; auto].
    - constructor.
      + apply NoDup_filter. auto.
      + intros v Hv. apply filter_In in Hv. destruct Hv as [Hv Ht]. rewrite Hin by auto. rewrite Ht. auto.
      + intros l1 v l2 Heq d Hd. apply filter_split in Heq. destruct Heq as (m1 & m2 & Hvs & <- & Hvt).
        assert (Hv : In v vs) by (rewrite Hvs; apply in_or_app; simpl; auto).
        destruct (lt_numbered fs v) as [p Hvp]; [rewrite <- tasks_length; auto|].
        apply (Hreads v p Hv Hvp) in Hd. destruct Hd as [q [Hq [Hr Hne]]].
        apply (reachable_files fs g Hs Hu tasks_resolved v d p q Hvp Hq) in Hr.
        assert (Hm : In d m1).
        { eapply depends_first_position; eauto. apply clos_rt_rt1n in Hr. inversion Hr; subst.
          - exfalso. apply Hne. unfold numbered in *. congruence.
          - apply step_reach with y; auto. apply clos_rt1n_rt. auto. }
        destruct (has_targets g d) eqn:Hdt.
        * left. apply filter_In. auto.
        * right. split; [rewrite filter_In; intros [_ Hx]; congruence|].
          rewrite Hin; [rewrite Hdt; auto|]. rewrite Hvs. apply in_or_app. auto.
    - intros v. rewrite filter_In. split.
      + intros [Hv Ht]. split; auto. destruct (lt_numbered fs v) as [p Hvp]; [rewrite <- tasks_length; auto|].
        exists p. split; auto. apply (has_targets_builds v p); auto.
      + intros [Hv [p [Hvp Hb]]]. split; auto. apply (has_targets_builds v p); auto.
  Qed.

  Theorem make_task_list_ok :
    ((exists p, file_on_cycle fs p) /\ make_task_list g = None) \/
    ((~ exists p, file_on_cycle fs p) /\
     exists rs tasks, make_task_list g = Some (rs, tasks) /\
       task_setup (task_reads g) rs tasks /\
       (forall v p, numbered fs v p -> (In v tasks <-> builds fs p)) /\
       (forall v, In v tasks -> exists p, numbered fs v p) /\
       (forall v p, numbered fs v p ->
          forall d, In d (task_reads g v) <-> exists q, numbered fs d q /\ file_needs fs p q)).
  Proof.
    pose proof (res_refs_in_range fs g Hu tasks_resolved) as Hrange.
    pose proof (res_length fs g tasks_resolved) as Hlen.
    unfold make_task_list. destruct (topo_cycle _ dep_ref (edges_of g) Hrange) as [[[u Hc] [cs Hcs]]|[Hno [cs Hcs]]];
      rewrite Hcs.
    - left. split; auto. destruct (lt_numbered fs u) as [p Hup].
      { rewrite <- Hlen. eapply on_cycle_lt; eauto. }
      exists p. apply (cycle_files fs g Hs Hu tasks_resolved u p); auto.
    - right. split.
      { intros [p Hc]. assert (Hk : known fs p).
        { destruct Hc as [q [[Hq _] Hr]]. eapply reach_known; eauto. }
        destruct Hk as [u Hup]. apply Hno. exists u. apply (cycle_files fs g Hs Hu tasks_resolved u p); auto. }
      destruct (topo_order _ dep_ref (edges_of g) cs Hrange Hcs) as (Hn & Hall & Hfirst).
      pose proof (setup_ok (map fst cs) Hn) as Hset.
      destruct (record_nodes g (map fst cs)) as [rs tasks]. destruct Hset as (H1 & H2 & H3); auto.
      { intros v Hv. apply Hall in Hv. rewrite Hlen in Hv. rewrite tasks_length. auto. }
      exists rs, tasks. split; auto. split; auto. split; [|split].
      + intros v p Hvp. rewrite H2. split.
        * intros [_ [p' [Hvp' Hb]]]. assert (p' = p) by (unfold numbered in *; congruence). subst. auto.
        * intros Hb. split; eauto. apply Hall. rewrite Hlen. eapply numbered_lt; eauto.
      + intros v Hv. apply H2 in Hv. destruct Hv as [_ [p [Hx _]]]. eauto.
      + intros v p Hvp. apply H3; auto. apply Hall. rewrite Hlen. eapply numbered_lt; eauto.
  Qed.

  (** The list for a single target. *)
  Theorem make_target_task_list_ok : forall src, known fs src ->
    ((exists q, file_reachable fs src q /\ file_on_cycle fs q) /\ make_target_task_list g src = None) \/
    ((~ exists q, file_reachable fs src q /\ file_on_cycle fs q) /\
     exists rs tasks, make_target_task_list g src = Some (rs, tasks) /\
       task_setup (task_reads g) rs tasks /\
       (forall v p, numbered fs v p -> (In v tasks <-> builds fs p /\ file_reachable fs src p)) /\
       (forall v, In v tasks -> exists p, numbered fs v p) /\
       (forall v p, In v tasks -> numbered fs v p ->
          forall d, In d (task_reads g v) <-> exists q, numbered fs d q /\ file_needs fs p q)).
  Proof.
    intros src [root Hroot].
    pose proof (res_refs_in_range fs g Hu tasks_resolved) as Hrange.
    pose proof (res_length fs g tasks_resolved) as Hlen.
    pose proof (numbered_lt fs _ _ Hroot) as Hlt.
    unfold make_target_task_list. rewrite (proj2 (get_node_spec false fs g src root Hs Hg) Hroot).
    destruct (from_root_ok _ dep_ref (edges_of g) root Hrange) as
        [[(u & Hr & Hc) [cs Hcs]]|[Hno (cs & Hcs & Hn & Hall & Hfirst & _)]]; [rewrite Hlen; auto|rewrite Hcs|rewrite Hcs].
    - left. split; auto. destruct (lt_numbered fs u) as [p Hup].
      { rewrite <- Hlen. eapply on_cycle_lt; eauto. }
      exists p. split.
      + apply (reachable_files fs g Hs Hu tasks_resolved root u src p); auto.
      + apply (cycle_files fs g Hs Hu tasks_resolved u p); auto.
    - right. split.
      { intros [p [Hr Hc]]. assert (Hk : known fs p) by (eapply reach_known; eauto; exists root; auto).
        destruct Hk as [u Hup]. apply Hno. exists u. split.
        - apply (reachable_files fs g Hs Hu tasks_resolved root u src p); auto.
        - apply (cycle_files fs g Hs Hu tasks_resolved u p); auto. }
      assert (Hvs : forall v p, numbered fs v p -> (In v (map fst (cs ++ [(root, None)])) <-> file_reachable fs src p)).
      { intros v p Hvp. rewrite Hall. apply (reachable_files fs g Hs Hu tasks_resolved root v src p); auto. }
      assert (Hrlt : forall v, reachable dep_ref (edges_of g) root v -> v < length fs).
      { intros v Hr. apply clos_rt_rtn1 in Hr. inversion Hr; subst; auto. rewrite <- Hlen. eapply Hrange; eauto. }
      pose proof (setup_ok (map fst (cs ++ [(root, None)])) Hn) as Hset.
      destruct (record_nodes g (map fst (cs ++ [(root, None)]))) as [rs tasks]. destruct Hset as (H1 & H2 & H3); auto.
      { intros v Hv. apply Hall in Hv. rewrite tasks_length. auto. }
      exists rs, tasks. split; auto. split; auto. split; [|split].
      + intros v p Hvp. rewrite H2, (Hvs v p Hvp). split.
        * intros [Hr [p' [Hvp' Hb]]]. assert (p' = p) by (unfold numbered in *; congruence). subst. auto.
        * intros [Hb Hr]. split; eauto.
      + intros v Hv. apply H2 in Hv. destruct Hv as [_ [p [Hx _]]]. eauto.
      + intros v p Hv Hvp. apply H3; auto. apply H2 in Hv. tauto.
  Qed.
End Tasks.

(** * The same in terms of the graph *)

Section Same.
  Variables fs g : file_list.
  Hypothesis Hr : files_resolved fs g.

  Lemma same_numbered : forall v p, numbered g v p <-> numbered fs v p.
  Proof. intros. unfold numbered. rewrite (files_resolved_keys fs g Hr). tauto. Qed.

  Lemma same_known : forall p, known g p <-> known fs p.
  Proof. intros. unfold known, numbered. rewrite (files_resolved_keys fs g Hr). tauto. Qed.

  Lemma same_depends : forall p q, file_depends g p q <-> file_depends fs p q.
  Proof.
    intros p q. unfold file_depends. rewrite same_known. split; intros [Hk [d [[info [Hin Hd]] Hq]]]; (split; [auto|]).
    - destruct (Forall2_in_r _ _ _ _ _ _ Hr Hin) as [[p' i'] [Hin' (Hp & Hu & Hb & _)]]. simpl in *. subst p.
      destruct Hd as [Hd|Hd].
      + destruct (Forall2_in_r _ _ _ _ _ _ Hu Hd) as [d' [Hd' [Hn _]]]. exists d'. split; [|congruence].
        exists i'. auto.
      + destruct (Forall2_in_r _ _ _ _ _ _ Hb Hd) as [d' [Hd' [Hn _]]]. exists d'. split; [|congruence].
        exists i'. auto.
    - destruct (Forall2_in_l _ _ _ _ _ _ Hr Hin) as [[p' i'] [Hin' (Hp & Hu & Hb & _)]]. simpl in *. subst p'.
      destruct Hd as [Hd|Hd].
      + destruct (Forall2_in_l _ _ _ _ _ _ Hu Hd) as [d' [Hd' [Hn _]]]. exists d'. split; [|congruence].
        exists i'. auto.
      + destruct (Forall2_in_l _ _ _ _ _ _ Hb Hd) as [d' [Hd' [Hn _]]]. exists d'. split; [|congruence].
        exists i'. auto.
  Qed.

  Lemma same_reachable : forall p q, file_reachable g p q <-> file_reachable fs p q.
  Proof.
    intros p q. split; intro H; induction H; try constructor.
    - eapply reach_step; eauto. apply same_depends. auto.
    - eapply reach_step; eauto. apply same_depends. auto.
  Qed.

  Lemma same_cycle : forall p, file_on_cycle g p <-> file_on_cycle fs p.
  Proof.
    intros p. unfold file_on_cycle. split; intros [q [Hd Hq]]; exists q.
    - split; [apply same_depends|apply same_reachable]; auto.
    - split; [apply same_depends|apply same_reachable]; auto.
  Qed.

  Lemma same_needs : forall p q, file_needs g p q <-> file_needs fs p q.
  Proof. intros. unfold file_needs. rewrite same_reachable. tauto. Qed.

  Lemma same_builds : forall p, builds g p <-> builds fs p.
  Proof.
    intros p. unfold builds. split; intros [info [Hin Ht]].
    - destruct (Forall2_in_r _ _ _ _ _ _ Hr Hin) as [[p' i'] [Hin' (Hp & _ & _ & _ & He & _)]]. simpl in *. subst p.
      exists i'. split; auto. congruence.
    - destruct (Forall2_in_l _ _ _ _ _ _ Hr Hin) as [[p' i'] [Hin' (Hp & _ & _ & _ & He & _)]]. simpl in *. subst p'.
      exists i'. split; auto. congruence.
  Qed.
End Same.

Section Graph.
  Variables src_files g : file_list.
  Hypothesis Hload : loaded src_files g.

  Lemma loaded_project : exists fs, project fs /\ make_graph false fs = Some g /\ files_resolved fs g.
  Proof.
    destruct Hload as (Hscan & [ts Hl] & Hne).
    destruct (loaded_from _ _ _ Hscan Hl) as (fs & Hs & Hu & Hg).
    pose proof (make_graph_resolved _ _ _ Hs Hg) as Hr. exists fs. split; [|auto]. constructor; auto.
    - destruct (make_graph_strict fs Hs) as [(g' & Hg' & _ & Hk)|[Hn _]]; [auto|congruence].
    - intro H. apply Hne. apply (same_known fs g Hr). auto.
  Qed.

  Theorem make_task_list_spec :
    ((exists p, file_on_cycle g p) /\ make_task_list g = None) \/
    ((~ exists p, file_on_cycle g p) /\
     exists rs tasks, make_task_list g = Some (rs, tasks) /\
       task_setup (task_reads g) rs tasks /\
       (forall v p, numbered g v p -> (In v tasks <-> builds g p)) /\
       (forall v, In v tasks -> exists p, numbered g v p) /\
       (forall v p, numbered g v p ->
          forall d, In d (task_reads g v) <-> exists q, numbered g d q /\ file_needs g p q)).
  Proof.
    destruct loaded_project as (fs & Hp & Hg & Hr).
    destruct (make_task_list_ok fs g Hp Hg) as [[[p Hc] Hx]|[Hno (rs & tasks & Hx & H1 & H2 & H3 & H4)]].
    - left. split; auto. exists p. apply (same_cycle fs g Hr). auto.
    - right. split; [intros [p Hc]; apply Hno; exists p; apply (same_cycle fs g Hr); auto|].
      exists rs, tasks. split; auto. split; auto. split; [|split].
      + intros v p Hv. rewrite (same_builds fs g Hr). apply H2. apply (same_numbered fs g Hr). auto.
      + intros v Hv. destruct (H3 v Hv) as [p Hvp]. exists p. apply (same_numbered fs g Hr). auto.
      + intros v p Hv d. apply (same_numbered fs g Hr) in Hv. rewrite (H4 v p Hv d).
        split; intros [q [Hq Hn]]; exists q.
        * rewrite (same_numbered fs g Hr), (same_needs fs g Hr). auto.
        * rewrite (same_numbered fs g Hr), (same_needs fs g Hr) in *. auto.
  Qed.

  Theorem make_target_task_list_spec : forall src, known g src ->
    ((exists q, file_reachable g src q /\ file_on_cycle g q) /\ make_target_task_list g src = None) \/
    ((~ exists q, file_reachable g src q /\ file_on_cycle g q) /\
     exists rs tasks, make_target_task_list g src = Some (rs, tasks) /\
       task_setup (task_reads g) rs tasks /\
       (forall v p, numbered g v p -> (In v tasks <-> builds g p /\ file_reachable g src p)) /\
       (forall v, In v tasks -> exists p, numbered g v p) /\
       (forall v p, In v tasks -> numbered g v p ->
          forall d, In d (task_reads g v) <-> exists q, numbered g d q /\ file_needs g p q)).
  Proof.
    intros src Hk. destruct loaded_project as (fs & Hp & Hg & Hr). apply (same_known fs g Hr) in Hk.
    destruct (make_target_task_list_ok fs g Hp Hg src Hk) as [[[q [Hq Hc]] Hx]|[Hno (rs & tasks & Hx & H1 & H2 & H3 & H4)]].
    - left. split; auto. exists q. rewrite (same_cycle fs g Hr), (same_reachable fs g Hr). auto.
    - right. split.
      { intros [q Hc]. apply Hno. exists q. rewrite (same_cycle fs g Hr), (same_reachable fs g Hr) in Hc. auto. }
      exists rs, tasks. split; auto. split; auto. split; [|split].
      + intros v p Hv. rewrite (same_builds fs g Hr), (same_reachable fs g Hr). apply H2.
        apply (same_numbered fs g Hr). auto.
      + intros v Hv. destruct (H3 v Hv) as [p Hvp]. exists p. apply (same_numbered fs g Hr). auto.
      + intros v p Hv Hvp d. apply (same_numbered fs g Hr) in Hvp. rewrite (H4 v p Hv Hvp d).
        split; intros [q [Hq Hn]]; exists q.
        * rewrite (same_numbered fs g Hr), (same_needs fs g Hr). auto.
        * rewrite (same_numbered fs g Hr), (same_needs fs g Hr) in *. auto.
  Qed.

  (** Only source files are built. *)
  Lemma builds_sources : forall p, builds g p <-> builds src_files p.
  Proof.
    destruct Hload as (Hscan & [ts Hl] & _).
    destruct (load_project_graph src_files Hscan) as [[_ [n [Hx _]]]|[_ [[_ Hx]|[_ [[_ Hx]|[_ Hx]]]]]]; try congruence.
    destruct Hx as (ts' & g' & Heq & _ & _ & (Hs & _ & _ & Hsrc & Hgen & Hoth)). rewrite Hl in Heq. inversion Heq; subst ts' g'.
    intros p. split.
    - intros [i' [Hin Ht]]. destruct (Hoth p i' Hin) as [H|[[t H]|(d & _ & _ & _ & ->)]].
      + apply in_map_iff in H. destruct H as [[p0 i] [Heq' H]]. simpl in Heq'. subst p0.
        destruct (Hsrc p i H) as [i2 [Hin2 (Hk & _)]]. exists i. split; auto.
        assert (i2 = i') by (eapply sorted_in_unique; [exact Hs|exact Hin2|exact Hin]). subst. congruence.
      + destruct (Hgen p t H) as [i2 [Hin2 (Hk & _)]].
        assert (i2 = i') by (eapply sorted_in_unique; [exact Hs|exact Hin2|exact Hin]). subst. congruence.
      + simpl in Ht. congruence.
    - intros [i [Hin Ht]]. destruct (Hsrc p i Hin) as [i2 [Hin2 (Hk & _)]]. exists i2. split; auto. congruence.
  Qed.
End Graph.

(** * Building a project *)

Section Project.
  Variables src_files g : file_list.
  Hypothesis Hp : loaded src_files g.
  Variable rs : list task_result.
  Variable tasks : list nat.
  Hypothesis Hl : task_list g rs tasks.

  Lemma task_list_facts :
    task_setup (task_reads g) rs tasks /\
    (forall v, In v tasks -> exists p, numbered g v p /\ builds g p) /\
    (forall v p, In v tasks -> numbered g v p ->
       forall d, In d (task_reads g v) <-> exists q, numbered g d q /\ file_needs g p q).
  Proof.
    destruct Hl as [H|[src [Hk H]]].
    - destruct (make_task_list_spec _ _ Hp) as [[_ Hx]|[_ (rs' & tasks' & Hx & H1 & H2 & H3 & H4)]]; [congruence|].
      rewrite H in Hx. inversion Hx; subst. split; auto. split; auto.
      intros v Hv. destruct (H3 v Hv) as [p Hvp]. exists p. split; auto. apply (H2 v p Hvp). auto.
    - destruct (make_target_task_list_spec _ _ Hp src Hk) as [[_ Hx]|[_ (rs' & tasks' & Hx & H1 & H2 & H3 & H4)]]; [congruence|].
      rewrite H in Hx. inversion Hx; subst. split; auto. split; auto.
      intros v Hv. destruct (H3 v Hv) as [p Hvp]. exists p. split; auto. apply (H2 v p Hvp). auto.
  Qed.

  (** Everything needed that is to be built is in the list. *)
  Lemma task_list_closed : forall v p, In v tasks -> numbered g v p ->
      forall d q, numbered g d q -> file_needs g p q -> builds g q -> In d tasks.
  Proof.
    intros v p Hv Hvp d q Hd Hn Hb. destruct Hl as [H|[src [Hk H]]].
    - destruct (make_task_list_spec _ _ Hp) as [[_ Hx]|[_ (rs' & tasks' & Hx & H1 & H2 & H3 & H4)]]; [congruence|].
      rewrite H in Hx. inversion Hx; subst. apply (H2 d q Hd). auto.
    - destruct (make_target_task_list_spec _ _ Hp src Hk) as [[_ Hx]|[_ (rs' & tasks' & Hx & H1 & H2 & H3 & H4)]]; [congruence|].
      rewrite H in Hx. inversion Hx; subst. apply (H2 d q Hd). split; auto.
      apply (H2 v p Hvp) in Hv. destruct Hv as [_ Hr]. destruct Hn as [Hn _]. clear - Hr Hn.
      induction Hr; auto. eapply reach_step; eauto.
  Qed.

  Variable ws : list worker.
  Hypothesis Hws : idle_pool ws.

  Theorem project_started_ready : forall cs tr s, run (task_reads g) cs (init rs tasks ws) = Some (tr, s) ->
      forall tr1 v tr2 p, tr = tr1 ++ Start v :: tr2 -> numbered g v p ->
      forall d q, numbered g d q -> file_needs g p q -> builds g q -> In (Finish d Succeeds) tr1.
  Proof.
    intros cs tr s Hrun tr1 v tr2 p Heq Hvp d q Hd Hn Hb.
    destruct task_list_facts as (Hsetup & _ & Hreads).
    apply run_exec in Hrun.
    assert (Hv : In v tasks).
    { eapply (proj2 (started_tasks _ _ _ _ Hsetup Hws _ _ Hrun)). apply started_in. rewrite Heq.
      apply in_or_app. simpl. auto. }
    eapply (started_ready _ _ _ _ Hsetup Hws _ _ Hrun _ _ _ Heq).
    - apply (Hreads v p Hv Hvp). eauto.
    - eapply task_list_closed; eauto.
  Qed.

  Theorem project_failure : forall cs tr s, run (task_reads g) cs (init rs tasks ws) = Some (tr, s) ->
      forall d o q, In (Finish d o) tr -> o <> Succeeds -> numbered g d q ->
      (forall v p, numbered g v p -> file_needs g p q -> ~ In (Start v) tr) /\
      (forall n, ph s <> Returned n).
  Proof.
    intros cs tr s Hrun d o q Hd Ho Hq. destruct task_list_facts as (Hsetup & _ & Hreads).
    apply run_exec in Hrun. split.
    - intros v p Hvp Hn Hst.
      assert (Hv : In v tasks).
      { eapply (proj2 (started_tasks _ _ _ _ Hsetup Hws _ _ Hrun)). apply started_in. auto. }
      revert Hst. eapply (dependents_not_started _ _ _ _ Hsetup Hws _ _ Hrun d o); auto.
      apply waits_direct. apply (Hreads v p Hv Hvp). eauto.
    - intros n Hph. destruct (failure_reported _ _ _ _ Hsetup Hws _ _ d o Hrun) as [u Hu]; auto.
      + rewrite Hph. simpl. auto.
      + congruence.
  Qed.

  Theorem project_ends : forall cs tr s, run (task_reads g) cs (init rs tasks ws) = Some (tr, s) ->
      harmless (task_reads g) tasks tr -> always_ends (task_reads g) tasks s.
  Proof.
    intros cs tr s Hrun Hh. destruct task_list_facts as (Hsetup & _ & _).
    eapply process_ends; eauto. eapply run_exec; eauto.
  Qed.
End Project.

Theorem project_built : forall fs g rs tasks ws, loaded fs g ->
    make_task_list g = Some (rs, tasks) -> idle_pool ws ->
    forall cs tr s n, run (task_reads g) cs (init rs tasks ws) = Some (tr, s) -> ph s = Returned n ->
    NoDup (started tr) /\ n = length (started tr) /\
    (forall v p, numbered g v p -> (In v (started tr) <-> builds fs p)) /\
    (forall v, In v (started tr) -> In (Finish v Succeeds) tr).
Proof.
  intros fs g rs tasks ws Hp H Hws cs tr s n Hrun Hph.
  destruct (make_task_list_spec _ _ Hp) as [[_ Hx]|[_ (rs' & tasks' & Hx & Hsetup & H2 & H3 & H4)]]; [congruence|].
  rewrite H in Hx. inversion Hx; subst. apply run_exec in Hrun.
  destruct (returned_all _ _ _ _ Hsetup Hws _ _ _ Hrun Hph) as (Hn & Hperm & Hall).
  destruct (started_tasks _ _ _ _ Hsetup Hws _ _ Hrun) as [Hnd Hin].
  split; auto. split; [rewrite Hn; apply Permutation_length; auto|]. split; auto.
  intros v p Hvp. rewrite <- (builds_sources _ _ Hp), <- (H2 v p Hvp). split; auto. intro Hv. eapply Permutation_in; eauto.
Qed.

Theorem target_built : forall fs g rs tasks ws src, loaded fs g -> known g src ->
    make_target_task_list g src = Some (rs, tasks) -> idle_pool ws ->
    forall cs tr s n, run (task_reads g) cs (init rs tasks ws) = Some (tr, s) -> ph s = Returned n ->
    NoDup (started tr) /\ n = length (started tr) /\
    (forall v p, numbered g v p -> (In v (started tr) <-> builds fs p /\ file_reachable g src p)) /\
    (forall v, In v (started tr) -> In (Finish v Succeeds) tr).
Proof.
  intros fs g rs tasks ws src Hp Hk H Hws cs tr s n Hrun Hph.
  destruct (make_target_task_list_spec _ _ Hp src Hk) as [[_ Hx]|[_ (rs' & tasks' & Hx & Hsetup & H2 & H3 & H4)]]; [congruence|].
  rewrite H in Hx. inversion Hx; subst. apply run_exec in Hrun.
  destruct (returned_all _ _ _ _ Hsetup Hws _ _ _ Hrun Hph) as (Hn & Hperm & Hall).
  destruct (started_tasks _ _ _ _ Hsetup Hws _ _ Hrun) as [Hnd Hin].
  split; auto. split; [rewrite Hn; apply Permutation_length; auto|]. split; auto.
  intros v p Hvp. rewrite <- (builds_sources _ _ Hp), <- (H2 v p Hvp). split; auto. intro Hv. eapply Permutation_in; eauto.
Qed.

(** Even if it does not succeed, nothing else is started. *)
Theorem target_only : forall fs g rs tasks ws src, loaded fs g -> known g src ->
    make_target_task_list g src = Some (rs, tasks) -> idle_pool ws ->
    forall cs tr s, run (task_reads g) cs (init rs tasks ws) = Some (tr, s) ->
    forall v p, In (Start v) tr -> numbered g v p -> builds fs p /\ file_reachable g src p.
Proof.
  intros fs g rs tasks ws src Hp Hk H Hws cs tr s Hrun v p Hst Hvp.
  destruct (make_target_task_list_spec _ _ Hp src Hk) as [[_ Hx]|[_ (rs' & tasks' & Hx & Hsetup & H2 & H3 & H4)]]; [congruence|].
  rewrite H in Hx. inversion Hx; subst. apply run_exec in Hrun. rewrite <- (builds_sources _ _ Hp). apply (H2 v p Hvp).
  eapply (proj2 (started_tasks _ _ _ _ Hsetup Hws _ _ Hrun)). apply started_in. auto.
Qed.
