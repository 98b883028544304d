From Coq Require Import List Arith Bool Lia Sorted Relations.
From Verif Require Import Str Path SMap PathProofs DbModel GraphModel GraphSpec GraphProofs.
From Verif Require Import DepGraphModel DepGraphSpec.
Import ListNotations.

(** * Binary search *)

Lemma sorted_nth : forall l i j x y, StronglySorted path_lt l -> i < j ->
    nth_error l i = Some x -> nth_error l j = Some y -> path_lt x y.
Proof.
  induction l as [|a l IH]; intros i j x y Hs Hij Hx Hy.
  - destruct i; discriminate.
  - inversion Hs; subst. destruct j; [lia|]. simpl in Hy. destruct i; simpl in Hx.
    + inversion Hx; subst. rewrite Forall_forall in H2. apply H2. eapply nth_error_In; eauto.
    + apply (IH i j); auto. lia.
Qed.

Lemma div2_lt : forall n, 0 < n -> Nat.div2 n < n.
Proof. intros. apply Nat.lt_div2. auto. Qed.

(** The result is a position such that everything before it (in the range) is
    smaller and everything from it on is not. *)
Lemma lower_bound_ok : forall fuel ks x first len,
    StronglySorted path_lt ks -> len <= fuel -> first + len <= length ks ->
    (forall i k, i < first -> nth_error ks i = Some k -> path_lt k x) ->
    (forall i k, first + len <= i -> nth_error ks i = Some k -> ~ path_lt k x) ->
    let r := lower_bound fuel ks x first len in
    r <= length ks /\
    (forall i k, i < r -> nth_error ks i = Some k -> path_lt k x) /\
    (forall i k, r <= i -> nth_error ks i = Some k -> ~ path_lt k x).
Proof.
  induction fuel as [|fuel IH]; intros ks x first len Hs Hf Hl Hlo Hhi; simpl.
  - assert (len = 0) by lia. subst. rewrite Nat.add_0_r in *. repeat split; auto.
  - destruct len as [|n].
    + rewrite Nat.add_0_r in *. repeat split; auto.
    + set (len := S n) in *. assert (Hh : Nat.div2 len < len) by (apply div2_lt; unfold len; lia).
      set (half := Nat.div2 len) in *.
      change (match n with 0 => 0 | S n' => S (Nat.div2 n') end) with half.
      destruct (nth_error ks (first + half)) as [k|] eqn:E.
      2:{ apply nth_error_None in E. lia. }
      destruct (path_ltb k x) eqn:Elt.
      * apply path_ltb_lt in Elt. apply IH; auto; try lia.
        { intros i k' Hi Hk'. destruct (Nat.eq_dec i (first + half)) as [->|Hne].
          - rewrite E in Hk'. inversion Hk'; subst. auto.
          - apply path_lt_trans with k; auto. apply (sorted_nth ks i (first + half)); auto. lia. }
        { intros i k' Hi Hk'. apply Hhi with i; auto. lia. }
      * assert (Hn : ~ path_lt k x). { intro H. apply path_ltb_lt in H. congruence. }
        apply IH; auto; try lia.
        intros i k' Hi Hk' Hlt.
        destruct (Nat.eq_dec i (first + half)) as [->|Hne].
        { rewrite E in Hk'. inversion Hk'; subst. auto. }
        apply Hn. apply path_lt_trans with k'; auto. apply (sorted_nth ks (first + half) i); auto. lia.
Qed.

Theorem find_node_spec : forall ks x k, StronglySorted path_lt ks ->
    (find_node ks x = Some k <-> nth_error ks k = Some x).
Proof.
  intros ks x k Hs. unfold find_node.
  destruct (lower_bound_ok (length ks) ks x 0 (length ks)) as (Hr & Hlo & Hhi); auto.
  { intros i k' Hi. lia. }
  { intros i k' Hi Hk'. assert (nth_error ks i <> None) by congruence.
    apply nth_error_Some in H. lia. }
  set (r := lower_bound (length ks) ks x 0 (length ks)) in *.
  split.
  - destruct (nth_error ks r) as [q|] eqn:E; [|discriminate].
    destruct (path_ltb x q) eqn:Elt; simpl; [discriminate|]. intro H. injection H as H. rewrite <- H.
    destruct (path_trichotomy x q) as [H1|[H1|H1]].
    + apply path_ltb_lt in H1. congruence.
    + subst. auto.
    + exfalso. apply (Hhi r q); auto.
  - intro Hk. assert (k = r).
    { destruct (Nat.lt_trichotomy k r) as [Hlt|[->|Hgt]]; auto.
      - exfalso. apply (path_lt_irrefl x). eapply Hlo; eauto.
      - exfalso. assert (r < length ks). { assert (nth_error ks k <> None) by congruence. apply nth_error_Some in H. lia. }
        destruct (nth_error ks r) as [q|] eqn:E; [|apply nth_error_None in E; lia].
        apply (Hhi r q); auto. apply (sorted_nth ks r k); auto. }
    subst k. rewrite Hk. unfold path_ltb. rewrite path_compare_refl. simpl. auto.
Qed.

Lemma find_node_none : forall ks x, StronglySorted path_lt ks ->
    (find_node ks x = None <-> ~ In x ks).
Proof.
  intros ks x Hs. split; intro H.
  - intro Hin. apply In_nth_error in Hin. destruct Hin as [k Hk].
    apply find_node_spec in Hk; auto. congruence.
  - destruct (find_node ks x) eqn:E; auto. exfalso. apply H.
    apply find_node_spec in E; auto. eapply nth_error_In; eauto.
Qed.

Lemma known_in : forall fs p, known fs p <-> In p (map fst fs).
Proof.
  intros. unfold known, numbered. split.
  - intros [k Hk]. eapply nth_error_In; eauto.
  - intro H. apply In_nth_error in H. auto.
Qed.

(** * Construction *)

Lemma resolve_spec : forall fs ign d, sorted_map fs ->
    match resolve (map fst fs) ign d with
    | Some d' => dependency_resolved fs d d' /\ (ign = false -> known fs (dep_name d))
    | None => ign = false /\ ~ known fs (dep_name d)
    end.
Proof.
  intros fs ign d Hs. unfold resolve. destruct (find_node (map fst fs) (dep_name d)) as [k|] eqn:E.
  - apply find_node_spec in E; auto. split.
    + unfold dependency_resolved; simpl. repeat split.
      * intros k' Hk'. unfold numbered in Hk'. f_equal.
        apply (proj1 (NoDup_nth_error (map fst fs))); auto.
        { apply sorted_nodup. auto. }
        { apply nth_error_Some. congruence. }
        congruence.
      * intros H. exfalso. apply H. exists k. auto.
    + intros _. exists k. auto.
  - apply find_node_none in E; auto. rewrite <- known_in in E. destruct ign.
    + split; [|discriminate]. unfold dependency_resolved. repeat split; auto.
      intros k Hk. exfalso. apply E. exists k. auto.
    + auto.
Qed.

Lemma resolve_all_spec : forall fs ign ds, sorted_map fs ->
    match resolve_all (map fst fs) ign ds with
    | Some ds' => Forall2 (dependency_resolved fs) ds ds' /\
                  (ign = false -> forall d, In d ds -> known fs (dep_name d))
    | None => ign = false /\ exists d, In d ds /\ ~ known fs (dep_name d)
    end.
Proof.
  intros fs ign ds Hs. induction ds as [|d ds IH]; simpl.
  - split; [constructor|intros ? ? []].
  - pose proof (resolve_spec fs ign d Hs) as H. destruct (resolve (map fst fs) ign d).
    + destruct H as [H1 H2]. destruct (resolve_all (map fst fs) ign ds).
      * destruct IH as [IH1 IH2]. split; [constructor; auto|]. intros Hi d' [->|Hd]; auto.
      * destruct IH as [Hi [x [Hx Hk]]]. split; auto. exists x. auto.
    + destruct H as [Hi Hk]. split; auto. exists d. auto.
Qed.

Lemma resolve_files_spec : forall fs ign sub, sorted_map fs -> incl sub fs ->
    match resolve_files (map fst fs) ign sub with
    | Some g => Forall2 (file_resolved fs) sub g /\
                (ign = false -> forall p info d, In (p, info) sub ->
                   In d (use_deps info) \/ In d (build_deps info) -> known fs (dep_name d))
    | None => ign = false /\ exists d, declared fs d /\ ~ known fs (dep_name d)
    end.
Proof.
  intros fs ign sub Hs. induction sub as [|[p info] sub IH]; simpl; intros Hi.
  - split; [constructor|]. intros _ p info d [].
  - assert (Hin : In (p, info) fs) by (apply Hi; simpl; auto).
    assert (Hi' : incl sub fs) by (intros x Hx; apply Hi; simpl; auto).
    pose proof (resolve_all_spec fs ign (use_deps info) Hs) as Hu.
    pose proof (resolve_all_spec fs ign (build_deps info) Hs) as Hb.
    destruct (resolve_all (map fst fs) ign (use_deps info)) as [u|].
    + destruct (resolve_all (map fst fs) ign (build_deps info)) as [b|].
      * specialize (IH Hi'). destruct (resolve_files (map fst fs) ign sub) as [g|].
        { destruct IH as [IH1 IH2]. destruct Hu as [Hu1 Hu2]. destruct Hb as [Hb1 Hb2]. split.
          - constructor; auto. unfold file_resolved; simpl. repeat split; auto.
          - intros Hig p' info' d [H|H]; [|eauto]. inversion H; subst. intros [Hd|Hd]; auto. }
        { exact IH. }
      * destruct Hb as [Hig [d [Hd Hk]]]. split; auto. exists d. split; auto. exists p, info. auto.
    + destruct Hu as [Hig [d [Hd Hk]]]. split; auto. exists d. split; auto. exists p, info. auto.
Qed.

Theorem make_graph_strict : forall fs, sorted_map fs ->
    (exists g, make_graph false fs = Some g /\ files_resolved fs g /\
               forall d, declared fs d -> known fs (dep_name d)) \/
    (make_graph false fs = None /\ exists d, declared fs d /\ ~ known fs (dep_name d)).
Proof.
  intros fs Hs. pose proof (resolve_files_spec fs false fs Hs (fun x H => H)) as H.
  unfold make_graph. destruct (resolve_files (map fst fs) false fs) as [g|].
  - left. exists g. destruct H as [H1 H2]. split; auto. split; auto.
    intros d [p [info [Hin Hd]]]. eapply H2; eauto.
  - right. destruct H. auto.
Qed.

Theorem make_graph_lenient : forall fs, sorted_map fs ->
    exists g, make_graph true fs = Some g /\ files_resolved fs g.
Proof.
  intros fs Hs. pose proof (resolve_files_spec fs true fs Hs (fun x H => H)) as H.
  unfold make_graph. destruct (resolve_files (map fst fs) true fs) as [g|].
  - exists g. destruct H. auto.
  - destruct H. discriminate.
Qed.

Lemma make_graph_resolved : forall ign fs g, sorted_map fs -> make_graph ign fs = Some g -> files_resolved fs g.
Proof.
  intros ign fs g Hs H. pose proof (resolve_files_spec fs ign fs Hs (fun x H => H)) as Hr.
  unfold make_graph in H. rewrite H in Hr. destruct Hr. auto.
Qed.

Lemma files_resolved_keys : forall fs g, files_resolved fs g -> map fst g = map fst fs.
Proof.
  intros fs g H. unfold files_resolved in H.
  assert (Hg : forall fs', Forall2 (file_resolved fs') fs g -> map fst g = map fst fs).
  { clear H. intros fs' H. induction H; simpl; auto. f_equal; auto. destruct H. auto. }
  eauto.
Qed.

Theorem get_node_spec : forall ign fs g name k, sorted_map fs -> make_graph ign fs = Some g ->
    (get_node g name = Some k <-> numbered fs k name).
Proof.
  intros ign fs g name k Hs Hg. unfold get_node, numbered.
  rewrite (files_resolved_keys fs g) by (eapply make_graph_resolved; eauto).
  apply find_node_spec. auto.
Qed.

Lemma get_node_none : forall ign fs g name, sorted_map fs -> make_graph ign fs = Some g ->
    (get_node g name = None <-> ~ known fs name).
Proof.
  intros ign fs g name Hs Hg. unfold get_node.
  rewrite (files_resolved_keys fs g) by (eapply make_graph_resolved; eauto).
  rewrite find_node_none, known_in; tauto.
Qed.

(** * The graph structure *)

Lemma Forall2_nth : forall A B (R : A -> B -> Prop) l m, Forall2 R l m ->
    forall k, match nth_error l k, nth_error m k with
              | Some x, Some y => R x y
              | None, None => True
              | _, _ => False
              end.
Proof.
  intros A B R l m H. induction H; intros k; destruct k; simpl; auto. apply IHForall2.
Qed.

Lemma Forall2_in_r : forall A B (R : A -> B -> Prop) l m y, Forall2 R l m -> In y m ->
    exists x, In x l /\ R x y.
Proof.
  intros A B R l m y H. induction H; simpl; intros Hin; [tauto|].
  destruct Hin as [->|Hin]; eauto. destruct (IHForall2 Hin) as [z [Hz Hr]]. eauto.
Qed.

Lemma Forall2_in_l : forall A B (R : A -> B -> Prop) l m x, Forall2 R l m -> In x l ->
    exists y, In y m /\ R x y.
Proof.
  intros A B R l m y H. induction H; simpl; intros Hin; [tauto|].
  destruct Hin as [->|Hin]; eauto. destruct (IHForall2 Hin) as [z [Hz Hr]]. eauto.
Qed.

Lemma step_reach : forall A (R : A -> A -> Prop) a b c,
    R a b -> clos_refl_trans A R b c -> clos_trans A R a c.
Proof.
  intros A R a b c H Hr. apply clos_rt_rt1n in Hr. revert a H. induction Hr; intros a Ha.
  - apply t_step. auto.
  - apply t_trans with x; [apply t_step; auto|auto].
Qed.

Section Resolved.
  Variables fs g : file_list.
  Hypothesis Hs : sorted_map fs.
  Hypothesis Hu : unresolved fs.
  Hypothesis Hg : files_resolved fs g.

  Lemma res_length : length (edges_of g) = length fs.
  Proof.
    unfold edges_of. rewrite map_length. rewrite <- (map_length fst g), <- (map_length fst fs).
    rewrite (files_resolved_keys fs g) by auto. auto.
  Qed.

  Lemma numbered_inj : forall k k' p, numbered fs k p -> numbered fs k' p -> k = k'.
  Proof.
    unfold numbered. intros k k' p H H'. apply (proj1 (NoDup_nth_error (map fst fs))); auto.
    - apply sorted_nodup. auto.
    - apply nth_error_Some. congruence.
    - congruence.
  Qed.

  Lemma numbered_lt : forall k p, numbered fs k p -> k < length fs.
  Proof.
    unfold numbered. intros k p H. rewrite <- (map_length fst fs). apply nth_error_Some. congruence.
  Qed.

  Lemma lt_numbered : forall k, k < length fs -> exists p, numbered fs k p.
  Proof.
    unfold numbered. intros k H. rewrite <- (map_length fst fs) in H. apply nth_error_Some in H.
    destruct (nth_error (map fst fs) k); [eauto|congruence].
  Qed.

  (** An edge in the graph is a declared dependency that could be resolved. *)
  Lemma edge_declared : forall u v e, edge_between dep_ref (edges_of g) u v e ->
      numbered fs v (dep_name e) /\
      exists p d, numbered fs u p /\ declared_by fs p d /\ dependency_resolved fs d e.
  Proof.
    intros u v e [es [Hn [Hin Hr]]]. unfold edges_of in Hn. rewrite nth_error_map in Hn.
    pose proof (Forall2_nth _ _ _ _ _ Hg u) as HF.
    destruct (nth_error g u) as [[p' info']|] eqn:Eg; [|discriminate].
    destruct (nth_error fs u) as [[p info]|] eqn:Ef; [|contradiction].
    simpl in Hn. inversion Hn; subst. destruct HF as [HF0 [HF1 [HF2 _]]]; simpl in *.
    assert (Hd : exists d, (In d (use_deps info) \/ In d (build_deps info)) /\ dependency_resolved fs d e).
    { unfold visit_edges in Hin. apply in_app_or in Hin. destruct Hin as [Hin|Hin].
      - destruct (Forall2_in_r _ _ _ _ _ _ HF1 Hin) as [d [Hd Hdr]]. eauto.
      - destruct (Forall2_in_r _ _ _ _ _ _ HF2 Hin) as [d [Hd Hdr]]. eauto. }
    destruct Hd as [d [Hd Hdr]].
    assert (Hdecl : declared_by fs p d). { exists info. split; auto. eapply nth_error_In; eauto. }
    split.
    - destruct Hdr as (Hname & _ & _ & Hk & Hnk). rewrite Hname.
      destruct (in_dec path_eq_dec (dep_name d) (map fst fs)) as [Hin'|Hnin].
      + apply known_in in Hin'. destruct Hin' as [k Hk']. rewrite (Hk k Hk') in Hr. inversion Hr; subst. auto.
      + rewrite <- known_in in Hnin. rewrite (Hnk Hnin) in Hr. rewrite (Hu d) in Hr; [discriminate|].
        exists p. auto.
    - exists p, d. split; auto. unfold numbered. rewrite nth_error_map, Ef. auto.
  Qed.

  Lemma declared_edge : forall p d u v, numbered fs u p -> declared_by fs p d -> numbered fs v (dep_name d) ->
      exists e, edge_between dep_ref (edges_of g) u v e /\ dependency_resolved fs d e.
  Proof.
    intros p d u v Hp [info [Hin Hd]] Hv.
    pose proof (Forall2_nth _ _ _ _ _ Hg u) as HF.
    unfold numbered in Hp. rewrite nth_error_map in Hp.
    destruct (nth_error fs u) as [[p0 info0]|] eqn:Ef; [|discriminate].
    simpl in Hp. inversion Hp; subst.
    destruct (nth_error g u) as [[p' info']|] eqn:Eg; [|contradiction].
    assert (info0 = info).
    { pose proof (nth_error_In _ _ Ef) as H0. apply (map_find_in _ fs p info0 Hs) in H0.
      apply (map_find_in _ fs p info Hs) in Hin. congruence. }
    subst info0. destruct HF as [HF0 [HF1 [HF2 _]]]; simpl in *.
    assert (He : exists e, In e (visit_edges info') /\ dependency_resolved fs d e).
    { unfold visit_edges. destruct Hd as [Hd|Hd].
      - destruct (Forall2_in_l _ _ _ _ _ _ HF1 Hd) as [e [He Hr]]. exists e. rewrite in_app_iff. auto.
      - destruct (Forall2_in_l _ _ _ _ _ _ HF2 Hd) as [e [He Hr]]. exists e. rewrite in_app_iff. auto. }
    destruct He as [e [He Hr]]. exists e. split; auto. exists (visit_edges info').
    unfold edges_of. rewrite nth_error_map, Eg. split; auto. split; auto.
    destruct Hr as (_ & _ & _ & Hk & _). auto.
  Qed.

  Lemma depends_files : forall u v p q, numbered fs u p -> numbered fs v q ->
      (depends dep_ref (edges_of g) u v <-> file_depends fs p q).
  Proof.
    intros u v p q Hp Hq. split.
    - intros [e He]. apply edge_declared in He. destruct He as [Hv [p' [d [Hp' [Hd Hr]]]]].
      assert (p' = p) by (unfold numbered in *; congruence). subst p'.
      split; [exists v; auto|]. exists d. split; auto.
      destruct Hr as [Hn _]. rewrite Hn in Hv. unfold numbered in *. congruence.
    - intros [_ [d [Hd Hn]]]. subst q. destruct (declared_edge _ _ _ _ Hp Hd Hq) as [e [He _]].
      exists e. auto.
  Qed.

  Lemma depends_left : forall u v, depends dep_ref (edges_of g) u v -> exists p, numbered fs u p.
  Proof.
    intros u v [e He]. apply edge_declared in He. destruct He as [_ [p [d [Hp _]]]]. eauto.
  Qed.

  Lemma depends_right : forall u v, depends dep_ref (edges_of g) u v -> exists q, numbered fs v q.
  Proof. intros u v [e He]. apply edge_declared in He. destruct He as [H _]. eauto. Qed.

  Lemma res_refs_in_range : refs_in_range dep_ref (edges_of g).
  Proof.
    intros u v H. rewrite res_length. destruct (depends_right _ _ H) as [q Hq]. eapply numbered_lt; eauto.
  Qed.

  Lemma reachable_files : forall u v p q, numbered fs u p -> numbered fs v q ->
      (reachable dep_ref (edges_of g) u v <-> file_reachable fs p q).
  Proof.
    intros u v p q Hp Hq. split; intro H.
    - apply clos_rt_rt1n in H. revert p Hp. induction H as [u|u w v Hd Hr IH]; intros p Hp.
      + assert (p = q) by (unfold numbered in *; congruence). subst. constructor.
      + destruct (depends_right _ _ Hd) as [r Hw]. apply reach_step with r; auto.
        apply (depends_files u w); auto.
    - revert u Hp. induction H as [p|p r q Hd Hr IH]; intros u Hp.
      + rewrite (numbered_inj _ _ _ Hp Hq). apply rt_refl.
      + destruct Hd as [[w Hw] Hd']. apply rt_trans with w.
        * apply rt_step. apply (depends_files u w p r); auto. split; auto. exists w. auto.
        * apply IH; auto.
  Qed.

  Lemma cycle_files : forall u p, numbered fs u p ->
      (on_cycle dep_ref (edges_of g) u <-> file_on_cycle fs p).
  Proof.
    intros u p Hp. split.
    - intro H. unfold on_cycle in H. apply clos_trans_t1n in H.
      assert (Hx : exists w, depends dep_ref (edges_of g) u w /\ reachable dep_ref (edges_of g) w u).
      { inversion H; subst.
        - exists u. split; auto. apply rt_refl.
        - exists y. split; auto. apply clos_t1n_trans in H1.
          clear - H1. induction H1; [apply rt_step; auto|eapply rt_trans; eauto]. }
      destruct Hx as [w [Hd Hr]]. destruct (depends_right _ _ Hd) as [q Hq].
      exists q. split; [apply (depends_files u w); auto|apply (reachable_files w u); auto].
    - intros [q [Hd Hr]]. destruct Hd as [[w Hw] Hd'].
      assert (depends dep_ref (edges_of g) u w).
      { apply (depends_files u w p q); auto. split; auto. exists w. auto. }
      assert (Hr' : reachable dep_ref (edges_of g) w u) by (apply (reachable_files w u q p); auto).
      unfold on_cycle. eapply step_reach; eauto.
  Qed.
End Resolved.

(** * Recursive dependencies *)

Lemma keep_named_spec : forall cs d, In d (keep_named cs) <->
    exists v, In (v, Some d) cs /\ dep_name d <> empty_path.
Proof.
  intros cs d. unfold keep_named. rewrite in_flat_map. split.
  - intros [[v oe] [Hin H]]. simpl in H. destruct oe as [d'|]; [|contradiction].
    destruct (path_eqb (dep_name d') empty_path) eqn:E; [contradiction|].
    destruct H as [->|[]]. exists v. split; auto. apply path_eqb_neq. auto.
  - intros [v [Hin Hne]]. exists (v, Some d). split; auto. simpl.
    apply path_eqb_neq in Hne. rewrite Hne. simpl. auto.
Qed.

Lemma reach_known : forall fs p q, file_reachable fs p q -> known fs p -> known fs q.
Proof. intros fs p q H. induction H; auto. intros _. apply IHfile_reachable. destruct H. auto. Qed.

Theorem use_deps_recursive_spec : forall ign fs g root p,
    sorted_map fs -> unresolved fs -> make_graph ign fs = Some g -> numbered fs root p ->
    ((exists q, file_reachable fs p q /\ file_on_cycle fs q) /\
     get_use_deps_recursive g root = DepsCyclic) \/
    ((~ exists q, file_reachable fs p q /\ file_on_cycle fs q) /\
     exists ds, get_use_deps_recursive g root = DepsFound ds /\
       NoDup (map dep_name ds) /\
       (forall q, In q (map dep_name ds) <-> file_reachable fs p q /\ q <> p /\ q <> empty_path) /\
       (forall d, In d ds -> exists k, dep_ref d = Some k /\ numbered fs k (dep_name d)) /\
       (forall d, In d ds -> exists q d0, file_reachable fs p q /\ declared_by fs q d0 /\
                                          dependency_resolved fs d0 d) /\
       (forall l1 d l2, ds = l1 ++ d :: l2 -> forall q, file_depends fs (dep_name d) q ->
                        q <> empty_path -> In q (map dep_name l1))).
Proof.
  intros ign fs g root p Hs Hu Hg Hp.
  pose proof (make_graph_resolved _ _ _ Hs Hg) as Hr.
  pose proof (res_refs_in_range fs g Hu Hr) as Hrange.
  assert (Hroot : root < length (edges_of g)).
  { rewrite (res_length fs g Hr). eapply numbered_lt; eauto. }
  unfold get_use_deps_recursive.
  destruct (from_root_ok _ dep_ref (edges_of g) root Hrange Hroot) as
      [[[u [Hru Hcu]] [cs Hcs]]|[Hno [cs [Hcs [Hnd [Hall [Hdf Hed]]]]]]]; rewrite Hcs.
  - left. split; auto.
    assert (Hk : u < length fs).
    { rewrite <- (res_length fs g Hr). clear - Hru Hrange Hroot.
      apply clos_rt_rtn1 in Hru. inversion Hru; subst; auto. eapply Hrange; eauto. }
    destruct (lt_numbered fs u Hk) as [q Hq]. exists q. split.
    + apply (reachable_files fs g Hs Hu Hr root u); auto.
    + apply (cycle_files fs g Hs Hu Hr u); auto.
  - right.
    assert (Hreachlt : forall v, reachable dep_ref (edges_of g) root v -> exists q, numbered fs v q).
    { intros v Hv. apply lt_numbered. rewrite <- (res_length fs g Hr).
      clear - Hv Hrange Hroot. apply clos_rt_rtn1 in Hv. inversion Hv; subst; auto. eapply Hrange; eauto. }
    assert (Hedge : forall v oe, In (v, oe) cs -> exists e, oe = Some e /\ numbered fs v (dep_name e) /\
                      dep_ref e = Some v /\
                      exists q d, file_reachable fs p q /\ declared_by fs q d /\ dependency_resolved fs d e).
    { intros v oe Hin. destruct (Hed v oe Hin) as [e [u [-> [Hru He]]]]. exists e. split; auto.
      pose proof He as He'. apply (edge_declared fs g Hu Hr) in He'.
      destruct He' as [Hv [q [d [Hq [Hd Hdr]]]]]. split; auto. split.
      - destruct He as [es [_ [_ Href]]]. auto.
      - exists q, d. split; auto. apply (reachable_files fs g Hs Hu Hr root u); auto. }
    assert (Hkn : keep_named (cs ++ [(root, None)]) = keep_named cs).
    { unfold keep_named. rewrite flat_map_app. simpl. rewrite app_nil_r. auto. }
    rewrite map_app in Hnd, Hall, Hdf. simpl in Hnd, Hall, Hdf.
    assert (Hnoroot : forall oe, ~ In (root, oe) cs).
    { intros oe Hin. apply NoDup_remove_2 in Hnd. apply Hnd. rewrite app_nil_r.
      apply in_map_iff. exists (root, oe). auto. }
    split.
    { intros [q [Hq Hc]]. apply Hno.
      assert (known fs q) as [v Hv]. { eapply reach_known; eauto. exists root. auto. }
      exists v. split.
      - apply (reachable_files fs g Hs Hu Hr root v p q); auto.
      - apply (cycle_files fs g Hs Hu Hr v q); auto. }
    exists (keep_named cs). rewrite Hkn. split; auto.
    split; [|split; [|split; [|split]]].
    + (* NoDup *)
      assert (Hnd' : NoDup (map fst cs)). { rewrite <- (app_nil_r (map fst cs)). eapply NoDup_remove_1. exact Hnd. }
      assert (He' : forall v oe, In (v, oe) cs -> exists e, oe = Some e /\ numbered fs v (dep_name e)).
      { intros v oe Hin. destruct (Hedge v oe Hin) as [e [? [? _]]]. eauto. }
      clear - Hnd' He' Hs. induction cs as [|[v oe] cs IH]; simpl in *; [constructor|].
      inversion Hnd'; subst. destruct (He' v oe) as [e [-> Hve]]; auto.
      assert (IHn : NoDup (map dep_name (keep_named cs))) by (apply IH; eauto).
      destruct (path_eqb (dep_name e) empty_path); simpl; auto.
      constructor; auto. intro Hin. apply in_map_iff in Hin. destruct Hin as [d [Hdn Hd]].
      apply keep_named_spec in Hd. destruct Hd as [w [Hw _]].
      destruct (He' w (Some d)) as [e' [He1 He2]]; auto. inversion He1; subst e'.
      rewrite Hdn in He2. rewrite (numbered_inj fs Hs v w (dep_name e)) in H1; auto.
      apply H1. apply in_map_iff. exists (w, Some d). auto.
    + (* exactly the reachable ones *)
      intros q. split.
      * intro Hin. apply in_map_iff in Hin. destruct Hin as [d [<- Hd]].
        apply keep_named_spec in Hd. destruct Hd as [v [Hv Hne]].
        destruct (Hedge v _ Hv) as [e [He [Hve [Href _]]]]. inversion He; subst e.
        assert (reachable dep_ref (edges_of g) root v).
        { apply Hall. apply in_or_app. left. apply in_map_iff. exists (v, Some d). auto. }
        split; [apply (reachable_files fs g Hs Hu Hr root v); auto|]. split; auto.
        intro Heq. rewrite Heq in Hve. rewrite (numbered_inj fs Hs v root p Hve Hp) in Hv.
        eapply Hnoroot; eauto.
      * intros [Hq [Hne Hne']].
        assert (known fs q) as [v Hv]. { eapply reach_known; eauto. exists root. auto. }
        assert (Hrv : reachable dep_ref (edges_of g) root v) by (apply (reachable_files fs g Hs Hu Hr root v p q); auto).
        apply Hall in Hrv. apply in_app_or in Hrv. destruct Hrv as [Hrv|[Hrv|[]]].
        { apply in_map_iff in Hrv. destruct Hrv as [[v' oe] [Hv' Hin]]. simpl in Hv'. subst v'.
          destruct (Hedge v oe Hin) as [e [-> [Hve _]]].
          assert (dep_name e = q) by (unfold numbered in *; congruence).
          apply in_map_iff. exists e. split; auto. apply keep_named_spec. exists v. split; auto. congruence. }
        { subst v. exfalso. apply Hne. unfold numbered in *. congruence. }
    + intros d Hd. apply keep_named_spec in Hd. destruct Hd as [v [Hv Hne]].
      destruct (Hedge v _ Hv) as [e [He [Hve [Href _]]]]. inversion He; subst e. eauto.
    + intros d Hd. apply keep_named_spec in Hd. destruct Hd as [v [Hv Hne]].
      destruct (Hedge v _ Hv) as [e [He [_ [_ Hx]]]]. inversion He; subst e. auto.
    + (* order *)
      intros l1 d l2 Heq q Hdep Hne.
      assert (Hsplit : exists c1 v c2, cs = c1 ++ (v, Some d) :: c2 /\ keep_named c1 = l1).
      { clear - Heq. revert l1 Heq. induction cs as [|[v oe] cs IH]; intros l1 Heq.
        - destruct l1; discriminate.
        - simpl in Heq.
          destruct oe as [e|]; simpl in Heq.
          + destruct (path_eqb (dep_name e) empty_path) eqn:E; simpl in Heq.
            * destruct (IH l1 Heq) as (c1 & v' & c2 & -> & Hc). exists ((v, Some e) :: c1), v', c2.
              split; auto. simpl. rewrite E. auto.
            * destruct l1 as [|x l1]; simpl in Heq.
              { inversion Heq; subst. exists [], v, cs. auto. }
              { inversion Heq; subst. destruct (IH l1 H1) as (c1 & v' & c2 & -> & Hc).
                exists ((v, Some x) :: c1), v', c2. split; auto. simpl. rewrite E. simpl. f_equal. auto. }
          + destruct (IH l1 Heq) as (c1 & v' & c2 & -> & Hc). exists ((v, None) :: c1), v', c2. auto. }
      destruct Hsplit as (c1 & v & c2 & -> & <-).
      destruct (Hedge v (Some d)) as [e [He [Hve [Href _]]]]. { apply in_or_app. simpl. auto. }
      inversion He; subst e.
      destruct Hdep as [[w Hw] Hd'].
      assert (Hdv : depends dep_ref (edges_of g) v w).
      { apply (depends_files fs g Hs Hu Hr v w (dep_name d) q); auto. split; auto. exists w. auto. }
      assert (Hin : In w (map fst c1)).
      { apply (Hdf (map fst c1) v (map fst c2 ++ [root])); auto.
        rewrite map_app. simpl. rewrite <- app_assoc. auto. }
      apply in_map_iff in Hin. destruct Hin as [[w' oe] [Hw' Hin]]. simpl in Hw'. subst w'.
      destruct (Hedge w oe) as [e [-> [Hwe _]]]. { apply in_or_app. auto. }
      apply in_map_iff. exists e. assert (dep_name e = q) by (unfold numbered in *; congruence).
      split; auto. apply keep_named_spec. exists w. split; auto. congruence.
Qed.
