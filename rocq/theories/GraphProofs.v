From Coq Require Import List Arith Lia Relations.
From Verif Require Import GraphModel GraphSpec.
Import ListNotations.

Section Proofs.
  Variable E : Type.
  Variable eref : E -> option nat.

  Local Notation graph := (list (list E)).
  Local Notation entry := (nat * option E)%type.

  Lemma set_mark_length : forall k m vis, length (set_mark k m vis) = length vis.
  Proof. induction k; destruct vis; simpl; auto. Qed.

  Lemma set_mark_same : forall k m vis, k < length vis -> nth_error (set_mark k m vis) k = Some m.
  Proof. induction k; destruct vis; simpl; intros; try lia; auto. apply IHk. lia. Qed.

  Lemma set_mark_other : forall k m vis j, j <> k -> nth_error (set_mark k m vis) j = nth_error vis j.
  Proof.
    induction k; destruct vis; simpl; intros; auto; destruct j; simpl; auto; try lia.
  Qed.

  Lemma process_edges_finished : forall vis es stk stk',
      process_edges eref vis es stk = Finished stk' ->
      exists new, stk' = new ++ stk /\ length new <= length es /\
                  (forall v e, In (v, e) new -> exists e0, e = Some e0 /\ In e0 es /\ eref e0 = Some v
                                                           /\ nth_error vis v = Some Init) /\
                  (forall e v, In e es -> eref e = Some v ->
                               nth_error vis v = Some Done \/
                               (nth_error vis v = Some Init /\ In v (map fst new))).
  Proof.
    induction es; simpl; intros stk stk' H.
    - inversion H; subst. exists []. simpl. repeat split; auto; intros; contradiction.
    - destruct (eref a) as [v|] eqn:Ea.
      + destruct (nth_error vis v) as [[]|] eqn:Ev; try discriminate.
        * apply IHes in H. destruct H as [new [H1 [H2 [H3 H4]]]].
          exists (new ++ [(v, Some a)]). rewrite <- app_assoc. simpl. split; auto. split.
          { rewrite app_length. simpl. lia. }
          split.
          { intros w e Hin. apply in_app_or in Hin. destruct Hin as [Hin|Hin].
            - apply H3 in Hin. destruct Hin as [e0 [? [? [? ?]]]]. exists e0. auto.
            - simpl in Hin. destruct Hin as [Hin|[]]. inversion Hin; subst. exists a. auto. }
          { intros e w [Hin|Hin] Hw.
            - subst. rewrite Ea in Hw. inversion Hw; subst. right. split; auto.
              rewrite map_app. apply in_or_app. right. simpl. auto.
            - destruct (H4 e w Hin Hw) as [?|[? ?]]; auto. right. split; auto.
              rewrite map_app. apply in_or_app. auto. }
        * apply IHes in H. destruct H as [new [H1 [H2 [H3 H4]]]].
          exists new. split; auto. split. { lia. } split.
          { intros w e Hin. apply H3 in Hin. destruct Hin as [e0 [? [? [? ?]]]]. exists e0. auto. }
          { intros e w [Hin|Hin] Hw; eauto. subst. rewrite Ea in Hw. inversion Hw; subst. auto. }
      + apply IHes in H. destruct H as [new [H1 [H2 [H3 H4]]]].
        exists new. split; auto. split. { lia. } split.
        { intros w e Hin. apply H3 in Hin. destruct Hin as [e0 [? [? [? ?]]]]. exists e0. auto. }
        { intros e w [Hin|Hin] Hw; eauto. subst. congruence. }
  Qed.

  Lemma process_edges_cyclic : forall vis es stk stk',
      process_edges eref vis es stk = Cyclic stk' ->
      exists e v, In e es /\ eref e = Some v /\ nth_error vis v = Some InProgress.
  Proof.
    induction es; simpl; intros stk stk' H; try discriminate.
    destruct (eref a) as [v|] eqn:Ea.
    - destruct (nth_error vis v) as [[]|] eqn:Ev; try discriminate.
      + apply IHes in H. destruct H as [e [w [? [? ?]]]]. eauto 6.
      + exists a, v. auto.
      + apply IHes in H. destruct H as [e [w [? [? ?]]]]. eauto 6.
    - apply IHes in H. destruct H as [e [w [? [? ?]]]]. eauto 6.
  Qed.

  Lemma process_edges_undefined : forall vis es stk,
      process_edges eref vis es stk = Undefined ->
      exists e v, In e es /\ eref e = Some v /\ nth_error vis v = None.
  Proof.
    induction es; simpl; intros stk H; try discriminate.
    destruct (eref a) as [v|] eqn:Ea.
    - destruct (nth_error vis v) as [[]|] eqn:Ev; try discriminate.
      + apply IHes in H. destruct H as [e [w [? [? ?]]]]. eauto 6.
      + apply IHes in H. destruct H as [e [w [? [? ?]]]]. eauto 6.
      + exists a, v. auto.
    - apply IHes in H. destruct H as [e [w [? [? ?]]]]. eauto 6.
  Qed.

  Lemma process_edges_fuel : forall vis es stk, process_edges eref vis es stk <> OutOfFuel.
  Proof.
    induction es; simpl; intros stk H; try discriminate.
    destruct (eref a) as [v|] eqn:Ea; [|eapply IHes; eauto].
    destruct (nth_error vis v) as [[]|] eqn:Ev; try discriminate; eapply IHes; eauto.
  Qed.

  (** * Termination measure *)

  Definition weight (m : mark) (es : list E) : nat :=
    match m with Init => 2 + length es | InProgress => 1 | Done => 0 end.

  Fixpoint weights (vis : list mark) (g : graph) : nat :=
    match vis, g with
    | m :: vis', es :: g' => weight m es + weights vis' g'
    | _, _ => 0
    end.

  Lemma weights_set : forall vis (g : graph) k m m' es,
      nth_error vis k = Some m -> nth_error g k = Some es ->
      weights (set_mark k m' vis) g + weight m es = weights vis g + weight m' es.
  Proof.
    induction vis; destruct g; destruct k; simpl; intros; try discriminate.
    - inversion H; inversion H0; subst. lia.
    - specialize (IHvis _ _ _ m' _ H H0). lia.
  Qed.

  Lemma weights_le_bound : forall vis (g : graph), weights vis g <= 2 * length g + edge_count g.
  Proof.
    induction vis; destruct g; simpl; try lia.
    specialize (IHvis g). destruct a; simpl; lia.
  Qed.

  Definition measure (g : graph) (s : dfs_state E) : nat :=
    length (stack s) + weights (visited s) g.

  Lemma dfs_step_measure : forall (g : graph) s top rest s',
      length (visited s) = length g ->
      stack s = top :: rest ->
      dfs_step eref g s top rest = Finished s' ->
      measure g s' < measure g s.
  Proof.
    intros g s top rest s' Hlen Hstk H. unfold dfs_step in H. unfold measure.
    destruct (nth_error (visited s) (fst top)) as [m|] eqn:Hm; try discriminate.
    destruct (nth_error g (fst top)) as [es|] eqn:Hes.
    2:{ exfalso. apply nth_error_None in Hes. assert (fst top < length (visited s)).
        { apply nth_error_Some. congruence. } lia. }
    destruct m.
    - destruct (process_edges eref (set_mark (fst top) InProgress (visited s)) es (stack s)) eqn:Hp;
        inversion H; subst; simpl.
      apply process_edges_finished in Hp. destruct Hp as [new [-> [Hl _]]].
      pose proof (weights_set _ _ _ _ InProgress _ Hm Hes) as Hw. simpl in Hw.
      rewrite app_length. lia.
    - inversion H; subst; simpl. rewrite Hstk. simpl.
      pose proof (weights_set _ _ _ _ Done _ Hm Hes) as Hw. simpl in Hw. lia.
    - inversion H; subst; simpl. rewrite Hstk. simpl. lia.
  Qed.

  (** * The loop invariant *)

  Record Inv (g : graph) (s : dfs_state E) : Prop := {
    inv_len : length (visited s) = length g;
    inv_stk : forall v, In v (map fst (stack s)) -> v < length g;
    inv_done : forall v, nth_error (visited s) v = Some Done <-> In v (map fst (calls s));
    inv_nodup : NoDup (map fst (calls s));
    inv_order : forall l1 u l2, map fst (calls s) = l1 ++ u :: l2 ->
                                forall v, depends eref g u v -> In v l2;
    inv_prog : forall u, nth_error (visited s) u = Some InProgress ->
                 exists s1 e s2, stack s = s1 ++ (u, e) :: s2 /\ ~ In u (map fst s1) /\
                   forall v, depends eref g u v ->
                             nth_error (visited s) v = Some Done \/ In v (map fst s1);
    inv_path : forall s1 v e s2 u, stack s = s1 ++ (v, e) :: s2 ->
                 nth_error (visited s) u = Some InProgress ->
                 ~ In u (map fst s1) -> u <> v -> In u (map fst s2) ->
                 clos_trans nat (depends eref g) u v
  }.

  Lemma nth_error_lt : forall A (l : list A) k x, nth_error l k = Some x -> k < length l.
  Proof. intros. apply nth_error_Some. congruence. Qed.

  Lemma app_split : forall A (s1 : list A) x s2 n m,
      n ++ m = s1 ++ x :: s2 ->
      (exists n2, n = s1 ++ x :: n2 /\ s2 = n2 ++ m) \/ (exists m1, s1 = n ++ m1 /\ m = m1 ++ x :: s2).
  Proof.
    induction s1; simpl; intros x s2 n m H.
    - destruct n; simpl in *.
      + right. exists []. auto.
      + inversion H; subst. left. exists n. auto.
    - destruct n; simpl in *.
      + right. exists (a :: s1). auto.
      + inversion H; subst. apply IHs1 in H2. destruct H2 as [[n2 [? ?]]|[m1 [? ?]]]; subst.
        * left. exists n2. auto.
        * right. exists m1. auto.
  Qed.

  Lemma mark_cases : forall (m : mark), m = Init \/ m = InProgress \/ m = Done.
  Proof. destruct m; auto. Qed.

  Lemma dfs_step_inv : forall (g : graph) s top rest s',
      refs_in_range eref g ->
      Inv g s -> stack s = top :: rest ->
      dfs_step eref g s top rest = Finished s' -> Inv g s'.
  Proof.
    intros g s [n et] rest s' Hwf HI Hstk H. destruct HI as [Ilen Istk Idone Inod Iord Iprog Ipath].
    unfold dfs_step in H. simpl in H.
    destruct (nth_error (visited s) n) as [m|] eqn:Hm; try discriminate.
    pose proof (nth_error_lt _ _ _ _ Hm) as Hn.
    destruct m.
    - (* Init *)
      destruct (nth_error g n) as [es|] eqn:Hes; try discriminate.
      destruct (process_edges eref (set_mark n InProgress (visited s)) es (stack s)) as [stk| | |] eqn:Hp;
        inversion H; subst; clear H.
      apply process_edges_finished in Hp. destruct Hp as [new [-> [_ [Hnew Hcov]]]].
      assert (Hother : forall j, j <> n -> nth_error (set_mark n InProgress (visited s)) j = nth_error (visited s) j)
        by (intros; apply set_mark_other; auto).
      assert (Hsame : nth_error (set_mark n InProgress (visited s)) n = Some InProgress)
        by (apply set_mark_same; auto).
      assert (Hnn : ~ In n (map fst new)).
      { intro Hin. apply in_map_iff in Hin. destruct Hin as [[x ex] [Hx Hin]]. simpl in Hx. subst x.
        apply Hnew in Hin. destruct Hin as [e0 [_ [_ [_ Hi]]]]. congruence. }
      assert (Hnewdep : forall v, In v (map fst new) -> depends eref g n v).
      { intros v Hin. apply in_map_iff in Hin. destruct Hin as [[x ex] [Hx Hin]]. simpl in Hx. subst x.
        apply Hnew in Hin. destruct Hin as [e0 [_ [Hin0 [He0 _]]]]. exists e0, es. auto. }
      assert (Hnewinit : forall v, In v (map fst new) ->
                 nth_error (set_mark n InProgress (visited s)) v = Some Init).
      { intros v Hin. apply in_map_iff in Hin. destruct Hin as [[x ex] [Hx Hin]]. simpl in Hx. subst x.
        apply Hnew in Hin. destruct Hin as [e0 [_ [_ [_ Hi]]]]. auto. }
      assert (Hreach : forall u, u <> n -> nth_error (visited s) u = Some InProgress ->
                                 clos_trans nat (depends eref g) u n).
      { intros u Hun Hu. apply (Ipath [] n et rest u); auto.
        destruct (Iprog u Hu) as [s1 [e [s2 [Hs [_ _]]]]]. rewrite Hstk in Hs.
        assert (In u (map fst ((n, et) :: rest))) as Hin.
        { rewrite Hs. rewrite map_app. apply in_or_app. right. simpl. auto. }
        simpl in Hin. destruct Hin; [congruence|auto]. }
      constructor; simpl.
      + rewrite set_mark_length. auto.
      + intros v Hin. rewrite map_app in Hin. apply in_app_or in Hin. destruct Hin as [Hin|Hin]; auto.
        apply (Hwf n). auto.
      + intros v. destruct (Nat.eq_dec v n) as [->|Hv].
        * rewrite Hsame. split; [discriminate|]. intro Hin. apply Idone in Hin. congruence.
        * rewrite Hother by auto. apply Idone.
      + auto.
      + auto.
      + intros u Hu. destruct (Nat.eq_dec u n) as [->|Hun].
        * exists new, et, rest. rewrite Hstk. split; auto. split; auto.
          intros v [e [es' [Hes' [Hin Hv]]]]. rewrite Hes in Hes'. inversion Hes'; subst es'.
          destruct (Hcov e v Hin Hv) as [Hd|[_ Hin']]; auto.
        * rewrite Hother in Hu by auto. destruct (Iprog u Hu) as [s1 [e [s2 [Hs [Hni Hdep]]]]].
          exists (new ++ s1), e, s2. rewrite Hs, app_assoc. split; auto. split.
          { rewrite map_app. intro Hin. apply in_app_or in Hin. destruct Hin as [Hin|Hin]; auto.
            apply Hnewinit in Hin. rewrite Hother in Hin by auto. congruence. }
          { intros v Hv. destruct (Hdep v Hv) as [Hd|Hin].
            - left. rewrite Hother; auto. intro; subst; congruence.
            - right. rewrite map_app. apply in_or_app. auto. }
      + intros s1 v e s2 u Hs Hu Hni Huv Hin2.
        apply app_split in Hs. destruct Hs as [[n2 [Hn1 Hs2]]|[m1 [Hs1 Hm1]]].
        * (* v is a new entry *)
          assert (Hdv : depends eref g n v).
          { apply Hnewdep. rewrite Hn1, map_app. apply in_or_app. right. simpl. auto. }
          destruct (Nat.eq_dec u n) as [->|Hun]; [apply t_step; auto|].
          rewrite Hother in Hu by auto. apply t_trans with n; [auto|apply t_step; auto].
        * (* v is an old entry *)
          subst s1. rewrite map_app in Hni.
          assert (Hni' : ~ In u (map fst m1)) by (intro; apply Hni; apply in_or_app; auto).
          destruct (Nat.eq_dec u n) as [->|Hun].
          { exfalso. rewrite Hstk in Hm1. destruct m1 as [|x m1].
            - simpl in Hm1. inversion Hm1; subst. congruence.
            - simpl in Hm1. inversion Hm1; subst. apply Hni'. simpl. auto. }
          { rewrite Hother in Hu by auto. eapply Ipath; eauto. }
    - (* InProgress *)
      inversion H; subst; clear H.
      assert (Hother : forall j, j <> n -> nth_error (set_mark n Done (visited s)) j = nth_error (visited s) j)
        by (intros; apply set_mark_other; auto).
      assert (Hsame : nth_error (set_mark n Done (visited s)) n = Some Done)
        by (apply set_mark_same; auto).
      assert (Hnotcalled : ~ In n (map fst (calls s))).
      { intro Hin. apply Idone in Hin. congruence. }
      assert (Hdeps : forall v, depends eref g n v -> In v (map fst (calls s))).
      { intros v Hv. destruct (Iprog n Hm) as [s1 [e [s2 [Hs [Hni Hdep]]]]].
        assert (s1 = []) as ->.
        { destruct s1 as [|x s1]; auto. exfalso. rewrite Hstk in Hs. simpl in Hs. inversion Hs; subst.
          apply Hni. simpl. auto. }
        destruct (Hdep v Hv) as [Hd|[]]. apply Idone. auto. }
      constructor; simpl.
      + rewrite set_mark_length. auto.
      + intros v Hin. apply Istk. rewrite Hstk. simpl. auto.
      + intros v. destruct (Nat.eq_dec v n) as [->|Hv].
        * rewrite Hsame. split; auto.
        * rewrite Hother by auto. rewrite Idone. split; auto. intros [?|?]; auto. congruence.
      + constructor; auto.
      + intros l1 u l2 Hl v Hv. destruct l1 as [|x l1]; simpl in Hl; inversion Hl; subst; auto.
        eapply Iord; eauto.
      + intros u Hu. destruct (Nat.eq_dec u n) as [->|Hun]; [congruence|].
        rewrite Hother in Hu by auto. destruct (Iprog u Hu) as [s1 [e [s2 [Hs [Hni Hdep]]]]].
        destruct s1 as [|x s1].
        { rewrite Hstk in Hs. simpl in Hs. inversion Hs; subst. congruence. }
        rewrite Hstk in Hs. simpl in Hs. inversion Hs; subst.
        exists s1, e, s2. split; auto. split.
        { intro Hin. apply Hni. simpl. auto. }
        { intros v Hv. destruct (Nat.eq_dec v n) as [->|Hvn].
          - left. auto.
          - rewrite Hother by auto. destruct (Hdep v Hv) as [?|[?|?]]; auto. simpl in *. congruence. }
      + intros s1 v e s2 u Hs Hu Hni Huv Hin2.
        destruct (Nat.eq_dec u n) as [->|Hun]; [congruence|].
        rewrite Hother in Hu by auto. eapply (Ipath ((n, et) :: s1)); eauto.
        * rewrite Hstk, Hs. reflexivity.
        * simpl. intros [?|?]; auto.
    - (* Done *)
      inversion H; subst; clear H.
      constructor; simpl; auto.
      + intros v Hin. apply Istk. rewrite Hstk. simpl. auto.
      + intros u Hu. destruct (Iprog u Hu) as [s1 [e [s2 [Hs [Hni Hdep]]]]].
        destruct s1 as [|x s1].
        { rewrite Hstk in Hs. simpl in Hs. inversion Hs; subst. congruence. }
        rewrite Hstk in Hs. simpl in Hs. inversion Hs; subst.
        exists s1, e, s2. split; auto. split.
        { intro Hin. apply Hni. simpl. auto. }
        { intros v Hv. destruct (Hdep v Hv) as [?|[?|?]]; auto. simpl in *. subst. auto. }
      + intros s1 v e s2 u Hs Hu Hni Huv Hin2.
        assert (u <> n) by (intro; subst; congruence).
        eapply (Ipath ((n, et) :: s1)); eauto.
        * rewrite Hstk, Hs. reflexivity.
        * simpl. intros [?|?]; auto.
  Qed.

  (** A cycle is only reported if there is one, reachable from where we are. *)
  Lemma dfs_step_cyclic : forall (g : graph) s top rest s',
      refs_in_range eref g ->
      Inv g s -> stack s = top :: rest ->
      dfs_step eref g s top rest = Cyclic s' ->
      on_cycle eref g (fst top) /\ calls s' = calls s.
  Proof.
    intros g s [n et] rest s' Hwf HI Hstk H. destruct HI as [Ilen Istk Idone Inod Iord Iprog Ipath].
    unfold dfs_step in H. simpl in *.
    destruct (nth_error (visited s) n) as [m|] eqn:Hm; try discriminate.
    pose proof (nth_error_lt _ _ _ _ Hm) as Hn.
    destruct m; try discriminate.
    destruct (nth_error g n) as [es|] eqn:Hes; try discriminate.
    destruct (process_edges eref (set_mark n InProgress (visited s)) es (stack s)) as [ |stk| | ] eqn:Hp;
      inversion H; subst; clear H. simpl. split; auto.
    apply process_edges_cyclic in Hp. destruct Hp as [e [v [Hin [Hv Hmv]]]].
    assert (Hd : depends eref g n v) by (exists e, es; auto).
    destruct (Nat.eq_dec v n) as [->|Hvn]; [apply t_step; auto|].
    rewrite set_mark_other in Hmv by auto.
    apply t_trans with v; [apply t_step; auto|].
    apply (Ipath [] n et rest v); auto.
    destruct (Iprog v Hmv) as [s1 [e' [s2 [Hs [_ _]]]]]. rewrite Hstk in Hs.
    assert (In v (map fst ((n, et) :: rest))) as Hin'.
    { rewrite Hs. rewrite map_app. apply in_or_app. right. simpl. auto. }
    simpl in Hin'. destruct Hin'; [congruence|auto].
  Qed.

  Lemma dfs_step_defined : forall (g : graph) s top rest,
      refs_in_range eref g ->
      Inv g s -> stack s = top :: rest ->
      dfs_step eref g s top rest <> Undefined /\ dfs_step eref g s top rest <> OutOfFuel.
  Proof.
    intros g s [n et] rest Hwf HI Hstk. destruct HI as [Ilen Istk Idone Inod Iord Iprog Ipath].
    unfold dfs_step. simpl.
    assert (n < length g) as Hn. { apply Istk. rewrite Hstk. simpl. auto. }
    destruct (nth_error (visited s) n) as [m|] eqn:Hm.
    2:{ apply nth_error_None in Hm. lia. }
    destruct (nth_error g n) as [es|] eqn:Hes.
    2:{ apply nth_error_None in Hes. lia. }
    destruct m; try (split; discriminate).
    destruct (process_edges eref (set_mark n InProgress (visited s)) es (stack s)) eqn:Hp;
      try (split; discriminate); exfalso.
    - apply process_edges_undefined in Hp. destruct Hp as [e [v [Hin [Hv Hnone]]]].
      apply nth_error_None in Hnone. rewrite set_mark_length in Hnone.
      assert (v < length g). { apply (Hwf n). exists e, es. auto. } lia.
    - eapply process_edges_fuel; eauto.
  Qed.

  (** * Extra invariant for a traversal started at [root] *)

  Definition from_root (g : graph) (root : nat) (x : entry) : Prop :=
    match snd x with
    | None => fst x = root
    | Some e => exists u, reachable eref g root u /\ edge_between eref g u (fst x) e
    end.

  Lemma from_root_reachable : forall g root x, from_root g root x -> reachable eref g root (fst x).
  Proof.
    intros g root [v [e|]] H; unfold from_root in H; simpl in *.
    - destruct H as [u [H1 H2]]. eapply rt_trans; eauto. apply rt_step. exists e. auto.
    - subst. apply rt_refl.
  Qed.

  (** [old] is the list of calls made before this traversal was started. *)
  Record RInv (g : graph) (root : nat) (old : list entry) (s : dfs_state E) : Prop := {
    ri_stack : Forall (from_root g root) (stack s);
    ri_calls : exists new, calls s = new ++ old /\ Forall (from_root g root) new;
    ri_root : (exists pre, stack s = pre ++ [(root, None)] /\ ~ In root (map fst pre) /\
                           (nth_error (visited s) root = Some InProgress \/
                            (pre = [] /\ nth_error (visited s) root = Some Init))) \/
              (stack s = [] /\ exists cs, calls s = (root, None) :: cs)
  }.

  Lemma dfs_step_rinv : forall (g : graph) root old s top rest s',
      RInv g root old s -> stack s = top :: rest ->
      dfs_step eref g s top rest = Finished s' -> RInv g root old s'.
  Proof.
    intros g root old s [n et] rest s' [Rs [new0 [Rc1 Rc2]] Rr] Hstk H.
    unfold dfs_step in H. simpl in H.
    destruct (nth_error (visited s) n) as [m|] eqn:Hm; try discriminate.
    pose proof (nth_error_lt _ _ _ _ Hm) as Hn.
    destruct Rr as [[pre [Hpre [Hnir Hrm]]]|[Hnil _]].
    2:{ rewrite Hnil in Hstk. discriminate. }
    assert (Htop : from_root g root (n, et)).
    { rewrite Hstk in Rs. inversion Rs; auto. }
    assert (Hrest : Forall (from_root g root) rest).
    { rewrite Hstk in Rs. inversion Rs; auto. }
    destruct m.
    - destruct (nth_error g n) as [es|] eqn:Hes; try discriminate.
      destruct (process_edges eref (set_mark n InProgress (visited s)) es (stack s)) as [stk| | |] eqn:Hp;
        inversion H; subst; clear H.
      apply process_edges_finished in Hp. destruct Hp as [new [-> [_ [Hnew Hcov]]]].
      constructor; simpl.
      + apply Forall_app. split; auto. apply Forall_forall. intros [v e] Hin.
        apply Hnew in Hin. destruct Hin as [e0 [-> [Hin0 [He0 _]]]]. unfold from_root. simpl.
        exists n. split; [apply (from_root_reachable g root (n, et)); auto|exists es; auto].
      + exists new0. auto.
      + left. exists (new ++ pre). rewrite Hpre, <- app_assoc. split; auto.
        assert (Hroot : nth_error (set_mark n InProgress (visited s)) root = Some InProgress).
        { destruct (Nat.eq_dec root n) as [->|Hrn]; [apply set_mark_same; auto|].
          rewrite set_mark_other by auto. destruct Hrm as [?|[-> _]]; auto.
          rewrite Hpre in Hstk. simpl in Hstk. inversion Hstk; subst. congruence. }
        split; auto.
        rewrite map_app. intro Hin. apply in_app_or in Hin. destruct Hin as [Hin|Hin]; auto.
        apply in_map_iff in Hin. destruct Hin as [[x ex] [Hx Hin]]. simpl in Hx. subst x.
        apply Hnew in Hin. destruct Hin as [e0 [_ [_ [_ Hi]]]]. congruence.
    - inversion H; subst; clear H. destruct pre as [|x pre].
      + rewrite Hpre in Hstk. simpl in Hstk. inversion Hstk; subst. constructor; simpl; auto.
        * exists ((n, None) :: new0). rewrite Rc1. split; auto.
        * right. split; auto. exists (calls s). auto.
      + rewrite Hpre in Hstk. simpl in Hstk. inversion Hstk; subst. constructor; simpl; auto.
        * exists ((n, et) :: new0). rewrite Rc1. split; auto.
        * left. exists pre. split; auto. simpl in Hnir. split; [tauto|].
          destruct Hrm as [Hrm|[? _]]; [|discriminate]. left. rewrite set_mark_other; auto.
    - inversion H; subst; clear H. destruct pre as [|x pre].
      + rewrite Hpre in Hstk. simpl in Hstk. inversion Hstk; subst.
        destruct Hrm as [?|[_ ?]]; congruence.
      + rewrite Hpre in Hstk. simpl in Hstk. inversion Hstk; subst. constructor; simpl; auto.
        * exists new0. auto.
        * left. exists pre. split; auto. simpl in Hnir. split; [tauto|].
          destruct Hrm as [Hrm|[? _]]; [|discriminate]. auto.
  Qed.

  (** * The loop *)

  Lemma dfs_loop_correct : forall (g : graph) root old fuel s,
      refs_in_range eref g ->
      Inv g s -> RInv g root old s -> measure g s <= fuel ->
      (exists s', dfs_loop eref fuel g s = Finished s' /\ Inv g s' /\ RInv g root old s' /\ stack s' = []) \/
      (exists s', dfs_loop eref fuel g s = Cyclic s' /\
                  (exists u, reachable eref g root u /\ on_cycle eref g u) /\
                  dependencies_first eref g (rev (map fst (calls s'))) /\
                  NoDup (map fst (calls s'))).
  Proof.
    induction fuel; intros s Hwf HI HR Hm.
    - unfold measure in Hm. destruct (stack s) eqn:Hs; simpl in Hm; [|lia].
      left. exists s. simpl. rewrite Hs. auto.
    - simpl. destruct (stack s) as [|top rest] eqn:Hs.
      + left. exists s. auto.
      + destruct (dfs_step eref g s top rest) as [s'|s'| |] eqn:Hst.
        * pose proof (dfs_step_measure _ _ _ _ _ (inv_len _ _ HI) Hs Hst).
          apply IHfuel; auto; try lia.
          { eapply dfs_step_inv; eauto. }
          { eapply dfs_step_rinv; eauto. }
        * right. exists s'. split; auto.
          destruct (dfs_step_cyclic _ _ _ _ _ Hwf HI Hs Hst) as [Hc Hcalls].
          split.
          { exists (fst top). split; auto. apply from_root_reachable.
            pose proof (ri_stack _ _ _ _ HR) as HF. rewrite Hs in HF. inversion HF; auto. }
          rewrite Hcalls. split; [|apply (inv_nodup _ _ HI)].
          intros l1 u l2 Hl v Hv.
          assert (map fst (calls s) = rev l2 ++ u :: rev l1) as Hl'.
          { rewrite <- (rev_involutive (map fst (calls s))), Hl, rev_app_distr. simpl.
            rewrite <- app_assoc. reflexivity. }
          apply in_rev. eapply (inv_order _ _ HI); eauto.
        * exfalso. destruct (dfs_step_defined _ _ _ _ Hwf HI Hs); congruence.
        * exfalso. destruct (dfs_step_defined _ _ _ _ Hwf HI Hs); congruence.
  Qed.

  (** State between two traversals: nothing on the stack, nothing in progress. *)
  Definition idle (g : graph) (vis : list mark) (cs : list entry) : Prop :=
    Inv g (mk_dfs vis [] cs).

  Lemma idle_no_progress : forall g vis cs u, idle g vis cs -> nth_error vis u <> Some InProgress.
  Proof.
    intros g vis cs u HI Hu. destruct (inv_prog _ _ HI u Hu) as [s1 [e [s2 [Hs _]]]].
    simpl in Hs. destruct s1; discriminate.
  Qed.

  Lemma idle_start : forall g, idle g (repeat Init (length g)) [].
  Proof.
    intros g. assert (forall u m, nth_error (repeat Init (length g)) u = Some m -> m = Init) as Hi.
    { intros u m Hu. apply nth_error_In in Hu. apply repeat_spec in Hu. auto. }
    constructor; simpl.
    - apply repeat_length.
    - intros v [].
    - intros v. split; [|intros []]. intro Hv. apply Hi in Hv. discriminate.
    - constructor.
    - intros l1 u l2 Hl. destruct l1; discriminate.
    - intros u Hu. apply Hi in Hu. discriminate.
    - intros s1 v e s2 u Hs. destruct s1; discriminate.
  Qed.

  Lemma process_from_correct : forall (g : graph) root vis cs,
      refs_in_range eref g -> root < length g -> idle g vis cs ->
      (exists s', process_from eref g root vis cs = Finished s' /\
                  idle g (visited s') (calls s') /\
                  (exists new, calls s' = new ++ cs /\ Forall (from_root g root) new /\
                     (nth_error vis root <> Some Done -> exists new', new = (root, None) :: new')) /\
                  In root (map fst (calls s'))) \/
      (exists s', process_from eref g root vis cs = Cyclic s' /\
                  (exists u, reachable eref g root u /\ on_cycle eref g u) /\
                  dependencies_first eref g (rev (map fst (calls s'))) /\
                  NoDup (map fst (calls s'))).
  Proof.
    intros g root vis cs Hwf Hr HI. unfold process_from.
    pose proof HI as HI0. destruct HI0 as [Ilen Istk Idone Inod Iord Iprog Ipath]. simpl in *.
    destruct (nth_error vis root) as [[]|] eqn:Hm.
    - destruct (dfs_loop_correct g root cs (loop_bound g) (mk_dfs vis [(root, None)] cs)) as [H|H]; auto.
      + constructor; simpl; auto.
        * intros v [<-|[]]; auto.
        * intros u Hu. exfalso. eapply idle_no_progress; eauto.
        * intros s1 v e s2 u Hs Hu. exfalso. eapply idle_no_progress; eauto.
      + constructor; simpl.
        * constructor; [reflexivity|constructor].
        * exists []. auto.
        * left. exists []. simpl. split; auto.
      + unfold measure. simpl. pose proof (weights_le_bound vis g). unfold loop_bound. lia.
      + destruct H as [s' [H1 [H2 [H3 H4]]]]. left. exists s'. split; auto. split.
        { unfold idle. destruct s' as [v' k' c']. simpl in *. subst k'. auto. }
        destruct H3 as [R1 [new [R2 R3]] R4].
        destruct R4 as [[pre [R5 _]]|[_ [cs' R5]]].
        { rewrite H4 in R5. destruct pre; discriminate. }
        split.
        { exists new. split; auto. split; auto. intros _.
          destruct new as [|x new].
          - exfalso. simpl in R2. rewrite R2 in R5.
            assert (nth_error vis root = Some Done).
            { apply Idone. rewrite R5. simpl. auto. }
            congruence.
          - simpl in R2. rewrite R2 in R5. inversion R5; subst. exists new. auto. }
        { rewrite R5. simpl. auto. }
    - exfalso. eapply idle_no_progress; eauto.
    - left. eexists. split; [reflexivity|]. simpl. split; auto. split.
      + exists []. split; auto. split; auto. intros H. congruence.
      + apply Idone. auto.
    - exfalso. apply nth_error_None in Hm. rewrite Ilen in Hm. lia.
  Qed.

  Lemma visit_nodes_correct : forall (g : graph) roots vis cs,
      refs_in_range eref g -> (forall r, In r roots -> r < length g) -> idle g vis cs ->
      (exists s', visit_nodes eref g roots vis cs = Finished s' /\ idle g (visited s') (calls s') /\
                  (forall r, In r roots \/ In r (map fst cs) -> In r (map fst (calls s')))) \/
      (exists s', visit_nodes eref g roots vis cs = Cyclic s' /\
                  (exists u, on_cycle eref g u) /\
                  dependencies_first eref g (rev (map fst (calls s'))) /\
                  NoDup (map fst (calls s'))).
  Proof.
    induction roots as [|r roots IH]; intros vis cs Hwf Hr HI; simpl.
    - left. eexists. split; [reflexivity|]. simpl. split; auto. intros r [[]|H]; auto.
    - destruct (process_from_correct g r vis cs Hwf) as [H|H]; auto.
      { apply Hr. simpl. auto. }
      + destruct H as [s' [H1 [H2 [[new [H3 _]] H4]]]]. rewrite H1.
        destruct (IH (visited s') (calls s') Hwf) as [H|H]; auto.
        { intros r' Hr'. apply Hr. simpl. auto. }
        * destruct H as [s'' [K1 [K2 K3]]]. left. exists s''. split; auto. split; auto.
          intros r' [[->|Hr']|Hr'].
          { apply K3. auto. }
          { apply K3. auto. }
          { apply K3. right. rewrite H3, map_app. apply in_or_app. auto. }
      + destruct H as [s' [H1 [[u [_ H2]] H3]]]. rewrite H1. right. exists s'. split; auto. split; auto.
        exists u. auto.
  Qed.

  (** * Consequences *)

  Lemma idle_deps_first : forall g vis cs, idle g vis cs -> dependencies_first eref g (map fst (rev cs)).
  Proof.
    intros g vis cs HI l1 u l2 Hl v Hv. rewrite map_rev in Hl.
    apply in_rev. eapply (inv_order _ _ HI); eauto. simpl.
    rewrite <- (rev_involutive (map fst cs)), Hl, rev_app_distr. simpl.
    rewrite <- app_assoc. reflexivity.
  Qed.

  Lemma closed_reachable : forall g l u v,
      dependencies_first eref g l -> In u l -> reachable eref g u v -> In v l.
  Proof.
    intros g l u v Hd Hu Hr. revert Hu. induction Hr; intros Hin; auto.
    apply in_split in Hin. destruct Hin as [l1 [l2 ->]].
    assert (In y l1) by (eapply Hd; eauto). apply in_or_app. auto.
  Qed.

  Lemma depends_first_position : forall g l l1 u l2 v,
      dependencies_first eref g l -> l = l1 ++ u :: l2 ->
      clos_trans nat (depends eref g) u v -> In v l1.
  Proof.
    intros g l l1 u l2 v Hd Hl Ht. apply clos_trans_t1n in Ht.
    revert l1 l2 Hl. induction Ht; intros l1 l2 Hl.
    - eapply Hd; eauto.
    - assert (In y l1) as Hy by (eapply Hd; eauto).
      apply in_split in Hy. destruct Hy as [a [b ->]].
      rewrite <- app_assoc in Hl. simpl in Hl.
      apply in_or_app. left. eapply IHHt; eauto.
  Qed.

  Lemma deps_first_acyclic : forall g l u,
      dependencies_first eref g l -> NoDup l -> In u l -> ~ on_cycle eref g u.
  Proof.
    intros g l u Hd Hn Hu Hc. apply in_split in Hu. destruct Hu as [l1 [l2 ->]].
    assert (In u l1) by (eapply depends_first_position; eauto).
    apply NoDup_remove_2 in Hn. apply Hn. apply in_or_app. auto.
  Qed.

  Lemma depends_lt : forall g u v, depends eref g u v -> u < length g.
  Proof. intros g u v [e [es [H _]]]. eapply nth_error_lt; eauto. Qed.

  Lemma on_cycle_lt : forall g u, on_cycle eref g u -> u < length g.
  Proof.
    intros g u H. unfold on_cycle in H. apply clos_trans_t1n in H.
    inversion H; subst; eapply depends_lt; eauto.
  Qed.

  Theorem topo_order : forall (g : graph) cs,
      refs_in_range eref g ->
      visitNodesInTopoOrder eref g = Completed cs ->
      NoDup (map fst cs) /\
      (forall v, In v (map fst cs) <-> v < length g) /\
      dependencies_first eref g (map fst cs).
  Proof.
    intros g cs Hwf H. unfold visitNodesInTopoOrder in H.
    destruct (visit_nodes_correct g (seq 0 (length g)) (repeat Init (length g)) [] Hwf) as [K|K].
    - intros r Hr. apply in_seq in Hr. lia.
    - apply idle_start.
    - destruct K as [s' [K1 [K2 K3]]]. rewrite K1 in H. simpl in H. inversion H; subst; clear H.
      split; [|split].
      + rewrite map_rev. apply NoDup_rev. apply (inv_nodup _ _ K2).
      + intros v. rewrite map_rev, <- in_rev. split; intro Hv.
        * apply (inv_done _ _ K2) in Hv. simpl in Hv. apply nth_error_lt in Hv.
          pose proof (inv_len _ _ K2). simpl in *. lia.
        * apply K3. left. apply in_seq. lia.
      + eapply idle_deps_first; eauto.
    - destruct K as [s' [K1 _]]. rewrite K1 in H. discriminate.
  Qed.

  Theorem topo_cycle : forall (g : graph),
      refs_in_range eref g ->
      (has_cycle eref g /\ exists cs, visitNodesInTopoOrder eref g = CycleError cs) \/
      (~ has_cycle eref g /\ exists cs, visitNodesInTopoOrder eref g = Completed cs).
  Proof.
    intros g Hwf.
    destruct (visit_nodes_correct g (seq 0 (length g)) (repeat Init (length g)) [] Hwf) as [K|K].
    - intros r Hr. apply in_seq in Hr. lia.
    - apply idle_start.
    - right. destruct K as [s' [K1 [K2 K3]]].
      assert (visitNodesInTopoOrder eref g = Completed (rev (calls s'))) as Hv.
      { unfold visitNodesInTopoOrder. rewrite K1. reflexivity. }
      split; [|eauto]. intros [u Hu].
      destruct (topo_order g _ Hwf Hv) as [T1 [T2 T3]].
      eapply deps_first_acyclic; eauto. apply T2. eapply on_cycle_lt; eauto.
    - left. destruct K as [s' [K1 [K2 _]]]. split; auto.
      exists (rev (calls s')). unfold visitNodesInTopoOrder. rewrite K1. reflexivity.
  Qed.

  Theorem topo_prefix : forall (g : graph) cs,
      refs_in_range eref g ->
      visitNodesInTopoOrder eref g = CycleError cs ->
      NoDup (map fst cs) /\ dependencies_first eref g (map fst cs).
  Proof.
    intros g cs Hwf H. unfold visitNodesInTopoOrder in H.
    destruct (visit_nodes_correct g (seq 0 (length g)) (repeat Init (length g)) [] Hwf) as [K|K].
    - intros r Hr. apply in_seq in Hr. lia.
    - apply idle_start.
    - destruct K as [s' [K1 _]]. rewrite K1 in H. discriminate.
    - destruct K as [s' [K1 [_ [K2 K3]]]]. rewrite K1 in H. simpl in H. inversion H; subst; clear H.
      split; [|rewrite map_rev; auto]. rewrite map_rev. apply NoDup_rev. auto.
  Qed.

  Theorem from_root_ok : forall (g : graph) root,
      refs_in_range eref g -> root < length g ->
      ((exists u, reachable eref g root u /\ on_cycle eref g u) /\
       exists cs, processGraphNodeRecursive eref g root = CycleError cs) \/
      ((~ exists u, reachable eref g root u /\ on_cycle eref g u) /\
       exists cs, processGraphNodeRecursive eref g root = Completed (cs ++ [(root, None)]) /\
                  NoDup (map fst (cs ++ [(root, None)])) /\
                  (forall v, In v (map fst (cs ++ [(root, None)])) <-> reachable eref g root v) /\
                  dependencies_first eref g (map fst (cs ++ [(root, None)])) /\
                  (forall v oe, In (v, oe) cs ->
                     exists e u, oe = Some e /\ reachable eref g root u /\ edge_between eref g u v e)).
  Proof.
    intros g root Hwf Hr. unfold processGraphNodeRecursive.
    destruct (process_from_correct g root (repeat Init (length g)) [] Hwf Hr (idle_start g)) as [H|H].
    - right. destruct H as [s' [H1 [H2 [[new [H3 [H4 H5]]] H6]]]].
      rewrite H1. simpl. rewrite app_nil_r in H3.
      destruct H5 as [new' ->].
      { intro Hc. apply nth_error_In in Hc. apply repeat_spec in Hc. discriminate. }
      rewrite H3 in *. simpl.
      assert (D : dependencies_first eref g (map fst (rev new' ++ [(root, None)]))).
      { pose proof (idle_deps_first g _ _ H2) as D. simpl in D. exact D. }
      assert (N : NoDup (map fst (rev new' ++ [(root, None)]))).
      { pose proof (inv_nodup _ _ H2) as N. simpl in N.
        change (rev new' ++ [(root, None)]) with (rev ((root, @None E) :: new')).
        rewrite map_rev. apply NoDup_rev. exact N. }
      assert (R : forall v, In v (map fst (rev new' ++ [(root, None)])) <-> reachable eref g root v).
      { intros v. split; intro Hv.
        - apply in_map_iff in Hv. destruct Hv as [x [<- Hx]].
          apply from_root_reachable. rewrite Forall_forall in H4. apply H4.
          apply in_app_or in Hx. simpl in *. destruct Hx as [Hx|[Hx|[]]]; auto.
          right. apply in_rev. auto.
        - eapply closed_reachable; eauto. rewrite map_app. apply in_or_app. right. simpl. auto. }
      split.
      { intros [u [Hu1 Hu2]]. eapply deps_first_acyclic; eauto. apply R. auto. }
      exists (rev new'). split; auto. split; auto. split; auto. split; auto.
      intros v oe Hin.
      assert (F : from_root g root (v, oe)).
      { rewrite Forall_forall in H4. apply H4. right. apply in_rev. auto. }
      destruct oe as [e|].
      + unfold from_root in F. simpl in F. destruct F as [u [F1 F2]]. exists e, u. auto.
      + exfalso. unfold from_root in F. simpl in F. subst v.
        rewrite map_app in N. simpl in N. apply NoDup_remove_2 in N. rewrite app_nil_r in N.
        apply N. apply in_map_iff. exists (root, None). auto.
    - left. destruct H as [s' [H1 [H2 _]]]. split; auto. rewrite H1. simpl. eauto.
  Qed.
End Proofs.
