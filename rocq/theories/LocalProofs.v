(** Proofs for C102. *)

From Coq Require Import List Arith Bool Lia.
From Verif Require Import Str Path SMap PathProofs DbModel GraphModel GraphSpec GraphProofs DepGraphModel DepGraphSpec DepGraphProofs.
From Verif Require Import FileListModel FileListSpec FileListProofs TaskListModel TaskListSpec BuildModel BuildSpec LocalSpec.
Import ListNotations.

(** * Traversal of a part of a graph *)

Section Embed.
  (** Node [k] of [g] is node [k'] of [g'] if [phi k k']. *)
  Variables g g' : list (list dependency).
  Variable phi : nat -> nat -> Prop.
  Hypothesis phi_right : forall a b b', phi a b -> phi a b' -> b = b'.
  Hypothesis phi_left : forall a a' b, phi a b -> phi a' b -> a = a'.

  Definition same_edge (d d' : dependency) : Prop :=
    same_dependency d d' /\
    match dep_ref d, dep_ref d' with
    | None, None => True
    | Some k, Some k' => phi k k'
    | _, _ => False
    end.

  Hypothesis phi_edges : forall k k', phi k k' ->
    exists es es', nth_error g k = Some es /\ nth_error g' k' = Some es' /\ Forall2 same_edge es es'.

  Definition same_entry (x x' : nat * option dependency) : Prop :=
    phi (fst x) (fst x') /\
    match snd x, snd x' with
    | None, None => True
    | Some d, Some d' => same_edge d d'
    | _, _ => False
    end.

  Definition same_marks (m m' : list mark) : Prop := forall k k', phi k k' -> nth_error m k = nth_error m' k'.

  Lemma set_mark_nth m k x : forall j, nth_error (set_mark k x m) j = if Nat.eqb j k then option_map (fun _ => x) (nth_error m k) else nth_error m j.
  Proof.
    revert k. induction m as [|y m IH]; intros k j; cbn [set_mark].
    - assert (N : forall A n, nth_error (@nil A) n = None) by (intros A [|n]; reflexivity). assert (N' : set_mark k x [] = []) by (destruct k; reflexivity).
      rewrite N', !N. destruct (Nat.eqb j k); reflexivity.
    - destruct k as [|k]; destruct j as [|j]; cbn [nth_error Nat.eqb option_map]; try reflexivity. apply IH.
  Qed.

  Lemma set_same_marks m m' k k' x : phi k k' -> same_marks m m' -> same_marks (set_mark k x m) (set_mark k' x m').
  Proof.
    intros P M j j' Q. rewrite !set_mark_nth.
    destruct (Nat.eqb j k) eqn:E; destruct (Nat.eqb j' k') eqn:E'.
    - now rewrite (M _ _ P).
    - apply Nat.eqb_eq in E. subst j. apply Nat.eqb_neq in E'. destruct E'. eapply phi_right; eassumption.
    - apply Nat.eqb_eq in E'. subst j'. apply Nat.eqb_neq in E. destruct E. eapply phi_left; eassumption.
    - now apply M.
  Qed.

  Lemma same_edges_processed m m' : same_marks m m' -> forall es es', Forall2 same_edge es es' ->
    forall stk stk', Forall2 same_entry stk stk' ->
    match process_edges dep_ref m es stk, process_edges dep_ref m' es' stk' with
    | Finished s, Finished s' => Forall2 same_entry s s'
    | Cyclic _, Cyclic _ => True
    | Undefined, Undefined => True
    | OutOfFuel, OutOfFuel => True
    | _, _ => False
    end.
  Proof.
    intros M es es' F. induction F as [|d d' es es' E F IH]; intros stk stk' S; cbn [process_edges]; [exact S|].
    pose proof (proj2 E) as R. destruct (dep_ref d) as [v|]; destruct (dep_ref d') as [v'|]; try contradiction; [|now apply IH].
    rewrite (M _ _ R). destruct (nth_error m' v') as [[| |]|]; try exact I; [|now apply IH].
    apply IH. constructor; [|exact S]. split; [exact R|exact E].
  Qed.

  Definition same_state (s s' : dfs_state dependency) : Prop :=
    same_marks (visited s) (visited s') /\ Forall2 same_entry (stack s) (stack s') /\ Forall2 same_entry (calls s) (calls s').

  Lemma same_loop fuel : forall fuel' s s', same_state s s' ->
    dfs_loop dep_ref fuel g s <> OutOfFuel -> dfs_loop dep_ref fuel' g' s' <> OutOfFuel ->
    match dfs_loop dep_ref fuel g s, dfs_loop dep_ref fuel' g' s' with
    | Finished s1, Finished s2 => same_state s1 s2
    | Cyclic _, Cyclic _ => True
    | Undefined, Undefined => True
    | _, _ => False
    end.
  Proof.
    induction fuel as [|fuel IH]; intros fuel' s s' S N N'.
    - destruct S as (M & K & C). destruct s as [vi st ca]; destruct s' as [vi' st' ca']. cbn [stack visited calls] in *.
      inversion K; subst; cbn [dfs_loop stack] in *; [|destruct (N eq_refl)].
      destruct fuel'; cbn [dfs_loop stack]; repeat split; assumption.
    - pose proof S as (M & K & C). destruct s as [vi st ca]; destruct s' as [vi' st' ca']. cbn [stack visited calls] in *.
      destruct K as [|top top' st st' T K].
      { destruct fuel'; cbn [dfs_loop stack]; repeat split; try assumption; constructor. }
      destruct fuel' as [|fuel']; [destruct (N' eq_refl)|]. cbn [dfs_loop stack] in *.
      assert (R : match dfs_step dep_ref g (mk_dfs vi (top :: st) ca) top st, dfs_step dep_ref g' (mk_dfs vi' (top' :: st') ca') top' st' with
                  | Finished s1, Finished s2 => same_state s1 s2
                  | Cyclic _, Cyclic _ => True
                  | Undefined, Undefined => True
                  | OutOfFuel, OutOfFuel => True
                  | _, _ => False
                  end).
      { unfold dfs_step. cbn [visited stack calls]. pose proof (proj1 T) as P. rewrite (M _ _ P).
        destruct (nth_error vi' (fst top')) as [[| |]|]; try exact I.
        - destruct (phi_edges _ _ P) as (es & es' & E1 & E2 & F). rewrite E1, E2.
          pose proof (same_edges_processed _ _ (set_same_marks _ _ _ _ InProgress P M) _ _ F (top :: st) (top' :: st')) as Q.
          specialize (Q (Forall2_cons _ _ T K)).
          destruct (process_edges dep_ref (set_mark (fst top) InProgress vi) es (top :: st)) as [a|a| |];
            destruct (process_edges dep_ref (set_mark (fst top') InProgress vi') es' (top' :: st')) as [b|b| |]; try contradiction; try exact I.
          split; [|split]; [exact (set_same_marks _ _ _ _ _ P M)|exact Q|exact C].
        - split; [|split]; cbn [visited stack calls]; [exact (set_same_marks _ _ _ _ _ P M)|exact K|now constructor].
        - split; [|split]; assumption. }
      destruct (dfs_step dep_ref g (mk_dfs vi (top :: st) ca) top st) as [a|a| |];
        destruct (dfs_step dep_ref g' (mk_dfs vi' (top' :: st') ca') top' st') as [b|b| |]; try contradiction; try exact I.
      now apply IH.
  Qed.

  Hypothesis range : refs_in_range dep_ref g.
  Hypothesis range' : refs_in_range dep_ref g'.

  Lemma phi_length k k' : phi k k' -> k < length g /\ k' < length g'.
  Proof.
    intro P. destruct (phi_edges _ _ P) as (es & es' & E1 & E2 & _). split; apply nth_error_Some; congruence.
  Qed.

  Lemma traversal_same_all k k' : phi k k' ->
    match processGraphNodeRecursive dep_ref g k, processGraphNodeRecursive dep_ref g' k' with
    | Completed cs, Completed cs' => Forall2 same_entry cs cs'
    | CycleError _, CycleError _ => True
    | _, _ => False
    end.
  Proof.
    intros P. destruct (phi_length _ _ P) as [L L'].
    assert (N : processGraphNodeRecursive dep_ref g k <> VisitOutOfFuel /\ processGraphNodeRecursive dep_ref g k <> VisitUndefined).
    { destruct (from_root_ok _ dep_ref g k range L) as [[_ [c E]]|[_ [c [E _]]]]; rewrite E; split; discriminate. }
    assert (N' : processGraphNodeRecursive dep_ref g' k' <> VisitOutOfFuel /\ processGraphNodeRecursive dep_ref g' k' <> VisitUndefined).
    { destruct (from_root_ok _ dep_ref g' k' range' L') as [[_ [c E]]|[_ [c [E _]]]]; rewrite E; split; discriminate. }
    unfold processGraphNodeRecursive, process_from in *.
    assert (R : forall n j, j < n -> nth_error (repeat Init n) j = Some Init).
    { clear. induction n as [|n IH]; intros j J; [lia|]. destruct j as [|j]; [reflexivity|]. apply IH. lia. }
    rewrite (R _ _ L) in N |- *. rewrite (R _ _ L') in N' |- *.
    assert (S : same_state (mk_dfs (repeat Init (length g)) [(k, None)] []) (mk_dfs (repeat Init (length g')) [(k', None)] [])).
    { split; [|split]; cbn [visited stack calls]; [|now repeat constructor|constructor].
      intros a b Q. destruct (phi_length _ _ Q) as [A B]. now rewrite (R _ _ A), (R _ _ B). }
    pose proof (same_loop (loop_bound g) (loop_bound g') _ _ S) as Q.
    destruct (dfs_loop dep_ref (loop_bound g) g _) as [s|s| |];
      [| |destruct (proj2 N eq_refl)|destruct (proj1 N eq_refl)];
      (destruct (dfs_loop dep_ref (loop_bound g') g' _) as [s'|s'| |];
       [| |destruct (proj2 N' eq_refl)|destruct (proj1 N' eq_refl)]); cbn [to_result];
      pose proof (Q ltac:(discriminate) ltac:(discriminate)) as X; try contradiction; [|exact I].
    destruct X as (_ & _ & C).
    clear - C. induction C as [|x x' l l' X C IH]; [constructor|]. cbn [rev]. apply Forall2_app; [exact IH|constructor; [exact X|constructor]].
  Qed.
End Embed.

(** * Resolving the dependencies of a part of a list of files *)

Section Resolve.
  Variables m m' g g' : file_list.
  Hypothesis Hs : sorted_map m.
  Hypothesis Hs' : sorted_map m'.
  Hypothesis Hu : unresolved m.
  Hypothesis Hu' : unresolved m'.
  Hypothesis Hr : files_resolved m g.
  Hypothesis Hr' : files_resolved m' g'.
  Hypothesis Hsame : forall p i, In (p, i) m -> exists i', In (p, i') m' /\
    Forall2 same_dependency (use_deps i) (use_deps i') /\ Forall2 same_dependency (build_deps i) (build_deps i').
  Hypothesis Hclosed : forall d, declared m d -> known m' (dep_name d) -> known m (dep_name d).

  Definition same_node (k k' : nat) : Prop := exists p, numbered m k p /\ numbered m' k' p.

  Lemma same_node_right a b b' : same_node a b -> same_node a b' -> b = b'.
  Proof.
    intros (p & A & B) (q & A' & B'). unfold numbered in A, A'. rewrite A in A'. injection A' as <-.
    exact (numbered_inj m' Hs' b b' p B B').
  Qed.

  Lemma same_node_left a a' b : same_node a b -> same_node a' b -> a = a'.
  Proof.
    intros (p & A & B) (q & A' & B'). unfold numbered in B, B'. rewrite B in B'. injection B' as <-.
    exact (numbered_inj m Hs a a' p A A').
  Qed.

  Lemma known_both p : known m p -> known m' p.
  Proof.
    intro K. apply known_in in K. apply in_map_iff in K. destruct K as ([q i] & <- & I). destruct (Hsame _ _ I) as (i' & I' & _).
    apply known_in. apply in_map_iff. now exists (q, i').
  Qed.

  Lemma resolved_edge d d' r r' : declared m d -> declared m' d' -> same_dependency d d' ->
    dependency_resolved m d r -> dependency_resolved m' d' r' -> same_edge same_node r r'.
  Proof.
    intros D D' (N & O & P) (A1 & A2 & A3 & A4 & A5) (B1 & B2 & B3 & B4 & B5).
    split; [split; [congruence|split; congruence]|].
    destruct (in_dec path_eq_dec (dep_name d) (map fst m)) as [I|I].
    - apply known_in in I. pose proof (known_both _ I) as (k' & K'). destruct I as (k & K).
      rewrite (A4 _ K). rewrite N in B4. rewrite (B4 _ K'). now exists (dep_name d).
    - assert (A : ~ known m (dep_name d)) by (intro H; apply I; now apply known_in).
      rewrite (A5 A), (Hu _ D). rewrite N in B5. rewrite (B5 (fun H => A (Hclosed _ D H))), (Hu' _ D'). exact Logic.I.
  Qed.

  Lemma resolved_edges p i i' l l' : In (p, i) m -> In (p, i') m' ->
    forall ds ds', (forall d, In d ds -> In d (use_deps i) \/ In d (build_deps i)) ->
    (forall d, In d ds' -> In d (use_deps i') \/ In d (build_deps i')) ->
    Forall2 same_dependency ds ds' -> Forall2 (dependency_resolved m) ds l -> Forall2 (dependency_resolved m') ds' l' ->
    Forall2 (same_edge same_node) l l'.
  Proof.
    intros I I' ds ds' S S' F. revert l l' S S'. induction F as [|d d' ds ds' E F IH]; intros l l' S S' L L'.
    - inversion L. inversion L'. constructor.
    - inversion L as [|? r ? l0 R L0]. inversion L' as [|? r' ? l0' R' L0']. subst. constructor.
      + apply (resolved_edge d d'); try assumption.
        * exists p, i. split; [exact I|]. apply S. now left.
        * exists p, i'. split; [exact I'|]. apply S'. now left.
      + apply IH; try assumption; intros x X; [apply S|apply S']; now right.
  Qed.

  (** A file in both graphs *)
  Lemma same_nodes_found k k' : same_node k k' -> exists p i i' j j',
    nth_error m k = Some (p, i) /\ nth_error m' k' = Some (p, i') /\ nth_error g k = Some (p, j) /\ nth_error g' k' = Some (p, j') /\
    Forall2 same_dependency (use_deps i) (use_deps i') /\ Forall2 same_dependency (build_deps i) (build_deps i') /\
    file_resolved m (p, i) (p, j) /\ file_resolved m' (p, i') (p, j').
  Proof.
    intros (p & K & K'). unfold numbered in K, K'. rewrite nth_error_map in K, K'.
    pose proof (Forall2_nth _ _ _ _ _ Hr k) as F. pose proof (Forall2_nth _ _ _ _ _ Hr' k') as F'.
    destruct (nth_error m k) as [[q i]|] eqn:E; [|discriminate]. destruct (nth_error m' k') as [[q' i']|] eqn:E'; [|discriminate].
    cbn [option_map fst] in K, K'. injection K as ->. injection K' as ->.
    destruct (nth_error g k) as [[q j]|]; [|contradiction]. destruct (nth_error g' k') as [[q' j']|]; [|contradiction].
    assert (q = p) by exact (proj1 F). assert (q' = p) by exact (proj1 F'). subst q q'.
    destruct (Hsame p i (nth_error_In _ _ E)) as (i0 & I0 & S1 & S2).
    rewrite (sorted_in_unique _ _ _ _ _ Hs' I0 (nth_error_In _ _ E')) in S1, S2.
    exists p, i, i', j, j'. repeat (split; [reflexivity|]). repeat split; try assumption; try apply F; apply F'.
  Qed.

  Lemma same_node_edges k k' : same_node k k' ->
    exists es es', nth_error (edges_of g) k = Some es /\ nth_error (edges_of g') k' = Some es' /\ Forall2 (same_edge same_node) es es'.
  Proof.
    intro S. destruct (same_nodes_found _ _ S) as (p & i & i' & j & j' & E & E' & G & G' & F1 & F2 & R & R').
    exists (visit_edges j), (visit_edges j'). unfold edges_of. rewrite !nth_error_map, G, G'.
    split; [reflexivity|]. split; [reflexivity|]. apply nth_error_In in E, E'.
    destruct R as (_ & U & B & _). destruct R' as (_ & U' & B' & _). cbn [snd] in U, B, U', B'.
    apply Forall2_app.
    - apply (resolved_edges p i i' _ _ E E' (use_deps i) (use_deps i')); auto.
    - apply (resolved_edges p i i' _ _ E E' (build_deps i) (build_deps i')); auto.
  Qed.

  Lemma same_traversal_all k k' : same_node k k' ->
    match processGraphNodeRecursive dep_ref (edges_of g) k, processGraphNodeRecursive dep_ref (edges_of g') k' with
    | Completed cs, Completed cs' => Forall2 (same_entry same_node) cs cs'
    | CycleError _, CycleError _ => True
    | _, _ => False
    end.
  Proof.
    intros S. refine (traversal_same_all (edges_of g) (edges_of g') same_node same_node_right same_node_left same_node_edges _ _ k k' S).
    - exact (res_refs_in_range m g Hu Hr).
    - exact (res_refs_in_range m' g' Hu' Hr').
  Qed.

  Lemma same_traversal k k' cs : same_node k k' -> processGraphNodeRecursive dep_ref (edges_of g) k = Completed cs ->
    exists cs', processGraphNodeRecursive dep_ref (edges_of g') k' = Completed cs' /\ Forall2 (same_entry same_node) cs cs'.
  Proof.
    intros S H. pose proof (same_traversal_all k k' S) as Q. rewrite H in Q.
    destruct (processGraphNodeRecursive dep_ref (edges_of g') k') as [cs'| | |]; try contradiction. exists cs'. now split.
  Qed.
End Resolve.

(** * Dependencies taken over from targets *)

Definition with_target_deps (m : file_list) (i : source_file_info) : source_file_info :=
  if use_target_deps i then set_use_deps (use_deps i ++ target_use_deps m (targets i)) i else i.

Section TargetDeps.
  Variable m : file_list.
  Hypothesis Hs : sorted_map m.
  Hypothesis Hown : forall p i t, In (p, i) m -> use_target_deps i = true -> In t (targets i) ->
    ti_name t = p \/ forall j, In (ti_name t, j) m -> use_target_deps j = false.

  Definition done_at (done : list path) (p : path) (i : source_file_info) : source_file_info :=
    if in_dec path_eq_dec p done then with_target_deps m i else i.

  Definition handled (done : list path) (c : file_list) : Prop :=
    map fst c = map fst m /\ forall p i, In (p, i) m -> In (p, done_at done p i) c.

  Lemma handled_find done c p : handled done c -> map_find p c = option_map (done_at done p) (map_find p m).
  Proof.
    intros [K H]. assert (S : sorted_map c) by (unfold sorted_map, keys; rewrite K; exact Hs).
    destruct (map_find p m) as [i|] eqn:E; cbn [option_map].
    - apply map_find_in; [exact S|]. apply H. now apply map_find_in.
    - apply map_find_none; [exact S|]. apply map_find_none in E; [|exact Hs]. unfold keys. now rewrite K.
  Qed.

  Lemma with_target_deps_false i : use_target_deps i = false -> with_target_deps m i = i.
  Proof. intro H. unfold with_target_deps. now rewrite H. Qed.

  Lemma handled_targets done c p i : handled done c -> In (p, i) m -> ~ In p done -> use_target_deps i = true ->
    target_use_deps c (targets i) = target_use_deps m (targets i).
  Proof.
    intros H I N U. assert (T : forall t, In t (targets i) -> map_find (ti_name t) c = map_find (ti_name t) m).
    { intros t J. rewrite (handled_find done c _ H). destruct (map_find (ti_name t) m) as [j|] eqn:E; [|reflexivity].
      cbn [option_map]. f_equal. unfold done_at. destruct (in_dec path_eq_dec (ti_name t) done) as [D|_]; [|reflexivity].
      apply map_find_in in E; [|exact Hs]. destruct (Hown _ _ _ I U J) as [<-|F]; [contradiction|].
      exact (with_target_deps_false j (F j E)). }
    unfold target_use_deps. induction (targets i) as [|t ts IH]; [reflexivity|]. cbn [flat_map].
    rewrite (T t (or_introl eq_refl)), IH by (intros x X; apply T; now right). reflexivity.
  Qed.

  Lemma handled_step done c p : handled done c -> ~ In p done -> handled (p :: done) (add_target_deps_to c p).
  Proof.
    intros H N. unfold add_target_deps_to. rewrite (handled_find done c p H).
    assert (Other : forall q i, q <> p -> done_at (p :: done) q i = done_at done q i).
    { intros q i Q. unfold done_at. destruct (in_dec path_eq_dec q (p :: done)) as [[E|D]|D];
        destruct (in_dec path_eq_dec q done) as [D'|D']; try reflexivity; try contradiction; [congruence|]. destruct D. now right. }
    destruct (map_find p m) as [i|] eqn:E; cbn [option_map].
    - apply map_find_in in E; [|exact Hs].
      assert (D : done_at done p i = i). { unfold done_at. destruct (in_dec path_eq_dec p done); [contradiction|reflexivity]. }
      assert (D' : done_at (p :: done) p i = with_target_deps m i).
      { unfold done_at. destruct (in_dec path_eq_dec p (p :: done)) as [_|K]; [reflexivity|]. destruct K. now left. }
      rewrite D. destruct (use_target_deps i) eqn:U.
      + split; [now rewrite map_update_keys; apply H|]. intros q j J.
        destruct (path_eq_dec q p) as [->|Q].
        * rewrite (sorted_in_unique _ _ _ _ _ Hs J E), D'. unfold with_target_deps. rewrite U.
          rewrite (handled_targets done c p i H E N U). apply map_update_same. destruct H as [K _]. rewrite K.
          apply in_map_iff. now exists (p, i).
        * rewrite Other by exact Q. apply map_update_other; [exact Q|]. now apply H.
      + split; [apply H|]. intros q j J. destruct (path_eq_dec q p) as [->|Q].
        * rewrite (sorted_in_unique _ _ _ _ _ Hs J E), D', with_target_deps_false by exact U. rewrite <- D at 1. now apply H.
        * rewrite Other by exact Q. now apply H.
    - split; [apply H|]. intros q j J. assert (Q : q <> p).
      { intros ->. apply (map_find_in _ m p j Hs) in J. congruence. }
      rewrite Other by exact Q. now apply H.
  Qed.

  Lemma handled_fold l : forall done c, NoDup l -> (forall p, In p l -> ~ In p done) -> handled done c ->
    handled (rev l ++ done) (fold_left add_target_deps_to l c).
  Proof.
    induction l as [|p l IH]; intros done c N D H; [exact H|]. inversion N as [|? ? N1 N2]; subst. cbn [fold_left rev].
    rewrite <- app_assoc. cbn [app]. apply IH; [exact N2| |].
    - intros q Q [E|I]; [congruence|]. exact (D q (or_intror Q) I).
    - apply handled_step; [exact H|]. apply D. now left.
  Qed.

  Lemma add_target_deps_all : map fst (add_target_deps m) = map fst m /\
    forall p i, In (p, i) m -> In (p, with_target_deps m i) (add_target_deps m).
  Proof.
    assert (H : handled (rev (map fst m) ++ []) (add_target_deps m)).
    { apply handled_fold; [apply sorted_nodup; exact Hs|intros p _ []|]. split; [reflexivity|]. intros p i I. exact I. }
    destruct H as [K H]. split; [exact K|]. intros p i I. specialize (H p i I). unfold done_at in H.
    destruct (in_dec path_eq_dec p (rev (map fst m) ++ [])) as [_|N]; [exact H|]. destruct N. rewrite app_nil_r.
    apply -> in_rev. apply in_map_iff. now exists (p, i).
  Qed.
End TargetDeps.

(** * The parts of [load_project] *)

Lemma insert_infos_parts g ts : forall m r, sorted_map m -> NoDup (map fst ts) -> insert_source_file_infos ts g m = Loaded r ->
  sorted_map r /\ (forall k i, In (k, i) m -> In (k, i) r) /\
  (forall k i, In (k, i) r -> In (k, i) m \/
     ~ In k (map fst m) /\ exists t, In (k, t) ts /\ make_source_file_info k t g = Loaded i) /\
  (forall k t, In (k, t) ts -> ~ In k (map fst m) -> exists i, make_source_file_info k t g = Loaded i /\ In (k, i) r).
Proof.
  induction ts as [|[k t] ts IH]; intros m r S N H; cbn [insert_source_file_infos] in H.
  - injection H as <-. split; [exact S|]. split; [auto|]. split; [auto|]. intros k t [].
  - destruct (make_source_file_info k t g) as [i|e] eqn:E; [|discriminate]. cbn [then_load] in H.
    inversion N as [|? ? N1 N2]; subst.
    destruct (IH (map_insert k i m) r (map_insert_sorted _ _ _ _ S) N2 H) as (R1 & R2 & R3 & R4).
    split; [exact R1|]. split; [|split].
    + intros q j J. apply R2. apply map_insert_in; auto.
    + intros q j J. destruct (R3 q j J) as [K|(K & t' & T & M)].
      * apply map_insert_in in K; [|exact S]. destruct K as [K|(-> & -> & K)]; [now left|]. right. split; [exact K|].
        exists t. split; [now left|exact E].
      * right. split; [|exists t'; split; [now right|exact M]]. intro I. apply K. apply (map_insert_keys _ m k i q). now right.
    + intros q t' [T|T] K.
      * injection T as <- <-. exists i. split; [exact E|]. apply R2. apply map_insert_in; auto.
      * apply R4; [exact T|]. intro I. apply (map_insert_keys _ m k i q) in I. destruct I as [->|I]; [|contradiction].
        apply N1. apply in_map_iff. now exists (k, t').
Qed.

Lemma load_parts fs ts g : load_project fs = Loaded (ts, g) ->
  exists g0 fs1, collect_targets fs = Loaded ts /\ make_graph true fs = Some g0 /\
    insert_source_file_infos ts g0 fs = Loaded fs1 /\
    make_graph false (add_target_deps (map_merge fs1 (create_placeholders fs1))) = Some g.
Proof.
  unfold load_project. destruct (collect_targets fs) as [ts0|e]; [|discriminate]. cbn [then_load].
  unfold make_source_file_infos. destruct (make_graph true fs) as [g0|]; [|discriminate].
  destruct (insert_source_file_infos ts0 g0 fs) as [fs1|e] eqn:E; [|discriminate]. cbn [then_load].
  destruct (make_graph false _) as [g1|] eqn:G; [|discriminate]. intro H. injection H as <- <-.
  exists g0, fs1. auto.
Qed.

Lemma load_facts fs ts g0 fs1 : scanned fs -> collect_targets fs = Loaded ts -> make_graph true fs = Some g0 ->
  insert_source_file_infos ts g0 fs = Loaded fs1 ->
  NoDup (map fst (declared_targets fs)) /\ sorted_map ts /\ (forall e, In e ts <-> In e (declared_targets fs)) /\ sorted_map fs1 /\
  (forall p info, In (p, info) fs -> In (p, info) fs1) /\
  (forall p info, In (p, info) fs1 -> In (p, info) fs \/
          (~ In p (map fst fs) /\ exists t inh, In (p, t) (declared_targets fs) /\
             info = generated_info (ti_use_deps (t_info t) ++ inh) (t_source t) /\
             forall d, In d inh <-> contributed fs p (t_source t) d)) /\
  (forall p t, In (p, t) (declared_targets fs) -> In p (map fst fs1)).
Proof.
  intros Sc C G H. destruct (collect_targets_ok fs) as [(ts0 & E & N & S & I)|(n & l1 & t & l2 & E & _)]; [|congruence].
  rewrite C in E. injection E as <-. split; [exact N|]. split; [exact S|]. split; [exact I|].
  destruct (insert_infos_ok g0 fs ts fs (proj1 Sc) (scanned_unresolved _ Sc) G (proj1 Sc) (sorted_nodup _ _ S)) as [[_ F]|[_ (r & F & R1 & R2 & R3 & R4)]].
  - intros k t K. apply I in K. eapply generated_source_known; eauto.
  - congruence.
  - rewrite H in F. injection F as <-. split; [exact R1|]. split; [exact R2|]. split.
    + intros p i J. destruct (R3 p i J) as [K|[K (t & inh & T & Ei & D)]]; [now left|]. right. split; [exact K|].
      exists t, inh. split; [now apply I|]. now split.
    + intros p t T. apply (R4 p t). now apply I.
Qed.

(** Targets are made from their own source file, or are not source files. *)
Lemma own_targets fs ts g0 fs1 : scanned fs -> collect_targets fs = Loaded ts -> make_graph true fs = Some g0 ->
  insert_source_file_infos ts g0 fs = Loaded fs1 ->
  (forall p info t, In (p, info) fs -> In t (targets info) -> ti_name t = p \/ ~ In (ti_name t) (map fst fs)) ->
  forall p i, In (p, i) (map_merge fs1 (create_placeholders fs1)) -> use_target_deps i = true ->
    In (p, i) fs /\
    forall t, In t (targets i) -> ti_name t = p \/
      (~ In (ti_name t) (map fst fs) /\ forall j, In (ti_name t, j) (map_merge fs1 (create_placeholders fs1)) -> use_target_deps j = false).
Proof.
  intros Sc C G H P p i I U. destruct (load_facts fs ts g0 fs1 Sc C G H) as (N & S & T & S1 & K & W & A).
  assert (Src : forall q j, In (q, j) (map_merge fs1 (create_placeholders fs1)) -> use_target_deps j = true -> In (q, j) fs).
  { intros q j J V. destruct (fs2_entries fs1 S1 q j J) as [F|[d ->]]; [|discriminate].
    destruct (W q j F) as [Z|[_ (t & inh & _ & -> & _)]]; [exact Z|discriminate]. }
  pose proof (Src p i I U) as I'. split; [exact I'|]. intros t Ht. destruct (P p i t I' Ht) as [E|E]; [now left|]. right. split; [exact E|].
  intros j J. destruct (use_target_deps j) eqn:V; [|reflexivity]. destruct E. apply in_map_iff. exists (ti_name t, j). split; [reflexivity|].
  exact (Src _ _ J V).
Qed.

(** * Adding files *)

Lemma same_dependency_refl l : Forall2 same_dependency l l.
Proof. induction l as [|d l IH]; constructor; [now repeat split|exact IH]. Qed.

Section Added.
  Variables fs fs' g g' : file_list.
  Variables ts ts' : target_list.
  Hypothesis Sc : scanned fs.
  Hypothesis Sc' : scanned fs'.
  Hypothesis L : load_project fs = Loaded (ts, g).
  Hypothesis L' : load_project fs' = Loaded (ts', g').
  Hypothesis Add : only_adds fs g fs'.
  Hypothesis Proper : proper_names fs' g'.

  Variables g0 fs1 g0' fs1' : file_list.
  Hypothesis C : collect_targets fs = Loaded ts.
  Hypothesis C' : collect_targets fs' = Loaded ts'.
  Hypothesis G0 : make_graph true fs = Some g0.
  Hypothesis G0' : make_graph true fs' = Some g0'.
  Hypothesis I1 : insert_source_file_infos ts g0 fs = Loaded fs1.
  Hypothesis I1' : insert_source_file_infos ts' g0' fs' = Loaded fs1'.
  Let fs2 := map_merge fs1 (create_placeholders fs1).
  Let fs2' := map_merge fs1' (create_placeholders fs1').
  Hypothesis G : make_graph false (add_target_deps fs2) = Some g.
  Hypothesis G' : make_graph false (add_target_deps fs2') = Some g'.

  Lemma keys_g : map fst g = map fst fs2.
  Proof.
    destruct (load_facts _ _ _ _ Sc C G0 I1) as (_ & _ & _ & S1 & _).
    assert (S2 : sorted_map fs2) by (apply map_merge_sorted; exact S1).
    rewrite (files_resolved_keys _ _ (make_graph_resolved _ _ _ (fs3_sorted fs1 S1) G)). exact (fs3_keys fs1 S1).
  Qed.

  Lemma known_g p : known g p <-> available fs p.
  Proof.
    destruct (load_facts _ _ _ _ Sc C G0 I1) as (N & _ & _ & S1 & K & W & A).
    rewrite known_in, keys_g. exact (fs2_keys fs fs1 S1 K W A N p).
  Qed.

  Lemma source_known p : In p (map fst fs) -> known g p.
  Proof. intro H. apply known_g. now apply available_source. Qed.

  Lemma target_known n t : In (n, t) (declared_targets fs) -> known g n.
  Proof. intro H. apply known_g. exact (available_target _ _ _ H). Qed.

  Lemma needed_known d : needed fs d -> known g (dep_name d).
  Proof.
    intro H. apply known_g. destruct (load_project_graph fs Sc) as [[_ (n & E & _)]|[_ [[_ E]|[_ [[_ E]|[E _]]]]]]; try congruence.
    now apply E.
  Qed.

  Lemma old_source p i : In (p, i) fs' -> known g p -> In (p, i) fs.
  Proof.
    intros I K. destruct (in_dec path_eq_dec p (map fst fs)) as [J|J].
    - apply in_map_iff in J. destruct J as ([q j] & <- & J). cbn [fst] in *.
      rewrite (sorted_in_unique _ _ _ _ _ (proj1 Sc') I (proj1 Add _ _ J)). exact J.
    - destruct (proj1 (proj2 Add p i I J) K).
  Qed.

  Lemma old_key p : In p (map fst fs') -> known g p -> In p (map fst fs).
  Proof.
    intros I K. apply in_map_iff in I. destruct I as ([q i] & <- & I). apply in_map_iff. exists (q, i). split; [reflexivity|].
    now apply old_source.
  Qed.

  Lemma old_target n t : In (n, t) (declared_targets fs') -> known g n -> In (n, t) (declared_targets fs).
  Proof.
    intros I K. apply declared_targets_spec in I. destruct I as (info & I & T & N & E).
    apply declared_targets_spec. exists info. split; [|split; [exact T|split; [exact N|exact E]]].
    destruct (in_dec path_eq_dec (t_source t) (map fst fs)) as [J|J].
    - apply old_source; [exact I|]. now apply source_known.
    - destruct (proj2 (proj2 Add _ _ I J) _ T). rewrite <- (proj1 (proj2 Proper _ _ _ I T)), <- E. exact K.
  Qed.

  Lemma target_kept n t : In (n, t) (declared_targets fs) -> In (n, t) (declared_targets fs').
  Proof.
    intro I. apply declared_targets_spec in I. destruct I as (info & I & R). apply declared_targets_spec. exists info.
    split; [exact (proj1 Add _ _ I)|exact R].
  Qed.

  Lemma first_same p i : In (p, i) fs -> exists i', In (p, i') fs' /\
    Forall2 same_dependency (use_deps i) (use_deps i') /\ Forall2 same_dependency (build_deps i) (build_deps i').
  Proof. intro I. exists i. split; [exact (proj1 Add _ _ I)|]. split; apply same_dependency_refl. Qed.

  Lemma first_closed d : declared fs d -> known fs' (dep_name d) -> known fs (dep_name d).
  Proof.
    intros (p & i & I & D) K. apply known_in in K. apply known_in. apply old_key; [exact K|]. apply needed_known.
    destruct D as [D|D]; [exact (needed_by_source _ _ _ _ I D)|].
    destruct (proj2 Sc _ _ I) as [B _]. rewrite B in D. destruct D.
  Qed.

  Lemma same_info k t i : In (k, t) ts -> make_source_file_info k t g0 = Loaded i -> make_source_file_info k t g0' = Loaded i.
  Proof.
    destruct (load_facts _ _ _ _ Sc C G0 I1) as (_ & _ & T & _). intros I H. apply T in I.
    pose proof (generated_source_known _ _ _ I) as K. apply known_in in K. destruct K as (n & Hn).
    pose proof (generated_source_known _ _ _ (target_kept _ _ I)) as K'. apply known_in in K'. destruct K' as (n' & Hn').
    pose proof (proj1 Sc) as S. pose proof (proj1 Sc') as S'.
    pose proof (scanned_unresolved _ Sc) as U. pose proof (scanned_unresolved _ Sc') as U'.
    pose proof (make_graph_resolved _ _ _ S G0) as R. pose proof (make_graph_resolved _ _ _ S' G0') as R'.
    unfold make_source_file_info in *.
    rewrite (proj2 (get_node_spec _ _ _ (t_source t) n S G0) Hn) in H.
    rewrite (proj2 (get_node_spec _ _ _ (t_source t) n' S' G0') Hn').
    destruct (processGraphNodeRecursive dep_ref (edges_of g0) n) as [cs| | |] eqn:E; try discriminate.
    destruct (same_traversal fs fs' g0 g0' S S' U U' R R' first_same first_closed n n' cs (ex_intro _ _ (conj Hn Hn')) E) as (cs' & E' & F).
    rewrite E'. rewrite <- H. do 3 f_equal. clear - F S S' U U' R R' Add.
    unfold inherited_deps. induction F as [|x x' cs cs' X F IH]; [reflexivity|]. cbn [flat_map].
    rewrite IH. f_equal.
    destruct (same_nodes_found fs fs' g0 g0' S' R R' first_same _ _ (proj1 X)) as (p & i & i' & j & j' & A1 & A2 & A3 & A4 & _ & _ & B1 & B2).
    rewrite A3, A4. destruct B1 as (_ & _ & _ & B1 & _). destruct B2 as (_ & _ & _ & B2 & _). cbn [snd] in B1, B2. rewrite B1, B2.
    rewrite (sorted_in_unique _ _ _ _ _ S' (nth_error_In _ _ A2) (proj1 Add _ _ (nth_error_In _ _ A1))). reflexivity.
  Qed.

  Lemma infos_kept p i : In (p, i) fs1 -> In (p, i) fs1'.
  Proof.
    destruct (load_facts _ _ _ _ Sc C G0 I1) as (_ & S & T & _). destruct (load_facts _ _ _ _ Sc' C' G0' I1') as (_ & S' & T' & _).
    destruct (insert_infos_parts g0 ts fs fs1 (proj1 Sc) (sorted_nodup _ _ S) I1) as (_ & _ & W & _).
    destruct (insert_infos_parts g0' ts' fs' fs1' (proj1 Sc') (sorted_nodup _ _ S') I1') as (_ & K' & _ & A').
    intro I. destruct (W p i I) as [J|(N & t & J & M)]; [apply K'; exact (proj1 Add _ _ J)|].
    pose proof (same_info _ _ _ J M) as M'. apply T in J.
    destruct (A' p t) as (i' & E & I').
    - apply T'. now apply target_kept.
    - intro X. apply N. apply old_key; [exact X|]. exact (target_known _ _ J).
    - rewrite M' in E. injection E as <-. exact I'.
  Qed.

  Lemma infos_old p : In p (map fst fs1') -> known g p -> In p (map fst fs1).
  Proof.
    destruct (load_facts _ _ _ _ Sc C G0 I1) as (N & _ & _ & S1 & K & W & A).
    destruct (load_facts _ _ _ _ Sc' C' G0' I1') as (N' & _ & _ & S1' & K' & W' & A').
    intros I Kn. apply (fs1_keys fs fs1 K W A). apply (fs1_keys fs' fs1' K' W' A') in I.
    destruct I as [I|(t & I)]; [left; now apply old_key|right; exists t; now apply old_target].
  Qed.

  Lemma merged_kept p i : In (p, i) fs2 ->
    (In (p, i) fs1 /\ In (p, i) fs2') \/ (~ In p (map fst fs1) /\ outside i /\ exists i', In (p, i') fs2' /\ outside i').
  Proof.
    destruct (load_facts _ _ _ _ Sc C G0 I1) as (_ & _ & _ & S1 & _).
    destruct (load_facts _ _ _ _ Sc' C' G0' I1') as (_ & _ & _ & S1' & _).
    destruct (placeholders_spec fs1 S1) as (S2 & K2 & N2 & O2 & E2). destruct (placeholders_spec fs1' S1') as (S2' & K2' & N2' & O2' & E2').
    fold fs2 in S2, K2, N2, O2, E2. fold fs2' in S2', K2', N2', O2', E2'.
    intro I. destruct (in_dec path_eq_dec p (map fst fs1)) as [J|J].
    - left. pose proof (O2 _ _ I J) as I'. split; [exact I'|]. apply K2'. now apply infos_kept.
    - right. split; [exact J|]. destruct (N2 _ _ I J) as (d & M & X & D & ->).
      assert (Kn : known g p). { apply known_in. rewrite keys_g. apply in_map_iff. eexists. split; [|exact I]. reflexivity. }
      split; [now exists (dep_origin d)|].
      assert (M' : mentioned fs1' d).
      { destruct M as (q & j & Q & R). exists q, j. split; [now apply infos_kept|exact R]. }
      pose proof (E2' d M' X) as Y. rewrite D in Y. apply in_map_iff in Y. destruct Y as ([q i'] & Q & Y). cbn [fst] in Q. subst q.
      exists i'. split; [exact Y|]. destruct (N2' _ _ Y) as (d' & _ & X' & _ & ->); [|now exists (dep_origin d')].
      intro Z. apply J. now apply infos_old.
  Qed.

  Lemma names_sources p info t : In (p, info) fs -> In t (targets info) -> ti_name t = p \/ ~ In (ti_name t) (map fst fs).
  Proof.
    intros I T. destruct (proj2 (proj2 Proper _ _ _ (proj1 Add _ _ I) T)) as [E|N]; [now left|]. right. intro X. apply N.
    apply in_map_iff in X. destruct X as ([q j] & <- & X). apply in_map_iff. exists (q, j). split; [reflexivity|exact (proj1 Add _ _ X)].
  Qed.

  Lemma names_sources' p info t : In (p, info) fs' -> In t (targets info) -> ti_name t = p \/ ~ In (ti_name t) (map fst fs').
  Proof. intros I T. exact (proj2 (proj2 Proper _ _ _ I T)). Qed.

  Lemma fs2_sorted_both : sorted_map fs2 /\ sorted_map fs2'.
  Proof.
    destruct (load_facts _ _ _ _ Sc C G0 I1) as (_ & _ & _ & S1 & _).
    destruct (load_facts _ _ _ _ Sc' C' G0' I1') as (_ & _ & _ & S1' & _).
    split; apply map_merge_sorted; assumption.
  Qed.

  Lemma target_deps_kept p i : In (p, i) fs2 -> In (p, i) fs2' -> with_target_deps fs2' i = with_target_deps fs2 i.
  Proof.
    intros I I'. unfold with_target_deps. destruct (use_target_deps i) eqn:U; [|reflexivity]. do 2 f_equal.
    destruct fs2_sorted_both as [S2 S2'].
    destruct (own_targets fs ts g0 fs1 Sc C G0 I1 names_sources p i I U) as [J T].
    unfold target_use_deps. assert (F : forall t, In t (targets i) -> map_find (ti_name t) fs2' = map_find (ti_name t) fs2).
    { intros t Ht. destruct (T t Ht) as [->|[N _]].
      - rewrite (proj2 (map_find_in _ fs2 p i S2) I). exact (proj2 (map_find_in _ fs2' p i S2') I').
      - destruct (load_facts _ _ _ _ Sc C G0 I1) as (_ & _ & _ & S1 & K1 & W1 & A1).
        assert (D : In (ti_name t, mk_target p t) (declared_targets fs)).
        { apply declared_targets_spec. exists i. cbn [t_source t_info]. split; [exact J|]. split; [exact Ht|].
          split; [|symmetry; exact (proj1 (proj2 Proper _ _ _ (proj1 Add _ _ J) Ht))].
          intro E. apply N. rewrite <- E. apply in_map_iff. now exists (p, i). }
        pose proof (A1 _ _ D) as X. apply in_map_iff in X. destruct X as ([q j] & Q & X). cbn [fst] in Q. subst q.
        pose proof (fs1_fs2 fs1 S1 _ _ X) as X2. fold fs2 in X2.
        rewrite (proj2 (map_find_in _ fs2 _ j S2) X2). apply map_find_in; [exact S2'|].
        destruct (merged_kept _ _ X2) as [[_ Y]|[Y _]]; [exact Y|]. destruct Y. apply in_map_iff. now exists (ti_name t, j). }
    clear - F. induction (targets i) as [|t l IH]; [reflexivity|]. cbn [flat_map]. rewrite (F t (or_introl eq_refl)).
    rewrite IH by (intros x X; apply F; now right). reflexivity.
  Qed.

  Lemma outside_target_deps m i : outside i -> with_target_deps m i = i.
  Proof. intros (o & _ & ->). reflexivity. Qed.

  (** Before the last step *)
  Lemma files_kept p i : In (p, i) (add_target_deps fs2) ->
    In (p, i) (add_target_deps fs2') \/ (outside i /\ exists i', In (p, i') (add_target_deps fs2') /\ outside i').
  Proof.
    destruct fs2_sorted_both as [S2 S2'].
    destruct (add_target_deps_all fs2 S2) as [K A].
    { intros q j t J U T. destruct (own_targets fs ts g0 fs1 Sc C G0 I1 names_sources q j J U) as [_ X].
      destruct (X t T) as [E|[_ E]]; [now left|now right]. }
    destruct (add_target_deps_all fs2' S2') as [K' A'].
    { intros q j t J U T. destruct (own_targets fs' ts' g0' fs1' Sc' C' G0' I1' names_sources' q j J U) as [_ X].
      destruct (X t T) as [E|[_ E]]; [now left|now right]. }
    intro I. assert (X : In p (map fst fs2)). { rewrite <- K. apply in_map_iff. now exists (p, i). }
    apply in_map_iff in X. destruct X as ([q j] & Q & X). cbn [fst] in Q. subst q.
    assert (S3 : sorted_map (add_target_deps fs2)). { unfold sorted_map, keys. rewrite K. exact S2. }
    pose proof (sorted_in_unique _ _ _ _ _ S3 I (A _ _ X)) as ->.
    destruct (merged_kept _ _ X) as [[_ Y]|(_ & O & j' & Y & O')].
    - left. rewrite <- (target_deps_kept p j X Y). now apply A'.
    - right. rewrite (outside_target_deps _ _ O). split; [exact O|]. exists j'. split; [|exact O'].
      rewrite <- (outside_target_deps fs2' _ O'). now apply A'.
  Qed.

  Lemma last_facts : sorted_map (add_target_deps fs2) /\ sorted_map (add_target_deps fs2') /\
    unresolved (add_target_deps fs2) /\ unresolved (add_target_deps fs2').
  Proof.
    destruct (load_facts _ _ _ _ Sc C G0 I1) as (N & _ & _ & S1 & K & W & A).
    destruct (load_facts _ _ _ _ Sc' C' G0' I1') as (N' & _ & _ & S1' & K' & W' & A').
    split; [exact (fs3_sorted fs1 S1)|]. split; [exact (fs3_sorted fs1' S1')|].
    split; [exact (fs3_unresolved fs Sc fs1 S1 W)|exact (fs3_unresolved fs' Sc' fs1' S1' W')].
  Qed.

  Lemma last_same p i : In (p, i) (add_target_deps fs2) -> exists i', In (p, i') (add_target_deps fs2') /\
    Forall2 same_dependency (use_deps i) (use_deps i') /\ Forall2 same_dependency (build_deps i) (build_deps i').
  Proof.
    intro I. destruct (files_kept p i I) as [I'|((o & _ & ->) & i' & I' & (o' & _ & ->))].
    - exists i. split; [exact I'|]. split; apply same_dependency_refl.
    - eexists. split; [exact I'|]. split; constructor.
  Qed.

  Lemma last_closed d : declared (add_target_deps fs2) d -> known (add_target_deps fs2) (dep_name d).
  Proof.
    destruct (make_graph_strict _ (proj1 last_facts)) as [(x & E & _ & H)|[E _]]; [exact (H d)|congruence].
  Qed.

  Lemma last_number k p : numbered (add_target_deps fs2) k p <-> numbered g k p.
  Proof.
    unfold numbered. rewrite (files_resolved_keys _ _ (make_graph_resolved _ _ _ (proj1 last_facts) G)). reflexivity.
  Qed.

  Lemma last_number' k p : numbered (add_target_deps fs2') k p <-> numbered g' k p.
  Proof.
    unfold numbered. rewrite (files_resolved_keys _ _ (make_graph_resolved _ _ _ (proj1 (proj2 last_facts)) G')). reflexivity.
  Qed.

  Lemma placeholder_resolved m p o j : file_resolved m (p, placeholder_info o no_compiler) (p, j) -> j = placeholder_info o no_compiler.
  Proof.
    intros (_ & U & B & H3 & H4 & H5 & H6 & H7 & H8 & H9). destruct j as [u b c t cd sc so sp ut]. cbn in *.
    inversion U. inversion B. subst. reflexivity.
  Qed.

  (** Node [k] of the one graph is node [k'] of the other. *)
  Theorem node_kept k k' p : numbered g k p -> numbered g' k' p ->
    exists j j', nth_error g k = Some (p, j) /\ nth_error g' k' = Some (p, j') /\ (same_record j j' \/ outside j /\ outside j').
  Proof.
    intros K K'. apply last_number in K. apply last_number' in K'.
    destruct last_facts as (S & S' & U & U').
    pose proof (make_graph_resolved _ _ _ S G) as R. pose proof (make_graph_resolved _ _ _ S' G') as R'.
    destruct (same_nodes_found _ _ _ _ S' R R' last_same k k' (ex_intro _ p (conj K K')))
      as (q & i & i' & j & j' & E1 & E2 & E3 & E4 & F1 & F2 & B1 & B2).
    assert (q = p). { unfold numbered in K. rewrite nth_error_map, E1 in K. now injection K. } subst q.
    exists j, j'. split; [exact E3|]. split; [exact E4|].
    apply nth_error_In in E1, E2. destruct (files_kept p i E1) as [I'|((o & Ho & ->) & i0 & I' & (o' & Ho' & ->))].
    - left. rewrite (sorted_in_unique _ _ _ _ _ S' E2 I') in B2.
      destruct B1 as (_ & A2 & A3 & A4 & A5 & A6 & A7 & A8 & A9 & A10). destruct B2 as (_ & C2 & C3 & C4 & C5 & C6 & C7 & C8 & C9 & C10).
      cbn [snd] in *.
      assert (X : forall ds l l', Forall2 (dependency_resolved (add_target_deps fs2)) ds l ->
                    Forall2 (dependency_resolved (add_target_deps fs2')) ds l' -> Forall2 same_dependency l l').
      { clear. intros ds l l' H. revert l'. induction H as [|d r ds l D H IH]; intros l' H'; inversion H' as [|? r' ? l0 D' H0]; subst; constructor.
        - destruct D as (D1 & D2 & D3 & _). destruct D' as (D1' & D2' & D3' & _). repeat split; congruence.
        - now apply IH. }
      split; [exact (X _ _ _ A2 C2)|]. split; [exact (X _ _ _ A3 C3)|]. repeat split; congruence.
    - right. rewrite (sorted_in_unique _ _ _ _ _ S' E2 I') in B2.
      rewrite (placeholder_resolved _ _ _ _ B1), (placeholder_resolved _ _ _ _ B2).
      split; [now exists o|now exists o'].
  Qed.

  Theorem known_kept p : known g p -> known g' p.
  Proof.
    intros (k & K). apply last_number in K. destruct (known_both _ _ last_same p) as (k' & K'); [now exists k|].
    exists k'. now apply last_number'.
  Qed.

  (** The list of everything that is needed *)
  Theorem use_deps_kept k k' p : numbered g k p -> numbered g' k' p -> Forall2 same_dependency (task_use_deps g k) (task_use_deps g' k').
  Proof.
    intros K K'. apply last_number in K. apply last_number' in K'. destruct last_facts as (S & S' & U & U').
    pose proof (make_graph_resolved _ _ _ S G) as R. pose proof (make_graph_resolved _ _ _ S' G') as R'.
    pose proof (same_traversal_all _ _ _ _ S S' U U' R R' last_same (fun d D _ => last_closed d D) k k' (ex_intro _ p (conj K K'))) as F.
    unfold task_use_deps, get_use_deps_recursive in *.
    destruct (processGraphNodeRecursive dep_ref (edges_of g) k) as [cs|cs| |];
      destruct (processGraphNodeRecursive dep_ref (edges_of g') k') as [cs'|cs'| |]; try contradiction; [|constructor].
    clear - F. unfold keep_named. induction F as [|x x' l l' X F IH]; [constructor|]. cbn [flat_map]. apply Forall2_app; [|exact IH].
    destruct X as [_ X]. destruct (snd x) as [d|]; destruct (snd x') as [d'|]; try contradiction; [|constructor].
    destruct X as [X _]. pose proof (proj1 X) as Y. rewrite Y. destruct (path_eqb (dep_name d) empty_path); [constructor|]. constructor; [exact X|constructor].
  Qed.
End Added.

(** * What follows for loaded projects *)

Section Loaded.
  Variables fs g fs' g' : file_list.
  Hypothesis L : loaded fs g.
  Hypothesis L' : loaded fs' g'.
  Hypothesis Add : only_adds fs g fs'.
  Hypothesis Proper : proper_names fs' g'.

  Lemma all_kept :
    (forall k k' p, numbered g k p -> numbered g' k' p ->
       exists j j', nth_error g k = Some (p, j) /\ nth_error g' k' = Some (p, j') /\ (same_record j j' \/ outside j /\ outside j')) /\
    (forall p, known g p -> known g' p) /\
    (forall k k' p, numbered g k p -> numbered g' k' p -> Forall2 same_dependency (task_use_deps g k) (task_use_deps g' k')).
  Proof.
    destruct L as (Sc & (ts & E) & _). destruct L' as (Sc' & (ts' & E') & _).
    destruct (load_parts _ _ _ E) as (g0 & fs1 & C & G0 & I1 & G). destruct (load_parts _ _ _ E') as (g0' & fs1' & C' & G0' & I1' & G').
    split; [|split].
    - exact (node_kept fs fs' g g' ts ts' Sc Sc' E Add Proper g0 fs1 g0' fs1' C C' G0 G0' I1 I1' G G').
    - exact (known_kept fs fs' g g' ts ts' Sc Sc' E Add Proper g0 fs1 g0' fs1' C C' G0 G0' I1 I1' G G').
    - exact (use_deps_kept fs fs' g g' ts ts' Sc Sc' E Add Proper g0 fs1 g0' fs1' C C' G0 G0' I1 I1' G G').
  Qed.

  Lemma graph_of : project_graph fs g /\ project_graph fs' g'.
  Proof.
    assert (X : forall a b, loaded a b -> project_graph a b).
    { clear. intros a b (S & (t & E) & _). destruct (load_project_graph a S) as [[_ [n [H _]]]|[_ [[_ H]|[_ [[_ H]|[_ H]]]]]]; try congruence.
      destruct H as (ts & g0 & H & _ & _ & P). rewrite E in H. injection H as _ <-. exact P. }
    split; [exact (X _ _ L)|exact (X _ _ L')].
  Qed.

  Theorem record_kept p i : In (p, i) g -> exists i', In (p, i') g' /\ (same_record i i' \/ outside i /\ outside i').
  Proof.
    intro I. apply In_nth_error in I. destruct I as (k & K).
    assert (N : numbered g k p) by (unfold numbered; rewrite nth_error_map, K; reflexivity).
    destruct all_kept as (A & B & _). destruct (B p (ex_intro _ k N)) as (k' & N').
    destruct (A k k' p N N') as (j & j' & E & E' & R). rewrite K in E. injection E as <-. exists j'. split; [|exact R].
    exact (nth_error_In _ _ E').
  Qed.

  Lemma record_back p i' : known g p -> In (p, i') g' -> exists i, In (p, i) g /\ (same_record i i' \/ outside i /\ outside i').
  Proof.
    intros K I'. apply known_in in K. apply in_map_iff in K. destruct K as ([q i] & E & I). cbn [fst] in E. subst q. exists i. split; [exact I|].
    destruct (record_kept p i I) as (j & J & R). destruct graph_of as [_ (S' & _)].
    now rewrite (sorted_in_unique _ _ _ _ _ S' I' J).
  Qed.

  Lemma same_names l l' : Forall2 same_dependency l l' -> map dep_name l' = map dep_name l.
  Proof. intro F. induction F as [|d d' l l' D F IH]; [reflexivity|]. cbn [map]. rewrite IH, (proj1 D). reflexivity. Qed.

  Lemma names_of i i' : same_record i i' \/ outside i /\ outside i' ->
    map dep_name (use_deps i') = map dep_name (use_deps i) /\ map dep_name (build_deps i') = map dep_name (build_deps i) /\
    targets i' = targets i /\ si_policy i' = si_policy i.
  Proof.
    intros [(A & B & _ & T & _ & _ & _ & P & _)|[(o & _ & ->) (o' & _ & ->)]]; [|repeat split].
    split; [exact (same_names _ _ A)|]. split; [exact (same_names _ _ B)|]. now split.
  Qed.

  Lemma depends_names x p q i : In (p, i) x -> sorted_map x ->
    ((exists d, declared_by x p d /\ dep_name d = q) <-> In q (map dep_name (use_deps i)) \/ In q (map dep_name (build_deps i))).
  Proof.
    intros I S. split.
    - intros (d & (j & J & D) & <-). rewrite (sorted_in_unique _ _ _ _ _ S J I) in D.
      destruct D as [D|D]; [left|right]; now apply in_map.
    - intros [D|D]; apply in_map_iff in D; destruct D as (d & E & D); exists d; (split; [|exact E]); exists i; (split; [exact I|]); [now left|now right].
  Qed.

  Lemma depends_kept p q : known g p -> (file_depends g p q <-> file_depends g' p q).
  Proof.
    intro K. apply known_in in K. apply in_map_iff in K. destruct K as ([p0 i] & E & I). cbn [fst] in E. subst p0.
    destruct (record_kept p i I) as (i' & I' & R). destruct (names_of _ _ R) as (U & B & _).
    destruct graph_of as [(S & _ & D & _) (S' & _)]. destruct all_kept as (_ & Kn & _).
    unfold file_depends. rewrite (depends_names g p q i I S), (depends_names g' p q i' I' S'), U, B.
    split; intros [X Y]; (split; [|exact Y]); [now apply Kn|].
    apply (depends_names g p q i I S) in Y. destruct Y as (d & Y & <-).
    destruct (D d (ex_intro _ p Y)) as (k & _ & N). now exists k.
  Qed.

  Lemma reach_kept p q : known g p -> (file_reachable g p q <-> file_reachable g' p q).
  Proof.
    intro K. split; intro R.
    - induction R as [p|p q r D R IH]; [constructor|]. apply reach_step with q; [now apply depends_kept|]. apply IH. exact (proj1 D).
    - induction R as [p|p q r D R IH]; [constructor|]. apply depends_kept in D; [|exact K]. apply reach_step with q; [exact D|]. apply IH. exact (proj1 D).
  Qed.

  Theorem needs_kept p q : known g p -> (file_needs g p q <-> file_needs g' p q).
  Proof. intro K. unfold file_needs. now rewrite (reach_kept p q K). Qed.

  Lemma reach_in_g p q : known g p -> file_reachable g p q -> known g q.
  Proof. intros K R. induction R as [p|p q r D R IH]; [exact K|]. apply IH. exact (proj1 D). Qed.

  Theorem policy_kept v v' p : numbered g v p -> numbered g' v' p -> (always_rebuilt g v <-> always_rebuilt g' v').
  Proof.
    intros N N'. destruct (proj1 all_kept v v' p N N') as (j & j' & E & E' & R). destruct (names_of _ _ R) as (_ & _ & _ & P).
    split; intros (q & i & X & Y).
    - rewrite E in X. injection X as <- <-. exists p, j'. split; [exact E'|congruence].
    - rewrite E' in X. injection X as <- <-. exists p, j. split; [exact E|congruence].
  Qed.

  Theorem target_of_kept v v' p q : numbered g v p -> numbered g' v' p -> (target_of g v q <-> target_of g' v' q).
  Proof.
    intros N N'. destruct (proj1 all_kept v v' p N N') as (j & j' & E & E' & R). destruct (names_of _ _ R) as (_ & _ & T & _).
    split; intros (p0 & i & t & X & Y & Z).
    - rewrite E in X. injection X as <- <-. exists p, j', t. split; [exact E'|]. split; [congruence|exact Z].
    - rewrite E' in X. injection X as <- <-. exists p, j, t. split; [exact E|]. split; [congruence|exact Z].
  Qed.

  Lemma compared_kept D l l' q : Forall2 same_dependency l l' -> (compared D l q <-> compared D l' q).
  Proof.
    intro F. unfold compared. split; intros (d & I & H).
    - induction F as [|a b l l' S F IH]; [destruct I|]. destruct I as [->|I].
      + exists b. split; [now left|]. destruct S as (S1 & S2 & _). now rewrite S1, S2.
      + destruct (IH I) as (x & X & Y). exists x. split; [now right|exact Y].
    - induction F as [|a b l l' S F IH]; [destruct I|]. destruct I as [->|I].
      + exists a. split; [now left|]. destruct S as (S1 & S2 & _). now rewrite <- S1, <- S2.
      + destruct (IH I) as (x & X & Y). exists x. split; [now right|exact Y].
  Qed.

  Theorem current_kept D v v' p : numbered g v p -> numbered g' v' p -> (current g D v <-> current g' D v').
  Proof.
    intros N N'. destruct all_kept as (A & _ & U). destruct (A v v' p N N') as (j & j' & E & E' & R). destruct (names_of _ _ R) as (_ & _ & T & _).
    specialize (U v v' p N N').
    assert (X : up_to_date D p (targets j) (task_use_deps g v) <-> up_to_date D p (targets j') (task_use_deps g' v')).
    { unfold up_to_date. rewrite T. split; intros H t I; (destruct (H t I) as [Y|[Y Z]]; [now left|right]); (split; [exact Y|]); intros q Q; apply Z;
        now apply (compared_kept D _ _ q U). }
    split; intros (q & i & Y & Z).
    - rewrite E in Y. injection Y as <- <-. exists p, j'. split; [exact E'|now apply X].
    - rewrite E' in Y. injection Y as <- <-. exists p, j. split; [exact E|now apply X].
  Qed.

  (** A file is not made from a new one, if it is known. *)
  Lemma source_of_target u' q : target_of g' u' q -> known g q -> exists u p, numbered g u p /\ numbered g' u' p.
  Proof.
    intros (p & i' & t & E & T & <-) K.
    assert (N' : numbered g' u' p) by (unfold numbered; rewrite nth_error_map, E; reflexivity).
    destruct (in_dec path_eq_dec p (map fst fs)) as [I|I].
    - destruct graph_of as [(_ & A & _) _]. destruct (proj2 (A p) (available_source _ _ I)) as (u & N). exists u, p. now split.
    - destruct graph_of as [_ (S' & _ & _ & Src & Gen & Oth)]. apply nth_error_In in E.
      destruct (Oth p i' E) as [J|[(t0 & J)|(d & _ & _ & _ & ->)]]; [| |destruct T].
      + apply in_map_iff in J. destruct J as ([p0 i] & X & J). cbn [fst] in X. subst p0.
        destruct (Src p i J) as (j & J' & Keep). rewrite (sorted_in_unique _ _ _ _ _ S' E J') in T.
        rewrite (proj1 Keep) in T. destruct (proj2 (proj2 Add _ _ J I) t T K).
      + destruct (Gen p t0 J) as (j & J' & R). rewrite (sorted_in_unique _ _ _ _ _ S' E J') in T. rewrite (proj1 R) in T. destruct T.
  Qed.
End Loaded.
