From Coq Require Import List Arith Bool Lia Sorted Relations.
From Verif Require Import Str Path SMap PathProofs DbModel GraphModel GraphSpec GraphProofs.
From Verif Require Import DepGraphModel DepGraphSpec DepGraphProofs FileListModel FileListSpec.
Import ListNotations.

(** * Placeholders *)

Definition external_named (k : path) (d : dependency) : bool :=
  is_external (dep_origin d) && path_eqb (dep_name d) k.

Lemma insert_placeholders_sorted : forall ds m, sorted_map m -> sorted_map (insert_placeholders ds m).
Proof.
  unfold insert_placeholders. induction ds as [|d ds IH]; simpl; intros m Hs; auto.
  apply IH. unfold insert_placeholder_if_external. destruct (is_external (dep_origin d)); auto.
  apply map_insert_sorted. auto.
Qed.

Lemma insert_placeholders_find : forall ds m k, sorted_map m ->
    map_find k (insert_placeholders ds m) =
    match map_find k m with
    | Some v => Some v
    | None => option_map (fun d => placeholder_info (dep_origin d) no_compiler)
                         (find (external_named k) ds)
    end.
Proof.
  induction ds as [|d ds IH]; intros m k Hs.
  - simpl. destruct (map_find k m); auto.
  - unfold insert_placeholders in *. cbn [fold_left find]. unfold external_named at 1.
    unfold insert_placeholder_if_external.
    destruct (is_external (dep_origin d)) eqn:Ee; cbn [andb]; [|apply IH; auto].
    rewrite IH by (apply map_insert_sorted; auto).
    destruct (path_eqb (dep_name d) k) eqn:Ek.
    + apply path_eqb_eq in Ek. subst k. destruct (map_find (dep_name d) m) as [v|] eqn:Em.
      * erewrite map_find_insert_present by eauto. rewrite Em. auto.
      * rewrite map_find_insert_same by auto. auto.
    + apply path_eqb_neq in Ek. rewrite map_find_insert_other by auto. auto.
Qed.

Definition mentioned_deps (item : path * source_file_info) : list dependency :=
  flat_map ti_use_deps (targets (snd item)) ++ use_deps (snd item).

Lemma insert_placeholders_app : forall a b m,
    insert_placeholders (a ++ b) m = insert_placeholders b (insert_placeholders a m).
Proof. intros. unfold insert_placeholders. rewrite fold_left_app. auto. Qed.

Lemma insert_placeholders_of_eq : forall item m,
    insert_placeholders_of item m = insert_placeholders (mentioned_deps item) m.
Proof.
  intros [p info] m. unfold insert_placeholders_of, mentioned_deps. simpl.
  rewrite insert_placeholders_app. f_equal. revert m.
  induction (targets info) as [|t l IH]; intros m; simpl; auto.
  rewrite insert_placeholders_app. apply IH.
Qed.

Lemma create_placeholders_eq : forall fs,
    create_placeholders fs = insert_placeholders (flat_map mentioned_deps fs) [].
Proof.
  intros fs. unfold create_placeholders. generalize (@nil (path * source_file_info)).
  induction fs as [|item fs IH]; intros m; simpl; auto.
  rewrite insert_placeholders_app, IH, insert_placeholders_of_eq. auto.
Qed.

Lemma mentioned_deps_spec : forall fs d, In d (flat_map mentioned_deps fs) <-> mentioned fs d.
Proof.
  intros fs d. rewrite in_flat_map. unfold mentioned, mentioned_deps. split.
  - intros [[p info] [Hin H]]. exists p, info. split; auto. simpl in H. apply in_app_or in H.
    destruct H as [H|H]; auto. right. apply in_flat_map in H. auto.
  - intros [p [info [Hin H]]]. exists (p, info). split; auto. simpl. apply in_or_app.
    destruct H as [H|H]; auto. left. apply in_flat_map. auto.
Qed.

Lemma create_placeholders_sorted : forall fs, sorted_map (create_placeholders fs).
Proof. intros. rewrite create_placeholders_eq. apply insert_placeholders_sorted. constructor. Qed.

Lemma with_placeholders_find : forall fs k, sorted_map fs ->
    map_find k (map_merge fs (create_placeholders fs)) =
    match map_find k fs with
    | Some v => Some v
    | None => option_map (fun d => placeholder_info (dep_origin d) no_compiler)
                         (find (external_named k) (flat_map mentioned_deps fs))
    end.
Proof.
  intros fs k Hs. rewrite map_merge_find; auto; [|apply create_placeholders_sorted].
  destruct (map_find k fs); auto. rewrite create_placeholders_eq, insert_placeholders_find by constructor.
  simpl. auto.
Qed.

Theorem placeholders_spec : forall fs, sorted_map fs ->
    let r := map_merge fs (create_placeholders fs) in
    sorted_map r /\
    (forall p info, In (p, info) fs -> In (p, info) r) /\
    (forall p info, In (p, info) r -> ~ In p (map fst fs) ->
       exists d, mentioned fs d /\ is_external (dep_origin d) = true /\ dep_name d = p /\
                 info = placeholder_info (dep_origin d) no_compiler) /\
    (forall p info, In (p, info) r -> In p (map fst fs) -> In (p, info) fs) /\
    (forall d, mentioned fs d -> is_external (dep_origin d) = true -> In (dep_name d) (map fst r)).
Proof.
  intros fs Hs r.
  assert (Hr : sorted_map r) by (apply map_merge_sorted; auto).
  split; auto. split; [|split; [|split]].
  - intros p info Hin. apply map_find_in; auto. unfold r. rewrite with_placeholders_find by auto.
    apply map_find_in in Hin; auto. rewrite Hin. auto.
  - intros p info Hin Hn. apply map_find_in in Hin; auto. unfold r in Hin.
    rewrite with_placeholders_find in Hin by auto.
    apply map_find_none in Hn; auto. rewrite Hn in Hin.
    destruct (find (external_named p) (flat_map mentioned_deps fs)) as [d|] eqn:E; [|discriminate].
    apply find_some in E. destruct E as [E1 E2]. unfold external_named in E2.
    apply andb_true_iff in E2. destruct E2 as [E2 E3]. apply path_eqb_eq in E3.
    exists d. rewrite <- mentioned_deps_spec. simpl in Hin. inversion Hin. auto.
  - intros p info Hin Hk. apply map_find_in in Hin; auto. unfold r in Hin.
    rewrite with_placeholders_find in Hin by auto.
    destruct (map_find p fs) as [v|] eqn:E.
    + inversion Hin; subst. apply map_find_in; auto.
    + apply map_find_none in E; auto. contradiction.
  - intros d Hd He.
    destruct (map_find (dep_name d) r) as [v|] eqn:E.
    + apply map_find_in in E; auto. apply in_map_iff. exists (dep_name d, v). auto.
    + unfold r in E. rewrite with_placeholders_find in E by auto.
      destruct (map_find (dep_name d) fs); [discriminate|].
      destruct (find (external_named (dep_name d)) (flat_map mentioned_deps fs)) eqn:Ef; [discriminate|].
      apply mentioned_deps_spec in Hd. eapply find_none in Ef; eauto. unfold external_named in Ef.
      rewrite He in Ef. simpl in Ef. apply path_eqb_neq in Ef. congruence.
Qed.

(** * Collecting targets *)

Definition targets_of (src : path) (l : list target_info) : list (path * target) :=
  map (fun t => (lexically_normal (ti_name t), mk_target src t))
      (filter (fun t => negb (path_eqb src (ti_name t))) l).

Lemma nodup_app_cons : forall A (x : A) l m, NoDup (l ++ x :: m) <-> NoDup (x :: l ++ m).
Proof.
  intros. split; intro H.
  - apply NoDup_cons; [apply NoDup_remove_2; auto|eapply NoDup_remove_1; eauto].
  - inversion H; subst. apply NoDup_Add with (a := x) (l := l ++ m); [apply Add_app|auto].
Qed.

Lemma nodup_app_l : forall A (l m : list A), NoDup (l ++ m) -> NoDup l.
Proof.
  induction l; simpl; intros m H; [constructor|]. inversion H; subst. constructor; eauto.
  intro. apply H2. apply in_or_app. auto.
Qed.

Lemma NoDup_append : forall A (l m : list A),
    NoDup l -> NoDup m -> (forall x, In x l -> ~ In x m) -> NoDup (l ++ m).
Proof.
  induction l; simpl; intros m Hl Hm Hd; auto. inversion Hl; subst. constructor.
  - rewrite in_app_iff. intros [?|?]; auto. eapply Hd; eauto.
  - apply IHl; auto.
Qed.

(** Generic statement about inserting a list of new entries one by one. *)
Definition collected (l : list (path * target)) (ts : target_list) (r : load_result target_list) : Prop :=
  match r with
  | Loaded ts' =>
      sorted_map ts' /\ NoDup (map fst l) /\ (forall k, In k (map fst l) -> ~ In k (map fst ts)) /\
      (forall e, In e ts' <-> In e ts \/ In e l)
  | Failed (DuplicateTarget k) =>
      exists l1 t l2, l = l1 ++ (k, t) :: l2 /\ (In k (map fst l1) \/ In k (map fst ts))
  | Failed _ => False
  end.

Lemma insert_unique_ok : forall src t ts, sorted_map ts ->
    collected [(lexically_normal (ti_name t), mk_target src t)] ts (insert_unique t src ts).
Proof.
  intros src t ts Hs. unfold insert_unique. set (n := lexically_normal (ti_name t)).
  destruct (map_find n ts) as [x|] eqn:E; simpl.
  - exists [], (mk_target src t), []. split; auto. right. apply map_find_in in E; auto.
    apply in_map_iff. exists (n, x). auto.
  - apply map_find_none in E; auto. split; [apply map_insert_sorted; auto|].
    split; [repeat constructor; simpl; tauto|]. split.
    + intros k [<-|[]]. auto.
    + intros [k v]. rewrite map_insert_in by auto. unfold keys. split.
      * intros [H|[-> [-> _]]]; auto.
      * intros [H|[H|[]]]; auto. inversion H; subst. auto.
Qed.

Lemma collected_app : forall l1 l2 ts r f, sorted_map ts ->
    collected l1 ts r ->
    (forall ts', sorted_map ts' -> collected l2 ts' (f ts')) ->
    collected (l1 ++ l2) ts (then_load r f).
Proof.
  intros l1 l2 ts r f Hs H1 H2. destruct r as [ts'|e].
  - simpl. destruct H1 as (S1 & N1 & D1 & I1). specialize (H2 ts' S1). destruct (f ts') as [ts''|e].
    + destruct H2 as (S2 & N2 & D2 & I2). simpl. rewrite map_app. split; auto.
      assert (Hk : forall k, In k (map fst ts') <-> In k (map fst ts) \/ In k (map fst l1)).
      { intros k. rewrite !in_map_iff. split.
        - intros [e [He Hin]]. apply I1 in Hin. destruct Hin; [left|right]; eauto.
        - intros [[e [He Hin]]|[e [He Hin]]]; exists e; split; auto; apply I1; auto. }
      split; [|split].
      * apply NoDup_append; auto. intros k Hk1 Hk2. apply (D2 k); auto. apply Hk. auto.
      * intros k Hin. apply in_app_or in Hin. destruct Hin as [Hin|Hin]; auto.
        intro Hts. apply (D2 k); auto. apply Hk. auto.
      * intros e. rewrite I2, I1, in_app_iff. tauto.
    + simpl. destruct e; try contradiction. destruct H2 as (a & t & b & -> & Hor).
      exists (l1 ++ a), t, b. rewrite <- app_assoc. split; auto. rewrite map_app, in_app_iff.
      destruct Hor as [H|H]; auto. apply in_map_iff in H. destruct H as [x [Hx Hin]].
      apply I1 in Hin. destruct Hin as [Hin|Hin]; [right|left; left]; apply in_map_iff; eauto.
  - simpl. destruct e; try contradiction. destruct H1 as (a & t & b & -> & Hor).
    exists a, t, (b ++ l2). rewrite <- app_assoc. auto.
Qed.

Lemma collect_targets_of_ok : forall src l ts, sorted_map ts ->
    collected (targets_of src l) ts (collect_targets_of src l ts).
Proof.
  intros src l. induction l as [|t l IH]; intros ts Hs.
  - simpl. split; auto. split; [constructor|]. split; [intros k []|]. intros e. simpl. tauto.
  - unfold targets_of in *. simpl. destruct (path_eqb src (ti_name t)); simpl; auto.
    change ((lexically_normal (ti_name t), mk_target src t) :: ?x)
      with ([(lexically_normal (ti_name t), mk_target src t)] ++ x).
    apply (collected_app [(lexically_normal (ti_name t), mk_target src t)]); auto.
    apply insert_unique_ok. auto.
Qed.

Lemma collect_targets_from_ok : forall fs ts, sorted_map ts ->
    collected (declared_targets fs) ts (collect_targets_from fs ts).
Proof.
  induction fs as [|[p info] fs IH]; intros ts Hs.
  - simpl. split; auto. split; [constructor|]. split; [intros k []|]. intros e. simpl. tauto.
  - simpl. apply (collected_app (targets_of p (targets info))); auto. apply collect_targets_of_ok. auto.
Qed.

Theorem collect_targets_ok : forall fs,
    (exists ts, collect_targets fs = Loaded ts /\ NoDup (map fst (declared_targets fs)) /\
                sorted_map ts /\ forall e, In e ts <-> In e (declared_targets fs)) \/
    (exists name l1 t l2, collect_targets fs = Failed (DuplicateTarget name) /\
                          declared_targets fs = l1 ++ (name, t) :: l2 /\ In name (map fst l1)).
Proof.
  intros fs. pose proof (collect_targets_from_ok fs [] (SSorted_nil _)) as H.
  unfold collect_targets. destruct (collect_targets_from fs []) as [ts|e].
  - left. exists ts. destruct H as (S & N & _ & I). split; auto. split; auto. split; auto.
    intros e. rewrite I. simpl. tauto.
  - right. destruct e; try contradiction. destruct H as (l1 & t & l2 & -> & [Hor|[]]).
    exists name, l1, t, l2. auto.
Qed.

Lemma declared_targets_spec : forall fs name t, In (name, t) (declared_targets fs) <->
    exists info, In (t_source t, info) fs /\ In (t_info t) (targets info) /\
                 t_source t <> ti_name (t_info t) /\ name = lexically_normal (ti_name (t_info t)).
Proof.
  intros fs name t. unfold declared_targets. rewrite in_flat_map. split.
  - intros [[p info] [Hin H]]. simpl in H. apply in_map_iff in H. destruct H as [ti [He Hf]].
    apply filter_In in Hf. destruct Hf as [Hti Hne]. inversion He; subst. simpl.
    exists info. split; auto. split; auto. split; auto. apply path_eqb_neq.
    destruct (path_eqb p (ti_name ti)); auto.
  - intros [info [Hin [Hti [Hne ->]]]]. exists (t_source t, info). split; auto. simpl.
    apply in_map_iff. exists (t_info t). split; [destruct t; auto|]. apply filter_In. split; auto.
    apply path_eqb_neq in Hne. rewrite Hne. auto.
Qed.

(** * Records for generated files *)

Lemma filter_ne_spec : forall name ds d,
    In d (filter (fun d => negb (path_eqb (dep_name d) name)) ds) <-> In d ds /\ dep_name d <> name.
Proof.
  intros. rewrite filter_In, negb_true_iff, path_eqb_neq. tauto.
Qed.

Lemma scanned_unresolved : forall fs, scanned fs -> unresolved fs.
Proof.
  intros fs [Hs H] d [p [info [Hin Hd]]]. destruct (H p info Hin) as (Hb & Hu & _).
  destruct Hd as [Hd|Hd]; auto. rewrite Hb in Hd. destruct Hd.
Qed.

Lemma make_source_file_info_ok : forall fs g name t,
    sorted_map fs -> unresolved fs -> make_graph true fs = Some g -> In (t_source t) (map fst fs) ->
    ((exists q, file_reachable fs (t_source t) q /\ file_on_cycle fs q) /\
     make_source_file_info name t g = Failed CyclicDependency) \/
    ((~ exists q, file_reachable fs (t_source t) q /\ file_on_cycle fs q) /\
     exists inh, make_source_file_info name t g =
                 Loaded (generated_info (ti_use_deps (t_info t) ++ inh) (t_source t)) /\
                 forall d, In d inh <-> contributed fs name (t_source t) d).
Proof.
  intros fs g name t Hs Hu Hg Hin.
  pose proof (make_graph_resolved _ _ _ Hs Hg) as Hr.
  apply known_in in Hin. destruct Hin as [root Hroot].
  pose proof Hroot as Hget. apply (get_node_spec _ _ _ _ _ Hs Hg) in Hget.
  unfold make_source_file_info. rewrite Hget.
  pose proof (res_refs_in_range fs g Hu Hr) as Hrange.
  assert (Hlt : root < length (edges_of g)).
  { rewrite (res_length fs g Hr). eapply numbered_lt; eauto. }
  assert (Hreachlt : forall v, reachable dep_ref (edges_of g) root v -> exists q, numbered fs v q).
  { intros v Hv. apply lt_numbered. rewrite <- (res_length fs g Hr).
    clear - Hv Hrange Hlt. apply clos_rt_rtn1 in Hv. inversion Hv; subst; auto. eapply Hrange; eauto. }
  destruct (from_root_ok _ dep_ref (edges_of g) root Hrange Hlt) as
      [[[u [Hru Hcu]] [cs Hcs]]|[Hno [cs [Hcs [Hnd [Hall _]]]]]]; rewrite Hcs.
  - left. split; auto. destruct (Hreachlt u Hru) as [q Hq]. exists q. split.
    + apply (reachable_files fs g Hs Hu Hr root u); auto.
    + apply (cycle_files fs g Hs Hu Hr u); auto.
  - right. split.
    { intros [q [Hq Hc]]. apply Hno.
      assert (known fs q) as [v Hv]. { eapply reach_known; eauto. exists root. auto. }
      exists v. split.
      - apply (reachable_files fs g Hs Hu Hr root v (t_source t) q); auto.
      - apply (cycle_files fs g Hs Hu Hr v q); auto. }
    eexists. split; [reflexivity|].
    intros d. unfold inherited_deps. rewrite in_flat_map. split.
    + intros [[v oe] [Hv Hd]]. simpl in Hd.
      assert (Hrv : reachable dep_ref (edges_of g) root v).
      { apply Hall. apply in_map_iff. exists (v, oe). auto. }
      destruct (Hreachlt v Hrv) as [q Hq].
      pose proof (Forall2_nth _ _ _ _ _ Hr v) as HF.
      pose proof Hq as Hq'. unfold numbered in Hq'. rewrite nth_error_map in Hq'.
      destruct (nth_error g v) as [[p' info']|]; [|contradiction].
      destruct (nth_error fs v) as [[p info]|] eqn:Ef; [|contradiction].
      simpl in Hq'. inversion Hq'; subst q.
      apply filter_ne_spec in Hd. destruct Hd as [Hd Hne].
      destruct HF as (_ & _ & _ & Hc & _). simpl in Hc. rewrite Hc in Hd.
      exists p, info. split; [apply (reachable_files fs g Hs Hu Hr root v); auto|].
      split; auto. eapply nth_error_In; eauto.
    + intros [q [info [Hreach [Hin [Hd Hne]]]]].
      assert (known fs q) as [v Hv]. { apply known_in. apply in_map_iff. exists (q, info). auto. }
      assert (Hrv : reachable dep_ref (edges_of g) root v) by (apply (reachable_files fs g Hs Hu Hr root v (t_source t) q); auto).
      apply Hall in Hrv. apply in_map_iff in Hrv. destruct Hrv as [[v' oe] [Hv' Hc]]. simpl in Hv'. subst v'.
      exists (v, oe). split; auto. simpl.
      pose proof (Forall2_nth _ _ _ _ _ Hr v) as HF.
      pose proof Hv as Hq'. unfold numbered in Hq'. rewrite nth_error_map in Hq'.
      destruct (nth_error fs v) as [[p info0]|] eqn:Ef; [|discriminate].
      simpl in Hq'. inversion Hq'; subst p.
      destruct (nth_error g v) as [[p' info']|]; [|contradiction].
      assert (info0 = info).
      { pose proof (nth_error_In _ _ Ef) as H0. apply (map_find_in _ fs q info0 Hs) in H0.
        apply (map_find_in _ fs q info Hs) in Hin. congruence. }
      subst info0. destruct HF as (_ & _ & _ & Hch & _). simpl in Hch.
      apply filter_ne_spec. rewrite Hch. auto.
Qed.

(** Result of makeSourceFileInfos. *)
Lemma insert_infos_ok : forall g fs ts m,
    sorted_map fs -> unresolved fs -> make_graph true fs = Some g ->
    sorted_map m -> NoDup (map fst ts) ->
    (forall k t, In (k, t) ts -> In (t_source t) (map fst fs)) ->
    ((exists k t q, In (k, t) ts /\ file_reachable fs (t_source t) q /\ file_on_cycle fs q) /\
     insert_source_file_infos ts g m = Failed CyclicDependency) \/
    ((~ exists k t q, In (k, t) ts /\ file_reachable fs (t_source t) q /\ file_on_cycle fs q) /\
     exists r, insert_source_file_infos ts g m = Loaded r /\ sorted_map r /\
       (forall p info, In (p, info) m -> In (p, info) r) /\
       (forall p info, In (p, info) r -> In (p, info) m \/
          (~ In p (map fst m) /\ exists t inh, In (p, t) ts /\
             info = generated_info (ti_use_deps (t_info t) ++ inh) (t_source t) /\
             forall d, In d inh <-> contributed fs p (t_source t) d)) /\
       (forall p t, In (p, t) ts -> In p (map fst r))).
Proof.
  intros g fs ts. induction ts as [|[k t] ts IH]; intros m Hs Hu Hg Hm Hnd Hsrc.
  - right. split; [intros (k & t & q & [] & _)|]. exists m. simpl. split; auto. split; auto.
    split; auto. split; auto. intros p t [].
  - simpl in Hnd. inversion Hnd; subst. simpl.
    destruct (make_source_file_info_ok fs g k t Hs Hu Hg) as
        [[[q [Hq Hc]] He]|[Hno [inh [He Hinh]]]].
    { eapply Hsrc. simpl. eauto. }
    + rewrite He. left. split; auto. exists k, t, q. simpl. auto.
    + rewrite He. simpl.
      set (info := generated_info (ti_use_deps (t_info t) ++ inh) (t_source t)) in *.
      destruct (IH (map_insert k info m)) as
          [[(k' & t' & q & Hin & Hq & Hc) Hf]|[Hno' (r & Hr & Hrs & Hkeep & Hnew & Hall)]]; auto.
      { apply map_insert_sorted. auto. }
      { intros k' t' Hin. eapply Hsrc. simpl. eauto. }
      * left. split; auto. exists k', t', q. simpl. auto.
      * right. split.
        { intros (k' & t' & q & [Hin|Hin] & Hq & Hc).
          - inversion Hin; subst. apply Hno. eauto.
          - apply Hno'. exists k', t', q. auto. }
        exists r. split; auto. split; auto. split; [|split].
        { intros p i Hin. apply Hkeep. apply map_insert_in; auto. }
        { intros p i Hin. destruct (Hnew p i Hin) as [Hi|[Hn (t' & inh' & Ht' & Hi' & Hd')]].
          - apply map_insert_in in Hi; auto. destruct Hi as [Hi|(-> & -> & Hn)]; auto.
            right. split; auto. exists t, inh. simpl. auto.
          - right. assert (Hn' : ~ In p (map fst m)).
            { intro Hin'. apply Hn. apply (map_insert_keys _ m k info p). auto. }
            split; auto. exists t', inh'. simpl. auto. }
        { intros p t' [Hin|Hin].
          - inversion Hin; subst. assert (Hk : In p (map fst (map_insert p info m))).
            { apply (map_insert_keys _ m p info p). auto. }
            apply in_map_iff in Hk. destruct Hk as [[p' i] [Hp' Hin']]. simpl in Hp'. subst p'.
            apply in_map_iff. exists (p, i). split; auto.
          - eapply Hall; eauto. }
Qed.

(** * Dependencies taken over from targets *)

Lemma map_update_keys : forall V (m : smap V) k v, map fst (map_update k v m) = map fst m.
Proof.
  induction m as [|[a b] m IH]; simpl; intros k v; auto. destruct (path_eqb k a); simpl; auto.
  f_equal. auto.
Qed.

Lemma map_update_in : forall V (m : smap V) k v p i, NoDup (map fst m) ->
    In (p, i) (map_update k v m) -> (p = k /\ i = v /\ In k (map fst m)) \/ (p <> k /\ In (p, i) m).
Proof.
  induction m as [|[a b] m IH]; simpl; intros k v p i Hn H; [tauto|].
  inversion Hn; subst. destruct (path_eqb k a) eqn:E.
  - apply path_eqb_eq in E. subst. destruct H as [H|H].
    + inversion H; subst. auto.
    + right. split; auto. intro. subst. apply H2. apply in_map_iff. exists (a, i). auto.
  - apply path_eqb_neq in E. destruct H as [H|H].
    + inversion H; subst. right. auto.
    + apply IH in H; auto. tauto.
Qed.

Lemma map_update_other : forall V (m : smap V) k v p i, p <> k -> In (p, i) m -> In (p, i) (map_update k v m).
Proof.
  induction m as [|[a b] m IH]; simpl; intros k v p i Hne H; [tauto|].
  destruct (path_eqb k a) eqn:E; simpl.
  - apply path_eqb_eq in E. subst. destruct H as [H|H]; auto. inversion H; subst. congruence.
  - destruct H as [H|H]; auto.
Qed.

Lemma map_update_same : forall V (m : smap V) k v, In k (map fst m) -> In (k, v) (map_update k v m).
Proof.
  induction m as [|[a b] m IH]; simpl; intros k v H; [tauto|].
  destruct (path_eqb k a) eqn:E; simpl.
  - apply path_eqb_eq in E. subst. auto.
  - apply path_eqb_neq in E. destruct H; [congruence|]. auto.
Qed.

Lemma map_update_sorted : forall V (m : smap V) k v, sorted_map m -> sorted_map (map_update k v m).
Proof. intros. unfold sorted_map, keys. rewrite map_update_keys. auto. Qed.

Definition same_file (fs : file_list) (p : path) (i i' : source_file_info) : Prop :=
  exists extra, i' = set_use_deps (use_deps i ++ extra) i /\
    (use_target_deps i = false -> extra = []) /\
    (forall d, In d extra -> exists q j, In (q, j) fs /\ In d (use_deps j)).

Lemma set_use_deps_same : forall i, set_use_deps (use_deps i) i = i.
Proof. destruct i; auto. Qed.

(** Invariant of the loop: [m] differs from [fs] only by additional use
    dependencies of entries already handled. *)
Definition deps_added (fs m : file_list) (done : list path) : Prop :=
  map fst m = map fst fs /\
  (forall p i', In (p, i') m -> exists i, In (p, i) fs /\ same_file fs p i i' /\ (~ In p done -> i' = i)).

Lemma sorted_in_unique : forall V (m : smap V) k v v', sorted_map m -> In (k, v) m -> In (k, v') m -> v = v'.
Proof.
  intros V m k v v' Hs H H'. apply map_find_in in H; auto. apply map_find_in in H'; auto. congruence.
Qed.

Lemma add_target_deps_step : forall fs m done k, sorted_map fs -> deps_added fs m done ->
    ~ In k done -> deps_added fs (add_target_deps_to m k) (k :: done).
Proof.
  intros fs m done k Hs [Hk Hm] Hnd. unfold add_target_deps_to.
  assert (Hsm : sorted_map m). { unfold sorted_map, keys. rewrite Hk. auto. }
  assert (Hweak : deps_added fs m (k :: done)).
  { split; auto. intros p i' Hin. destruct (Hm p i' Hin) as [i [Hi [Hsame Hd]]].
    exists i. split; auto. split; auto. intro Hn. apply Hd. intro. apply Hn. simpl. auto. }
  destruct (map_find k m) as [info|] eqn:E; auto.
  destruct (use_target_deps info) eqn:Eu; auto.
  apply map_find_in in E; auto.
  split; [rewrite map_update_keys; auto|].
  intros p i' Hin. apply map_update_in in Hin; [|rewrite Hk; apply sorted_nodup; auto].
  destruct Hin as [[-> [-> _]]|[Hne Hin]].
  - destruct (Hm k info E) as [i [Hi [_ Hd]]]. rewrite (Hd Hnd) in *.
    exists i. split; auto. split; [|intro Hn; exfalso; apply Hn; simpl; auto].
    exists (target_use_deps m (targets i)). split; auto. split; [congruence|].
    intros d Hd'. unfold target_use_deps in Hd'. apply in_flat_map in Hd'.
    destruct Hd' as [t [Ht Hd']]. destruct (map_find (ti_name t) m) as [j|] eqn:Ej; [|destruct Hd'].
    apply map_find_in in Ej; auto. destruct (Hm _ _ Ej) as [j0 [Hj0 [[extra [-> [_ Hex]]] _]]].
    simpl in Hd'. apply in_app_or in Hd'. destruct Hd' as [Hd'|Hd']; eauto.
  - destruct (Hm p i' Hin) as [i [Hi [Hsame Hd]]]. exists i. split; auto. split; auto.
    intro Hn. apply Hd. intro. apply Hn. simpl. auto.
Qed.

Lemma add_target_deps_fold : forall fs l m done, sorted_map fs -> NoDup l ->
    (forall k, In k l -> ~ In k done) -> deps_added fs m done ->
    exists done', deps_added fs (fold_left add_target_deps_to l m) done'.
Proof.
  intros fs l. induction l as [|k l IH]; intros m done Hs Hn Hd Hm; simpl; eauto.
  inversion Hn; subst. apply (IH _ (k :: done)); auto.
  - intros k' Hk' [->|Hin]; auto. apply (Hd k'); simpl; auto.
  - apply add_target_deps_step; auto. apply Hd. simpl. auto.
Qed.

Lemma add_target_deps_ok : forall fs, sorted_map fs ->
    map fst (add_target_deps fs) = map fst fs /\
    forall p i', In (p, i') (add_target_deps fs) -> exists i, In (p, i) fs /\ same_file fs p i i'.
Proof.
  intros fs Hs. destruct (add_target_deps_fold fs (map fst fs) fs []) as [done [Hk Hm]]; auto.
  - apply sorted_nodup. auto.
  - split; auto. intros p i' Hin. exists i'. split; auto. split; auto. exists [].
    rewrite app_nil_r, set_use_deps_same. split; auto. split; auto. intros d [].
  - split; auto. intros p i' Hin. destruct (Hm p i' Hin) as [i [Hi [Hsame _]]]. eauto.
Qed.

(** * The whole of loading *)

Lemma generated_source_known : forall fs name t, In (name, t) (declared_targets fs) ->
    In (t_source t) (map fst fs).
Proof.
  intros fs name t H. apply declared_targets_spec in H. destruct H as [info [Hin _]].
  apply in_map_iff. exists (t_source t, info). auto.
Qed.

Section Load.
  Variable fs : file_list.
  Hypothesis Hscan : scanned fs.

  Variable fs1 : file_list.
  Hypothesis Hs1 : sorted_map fs1.
  Hypothesis Hkeep : forall p info, In (p, info) fs -> In (p, info) fs1.
  Hypothesis Hnew : forall p info, In (p, info) fs1 -> In (p, info) fs \/
          (~ In p (map fst fs) /\ exists t inh, In (p, t) (declared_targets fs) /\
             info = generated_info (ti_use_deps (t_info t) ++ inh) (t_source t) /\
             forall d, In d inh <-> contributed fs p (t_source t) d).
  Hypothesis Hall : forall p t, In (p, t) (declared_targets fs) -> In p (map fst fs1).
  Hypothesis Hnd : NoDup (map fst (declared_targets fs)).

  Let fs2 := map_merge fs1 (create_placeholders fs1).
  Let fs3 := add_target_deps fs2.

  Lemma declared_target_unique : forall p t t', In (p, t) (declared_targets fs) ->
      In (p, t') (declared_targets fs) -> t = t'.
  Proof.
    intros p t t'. generalize Hnd. generalize (declared_targets fs). clear.
    induction l as [|[a b] l IH]; simpl; intros Hn H H'; [tauto|].
    inversion Hn; subst. destruct H as [H|H]; destruct H' as [H'|H'].
    - congruence.
    - inversion H; subst. exfalso. apply H2. apply in_map_iff. exists (p, t'). auto.
    - inversion H'; subst. exfalso. apply H2. apply in_map_iff. exists (p, t). auto.
    - auto.
  Qed.

  Lemma generated_entry : forall name t, generated fs name t ->
      exists inh, In (name, generated_info (ti_use_deps (t_info t) ++ inh) (t_source t)) fs1 /\
                  forall d, In d inh <-> contributed fs name (t_source t) d.
  Proof.
    intros name t [Hin Hn]. pose proof (Hall _ _ Hin) as H. apply in_map_iff in H.
    destruct H as [[n i] [Heq H]]. simpl in Heq. subst n. destruct (Hnew _ _ H) as [H'|H'].
    - exfalso. apply Hn. apply in_map_iff. exists (name, i). auto.
    - destruct H' as [_ (t' & inh & Ht' & -> & Hd)].
      assert (t' = t) by (eapply declared_target_unique; eauto). subst t'.
      exists inh. auto.
  Qed.

  Lemma fs1_keys : forall p, In p (map fst fs1) <-> In p (map fst fs) \/ exists t, In (p, t) (declared_targets fs).
  Proof.
    intros p. split.
    - intro H. apply in_map_iff in H. destruct H as [[n i] [Heq H]]. simpl in Heq. subst n.
      destruct (Hnew _ _ H) as [H'|[_ (t & inh & Ht & _)]].
      + left. apply in_map_iff. exists (p, i). auto.
      + right. eauto.
    - intros [H|[t Ht]]; [|eapply Hall; eauto]. apply in_map_iff in H.
      destruct H as [[n i] [Heq H]]. simpl in Heq. subst n. apply in_map_iff. exists (p, i). auto.
  Qed.

  Lemma mentioned_fs1 : forall d, mentioned fs1 d <-> mentioned fs d \/ needed fs d.
  Proof.
    intros d. split.
    - intros [p [info [Hin H]]]. destruct (Hnew _ _ Hin) as [Hin'|[Hn (t & inh & Ht & -> & Hd)]].
      + left. exists p, info. auto.
      + right. simpl in H. destruct H as [H|[t' [[] _]]]. apply in_app_or in H. destruct H as [H|H].
        * apply (needed_by_target fs p t); auto. split; auto.
        * apply (needed_contributed fs p t); [split; auto|]. apply Hd. auto.
    - intros [[p [info [Hin H]]]|H].
      + exists p, info. auto.
      + destruct H as [p info d Hin Hd|name t d Hg Hd|name t d Hg Hd].
        * exists p, info. auto.
        * destruct (generated_entry _ _ Hg) as [inh [Hin Hinh]].
          eexists. eexists. split; [exact Hin|]. left. simpl. apply in_or_app. auto.
        * destruct (generated_entry _ _ Hg) as [inh [Hin Hinh]].
          eexists. eexists. split; [exact Hin|]. left. simpl. apply in_or_app. right. apply Hinh. auto.
  Qed.

  Lemma fs2_sorted : sorted_map fs2.
  Proof. apply map_merge_sorted. auto. Qed.

  Lemma fs2_keys : forall p, In p (map fst fs2) <-> available fs p.
  Proof.
    destruct (placeholders_spec fs1 Hs1) as (S2 & K2 & N2 & O2 & E2).
    fold fs2 in S2, K2, N2, O2, E2.
    intros p. split.
    - intro H. apply in_map_iff in H. destruct H as [[n i] [Heq H]]. simpl in Heq. subst n.
      destruct (in_dec path_eq_dec p (map fst fs1)) as [Hin|Hnin].
      + apply fs1_keys in Hin. destruct Hin as [Hin|[t Ht]]; [apply available_source|eapply available_target]; eauto.
      + destruct (N2 _ _ H Hnin) as (d & Hm & He & <- & _). apply available_external; auto.
        apply mentioned_fs1. auto.
    - intro H. destruct H as [p Hp|name t Ht|d Hd He].
      + assert (H : In p (map fst fs1)) by (apply fs1_keys; auto).
        apply in_map_iff in H. destruct H as [[n i] [Heq H]]. simpl in Heq. subst n.
        apply in_map_iff. exists (p, i). auto.
      + assert (H : In name (map fst fs1)) by (eapply Hall; eauto).
        apply in_map_iff in H. destruct H as [[n i] [Heq H]]. simpl in Heq. subst n.
        apply in_map_iff. exists (name, i). auto.
      + apply E2; auto. apply mentioned_fs1. auto.
  Qed.

  Lemma fs2_entries : forall p i, In (p, i) fs2 ->
      In (p, i) fs1 \/ exists d, i = placeholder_info (dep_origin d) no_compiler.
  Proof.
    destruct (placeholders_spec fs1 Hs1) as (S2 & K2 & N2 & O2 & E2).
    fold fs2 in S2, K2, N2, O2, E2.
    intros p i H. destruct (in_dec path_eq_dec p (map fst fs1)) as [Hin|Hnin]; auto.
    right. destruct (N2 _ _ H Hnin) as (d & _ & _ & _ & ->). exists d. auto.
  Qed.

  Lemma fs1_fs2 : forall p i, In (p, i) fs1 -> In (p, i) fs2.
  Proof.
    destruct (placeholders_spec fs1 Hs1) as (S2 & K2 & N2 & O2 & E2). exact K2.
  Qed.

  Lemma fs3_keys : map fst fs3 = map fst fs2.
  Proof. apply add_target_deps_ok. apply fs2_sorted. Qed.

  Lemma fs3_sorted : sorted_map fs3.
  Proof. unfold sorted_map, keys. rewrite fs3_keys. apply fs2_sorted. Qed.

  Lemma fs3_entries : forall p i', In (p, i') fs3 -> exists i, In (p, i) fs2 /\ same_file fs2 p i i'.
  Proof. apply add_target_deps_ok. apply fs2_sorted. Qed.

  Lemma fs2_fs3 : forall p i, In (p, i) fs2 -> exists i', In (p, i') fs3 /\ same_file fs2 p i i'.
  Proof.
    intros p i H. assert (Hk : In p (map fst fs3)).
    { rewrite fs3_keys. apply in_map_iff. exists (p, i). auto. }
    apply in_map_iff in Hk. destruct Hk as [[n i'] [Heq Hk]]. simpl in Heq. subst n.
    exists i'. split; auto. destruct (fs3_entries _ _ Hk) as [i0 [Hi0 Hsame]].
    assert (i0 = i) by (eapply sorted_in_unique; [exact fs2_sorted|exact Hi0|exact H]). subst. auto.
  Qed.

  (** What has to be resolved at the end. *)
  Lemma fs2_use_needed : forall p i d, In (p, i) fs2 -> In d (use_deps i) -> needed fs d.
  Proof.
    intros p i d Hin Hd. apply fs2_entries in Hin. destruct Hin as [Hin|[d' ->]]; [|destruct Hd].
    destruct (Hnew _ _ Hin) as [Hin'|[Hn (t & inh & Ht & -> & Hinh)]].
    - eapply needed_by_source; eauto.
    - simpl in Hd. apply in_app_or in Hd. destruct Hd as [Hd|Hd].
      + apply (needed_by_target fs p t); auto. split; auto.
      + apply (needed_contributed fs p t); [split; auto|]. apply Hinh. auto.
  Qed.

  Lemma fs2_build : forall p i d, In (p, i) fs2 -> In d (build_deps i) ->
      In (dep_name d) (map fst fs) /\ dep_ref d = None.
  Proof.
    intros p i d Hin Hd. apply fs2_entries in Hin. destruct Hin as [Hin|[d' ->]]; [|destruct Hd].
    destruct (Hnew _ _ Hin) as [Hin'|[Hn (t & inh & Ht & -> & Hinh)]].
    - destruct Hscan as [_ H]. destruct (H _ _ Hin') as [Hb _]. rewrite Hb in Hd. destruct Hd.
    - simpl in Hd. destruct Hd as [<-|[]]. simpl. split; auto. eapply generated_source_known; eauto.
  Qed.

  Lemma needed_ref : forall d, needed fs d -> dep_ref d = None.
  Proof.
    intros d H. destruct Hscan as [_ Hsc]. destruct H as [p info d Hin Hd|name t d [Hg _] Hd|name t d Hg Hd].
    - destruct (Hsc _ _ Hin) as (_ & H & _). auto.
    - apply declared_targets_spec in Hg. destruct Hg as [info [Hin [Ht _]]].
      destruct (Hsc _ _ Hin) as (_ & _ & _ & H). eapply H; eauto.
    - destruct Hd as (q & info & _ & Hin & Hd & _). destruct (Hsc _ _ Hin) as (_ & _ & H & _). auto.
  Qed.

  Lemma fs3_declared : forall d, declared fs3 d ->
      dep_ref d = None /\ (needed fs d \/ In (dep_name d) (map fst fs)).
  Proof.
    intros d [p [i' [Hin Hd]]]. destruct (fs3_entries _ _ Hin) as [i [Hi [extra [-> [_ Hex]]]]].
    simpl in Hd. destruct Hd as [Hd|Hd].
    - assert (needed fs d).
      { apply in_app_or in Hd. destruct Hd as [Hd|Hd]; [eapply fs2_use_needed; eauto|].
        destruct (Hex d Hd) as (q & j & Hj & Hdj). eapply fs2_use_needed; eauto. }
      split; auto. apply needed_ref. auto.
    - destruct (fs2_build _ _ _ Hi Hd). auto.
  Qed.

  Lemma needed_declared : forall d, needed fs d -> declared fs3 d.
  Proof.
    intros d H.
    assert (Hx : exists p i, In (p, i) fs1 /\ In d (use_deps i)).
    { destruct H as [p info d Hin Hd|name t d Hg Hd|name t d Hg Hd].
      - exists p, info. auto.
      - destruct (generated_entry _ _ Hg) as [inh [Hin Hinh]].
        eexists. eexists. split; [exact Hin|]. simpl. apply in_or_app. auto.
      - destruct (generated_entry _ _ Hg) as [inh [Hin Hinh]].
        eexists. eexists. split; [exact Hin|]. simpl. apply in_or_app. right. apply Hinh. auto. }
    destruct Hx as (p & i & Hin & Hd). apply fs1_fs2 in Hin. apply fs2_fs3 in Hin.
    destruct Hin as [i' [Hin [extra [-> _]]]]. exists p. eexists. split; [exact Hin|].
    left. simpl. apply in_or_app. auto.
  Qed.

  Lemma fs3_known : forall p, known fs3 p <-> available fs p.
  Proof. intros p. rewrite known_in, fs3_keys. apply fs2_keys. Qed.

  Lemma fs3_unresolved : unresolved fs3.
  Proof. intros d Hd. apply fs3_declared in Hd. tauto. Qed.

  Lemma fs3_complete :
    (forall d, needed fs d -> available fs (dep_name d)) <->
    (forall d, declared fs3 d -> known fs3 (dep_name d)).
  Proof.
    split; intros H d Hd.
    - apply fs3_known. apply fs3_declared in Hd. destruct Hd as [_ [Hd|Hd]]; auto.
      apply available_source. auto.
    - apply fs3_known. apply H. apply needed_declared. auto.
  Qed.

  Lemma fs3_source : forall p i, In (p, i) fs ->
      exists extra, In (p, set_use_deps (use_deps i ++ extra) i) fs3 /\
        (use_target_deps i = false -> extra = []) /\ (forall d, In d extra -> needed fs d).
  Proof.
    intros p i Hin. apply Hkeep in Hin. apply fs1_fs2 in Hin. apply fs2_fs3 in Hin.
    destruct Hin as [i' [Hin [extra [-> [He Hd]]]]]. exists extra. split; auto. split; auto.
    intros d Hx. destruct (Hd d Hx) as (q & j & Hj & Hdj). eapply fs2_use_needed; eauto.
  Qed.

  Lemma fs3_generated : forall name t, generated fs name t ->
      exists inh, In (name, generated_info (ti_use_deps (t_info t) ++ inh) (t_source t)) fs3 /\
                  forall d, In d inh <-> contributed fs name (t_source t) d.
  Proof.
    intros name t Hg. destruct (generated_entry _ _ Hg) as [inh [Hin Hinh]]. exists inh. split; auto.
    apply fs1_fs2 in Hin. apply fs2_fs3 in Hin. destruct Hin as [i' [Hin [extra [-> [He _]]]]].
    simpl in He. rewrite He in Hin by auto. simpl in Hin. rewrite app_nil_r in Hin. exact Hin.
  Qed.

  Lemma fs3_other : forall p i', In (p, i') fs3 ->
      In p (map fst fs) \/ (exists t, generated fs p t) \/
      exists d, (mentioned fs d \/ needed fs d) /\ is_external (dep_origin d) = true /\ dep_name d = p /\
                i' = placeholder_info (dep_origin d) no_compiler.
  Proof.
    intros p i' Hin. destruct (fs3_entries _ _ Hin) as [i [Hi [extra [-> [He _]]]]].
    destruct (in_dec path_eq_dec p (map fst fs)) as [Hk|Hk]; auto. right.
    destruct (in_dec path_eq_dec p (map fst fs1)) as [Hk1|Hk1].
    - left. apply fs1_keys in Hk1. destruct Hk1 as [Hk1|[t Ht]]; [tauto|]. exists t. split; auto.
    - right. destruct (placeholders_spec fs1 Hs1) as (_ & _ & N2 & _ & _).
      destruct (N2 _ _ Hi Hk1) as (d & Hm & Hx & Hn & ->). exists d. split; [apply mentioned_fs1; auto|].
      split; auto. split; auto. simpl in He. rewrite He by auto. reflexivity.
  Qed.
End Load.

Theorem load_project_ok : forall fs, scanned fs ->
    (~ NoDup (map fst (declared_targets fs)) /\
     exists name, load_project fs = Failed (DuplicateTarget name) /\ In name (map fst (declared_targets fs))) \/
    (NoDup (map fst (declared_targets fs)) /\
     ((reaches_cycle fs /\ load_project fs = Failed CyclicDependency) \/
      (~ reaches_cycle fs /\
       (((exists d, needed fs d /\ ~ available fs (dep_name d)) /\
         load_project fs = Failed FailedToResolve) \/
        ((forall d, needed fs d -> available fs (dep_name d)) /\
         exists ts fs3 g, load_project fs = Loaded (ts, g) /\
           sorted_map ts /\ (forall e, In e ts <-> In e (declared_targets fs)) /\
           sorted_map fs3 /\ unresolved fs3 /\ make_graph false fs3 = Some g /\
           files_resolved fs3 g /\ (forall p, known fs3 p <-> available fs p) /\
           (forall p i, In (p, i) fs ->
              exists extra, In (p, set_use_deps (use_deps i ++ extra) i) fs3 /\
                (use_target_deps i = false -> extra = []) /\ (forall d, In d extra -> needed fs d)) /\
           (forall name t, generated fs name t ->
              exists inh, In (name, generated_info (ti_use_deps (t_info t) ++ inh) (t_source t)) fs3 /\
                          forall d, In d inh <-> contributed fs name (t_source t) d) /\
           (forall p i', In (p, i') fs3 -> In p (map fst fs) \/ (exists t, generated fs p t) \/
              exists d, (mentioned fs d \/ needed fs d) /\ is_external (dep_origin d) = true /\ dep_name d = p /\
                        i' = placeholder_info (dep_origin d) no_compiler)))))).
Proof.
  intros fs Hscan. pose proof (proj1 Hscan) as Hs. pose proof (scanned_unresolved fs Hscan) as Hu.
  destruct (collect_targets_ok fs) as [(ts & Hts & Hnd & Hst & Hin)|(name & l1 & t & l2 & He & Hl & Hdup)].
  2:{ left. split.
      - rewrite Hl, map_app. simpl. intro H. apply NoDup_remove_2 in H. apply H. apply in_or_app. auto.
      - exists name. unfold load_project. rewrite He. simpl. split; auto.
        rewrite Hl, map_app. apply in_or_app. simpl. auto. }
  right. split; auto. unfold load_project. rewrite Hts. simpl. unfold make_source_file_infos.
  destruct (make_graph_lenient fs Hs) as [g0 [Hg0 _]]. rewrite Hg0.
  destruct (insert_infos_ok g0 fs ts fs) as
      [[(k & t & q & Hk & Hq & Hc) Hf]|[Hno (fs1 & Hf & Hs1 & Hkeep & Hnew & Hall)]]; auto.
  { apply sorted_nodup. auto. }
  { intros k t Hk. apply Hin in Hk. eapply generated_source_known; eauto. }
  - left. rewrite Hf. simpl. split; auto. exists k, t, q. split; auto. apply Hin. auto.
  - right. split.
    { intros (k & t & q & Hk & Hq & Hc). apply Hno. exists k, t, q. split; auto. apply Hin. auto. }
    rewrite Hf. simpl.
    assert (Hnew' : forall p info, In (p, info) fs1 -> In (p, info) fs \/
          (~ In p (map fst fs) /\ exists t inh, In (p, t) (declared_targets fs) /\
             info = generated_info (ti_use_deps (t_info t) ++ inh) (t_source t) /\
             forall d, In d inh <-> contributed fs p (t_source t) d)).
    { intros p i Hp. destruct (Hnew p i Hp) as [H|[Hn (t & inh & Ht & Hi & Hd)]]; auto.
      right. split; auto. exists t, inh. split; auto. apply Hin. auto. }
    assert (Hall' : forall p t, In (p, t) (declared_targets fs) -> In p (map fst fs1)).
    { intros p t Hp. eapply Hall. apply Hin. eauto. }
    set (fs3 := add_target_deps (map_merge fs1 (create_placeholders fs1))).
    assert (Hs3 : sorted_map fs3) by (apply (fs3_sorted fs1); auto).
    pose proof (fs3_complete fs Hscan fs1 Hs1 Hkeep Hnew' Hall' Hnd) as Hcomp. fold fs3 in Hcomp.
    destruct (make_graph_strict fs3 Hs3) as [(g & Hg & Hres & Hknown)|(Hg & d & Hd & Hk)]; rewrite Hg.
    + right. split; [apply Hcomp; auto|]. exists ts, fs3, g. split; auto. split; auto. split; auto.
      split; auto. split; [apply (fs3_unresolved fs Hscan fs1); auto|]. split; auto. split; auto.
      split; [apply (fs3_known fs fs1); auto|].
      split; [apply (fs3_source fs fs1); auto|]. split; [apply (fs3_generated fs fs1); auto|].
      apply (fs3_other fs fs1); auto.
    + left. split; auto. exists d.
      destruct (fs3_declared fs Hscan fs1 Hs1 Hnew' d Hd) as [_ [Hneed|Hsrc]].
      * split; auto. intro Ha. apply Hk. apply (fs3_known fs fs1 Hs1 Hkeep Hnew' Hall' Hnd). auto.
      * exfalso. apply Hk. apply (fs3_known fs fs1 Hs1 Hkeep Hnew' Hall' Hnd). apply available_source. auto.
Qed.

(** * In terms of the resulting graph *)

Lemma resolved_names : forall fs l l', Forall2 (dependency_resolved fs) l l' ->
    map dep_name l' = map dep_name l.
Proof.
  intros fs l l' H. induction H; simpl; auto. destruct H as [H _]. rewrite H, IHForall2. auto.
Qed.

Lemma strict_declared : forall fs g, sorted_map fs -> make_graph false fs = Some g ->
    files_resolved fs g -> forall d, declared g d ->
    exists k, dep_ref d = Some k /\ numbered g k (dep_name d).
Proof.
  intros fs g Hs Hg Hr d (p & i' & Hin & Hd).
  destruct (make_graph_strict fs Hs) as [(g' & Hg' & _ & Hk)|[Hn _]]; [|congruence].
  assert (Hkeys : map fst g = map fst fs) by (eapply files_resolved_keys; eauto).
  assert (Hex : exists d0, declared fs d0 /\ dependency_resolved fs d0 d).
  { destruct (Forall2_in_r _ _ _ _ _ _ Hr Hin) as [[p0 i] [Hin0 (Hp & Hu & Hb & _)]]. simpl in *.
    destruct Hd as [Hd|Hd].
    - destruct (Forall2_in_r _ _ _ _ _ _ Hu Hd) as [d0 [Hd0 Hres]]. exists d0. split; auto.
      exists p0, i. auto.
    - destruct (Forall2_in_r _ _ _ _ _ _ Hb Hd) as [d0 [Hd0 Hres]]. exists d0. split; auto.
      exists p0, i. auto. }
  destruct Hex as [d0 [Hd0 (Hn & _ & _ & Href & _)]].
  destruct (Hk d0 Hd0) as [k Hnum]. exists k. split; auto.
  unfold numbered in *. rewrite Hkeys, Hn. auto.
Qed.

Theorem load_project_graph : forall fs, scanned fs ->
    (~ NoDup (map fst (declared_targets fs)) /\
     exists name, load_project fs = Failed (DuplicateTarget name) /\ In name (map fst (declared_targets fs))) \/
    (NoDup (map fst (declared_targets fs)) /\
     ((reaches_cycle fs /\ load_project fs = Failed CyclicDependency) \/
      (~ reaches_cycle fs /\
       (((exists d, needed fs d /\ ~ available fs (dep_name d)) /\
         load_project fs = Failed FailedToResolve) \/
        ((forall d, needed fs d -> available fs (dep_name d)) /\
         exists ts g, load_project fs = Loaded (ts, g) /\
           sorted_map ts /\ (forall e, In e ts <-> In e (declared_targets fs)) /\
           project_graph fs g))))).
Proof.
  intros fs Hscan. destruct (load_project_ok fs Hscan) as [H|[Hnd [H|[Hc [H|[Ha H]]]]]].
  - tauto.
  - tauto.
  - tauto.
  - right. split; auto. right. split; auto. right. split; auto.
    destruct H as (ts & fs3 & g & Hl & Hst & Hts & Hs3 & Hu3 & Hg & Hr & Hk & Hsrc & Hgen & Hoth).
    exists ts, g. split; auto. split; auto. split; auto.
    assert (Hkeys : map fst g = map fst fs3) by (eapply files_resolved_keys; eauto).
    split; [unfold sorted_map, keys; rewrite Hkeys; auto|].
    split; [intros p; rewrite <- Hk; unfold known, numbered; rewrite Hkeys; tauto|].
    split; [eapply strict_declared; eauto|]. split; [|split].
    + intros p i Hin. destruct (Hsrc p i Hin) as (extra & Hin3 & He & _).
      destruct (Forall2_in_l _ _ _ _ _ _ Hr Hin3) as [[p' i'] [Hin' (Hp & Huse & Hb & H1 & H2 & H3 & H4 & H5 & H6 & _)]].
      simpl in *. subst p'. exists i'. split; auto.
      repeat (split; auto); try congruence.
      * destruct Hscan as [_ Hsc]. destruct (Hsc _ _ Hin) as [Hnil _]. rewrite Hnil in Hb. inversion Hb. auto.
      * intros q Hq. rewrite (resolved_names _ _ _ Huse), map_app. apply in_or_app. auto.
      * intro Hf. rewrite (resolved_names _ _ _ Huse), (He Hf), app_nil_r. auto.
    + intros name t Hgn. destruct (Hgen name t Hgn) as (inh & Hin3 & Hinh).
      destruct (Forall2_in_l _ _ _ _ _ _ Hr Hin3) as [[p' i'] [Hin' (Hp & Huse & Hb & H1 & H2 & H3 & H4 & H5 & H6 & _)]].
      simpl in *. subst p'. exists i'. split; auto. split; auto. split; auto. split.
      * rewrite (resolved_names _ _ _ Hb). auto.
      * intros q. rewrite (resolved_names _ _ _ Huse), map_app, in_app_iff, !in_map_iff. split.
        -- intros [[d [Hd Hd']]|[d [Hd Hd']]]; exists d; split; auto. right. apply Hinh. auto.
        -- intros [d [Hd [Hd'|Hd']]]; [left|right]; exists d; split; auto. apply Hinh. auto.
    + intros p i' Hin. destruct (Forall2_in_r _ _ _ _ _ _ Hr Hin) as [[p' i] [Hin' (Hp & Huse & Hb & H1 & H2 & H3 & H4 & H5 & H6 & H7)]].
      simpl in *. subst p'. destruct (Hoth p i Hin') as [H|[H|(d & Hd & He & Hn & ->)]]; auto.
      right. right. exists d. split; auto. split; auto. split; auto.
      simpl in *. inversion Huse; inversion Hb. destruct i'; simpl in *. subst. reflexivity.
Qed.

Lemma target_not_self : forall fs ts g name t, scanned fs -> load_project fs = Loaded (ts, g) ->
    generated fs name t -> ~ In name (map dep_name (ti_use_deps (t_info t))) ->
    exists i, In (name, i) g /\ target_record fs name t i /\
              ~ In name (map dep_name (use_deps i)) /\ ~ In name (map dep_name (build_deps i)).
Proof.
  intros fs ts g name t Hscan Hl Hgen Hno.
  destruct (load_project_graph fs Hscan) as [[_ [n [Hx _]]]|[_ [[_ Hx]|[_ [[_ Hx]|[_ Hx]]]]]]; try congruence.
  destruct Hx as (ts' & g' & Heq & _ & _ & (_ & _ & _ & _ & Hg & _)). rewrite Hl in Heq. inversion Heq; subst ts' g'.
  destruct (Hg name t Hgen) as [i [Hin Hrec]]. exists i. split; auto. split; auto.
  destruct Hrec as (_ & _ & Hb & Hu). split.
  - intro H. apply Hu in H. destruct H as [d [Hd [Hd'|Hd']]].
    + apply Hno. apply in_map_iff. eauto.
    + destruct Hd' as (q & info & _ & _ & _ & Hne). auto.
  - rewrite Hb. intros [H|[]]. destruct Hgen as [Hdecl Hn]. apply Hn. rewrite <- H.
    eapply generated_source_known; eauto.
Qed.

(** What the graph of a loaded project was made from. *)
Lemma loaded_from : forall fs ts g, scanned fs -> load_project fs = Loaded (ts, g) ->
    exists fs3, sorted_map fs3 /\ unresolved fs3 /\ make_graph false fs3 = Some g.
Proof.
  intros fs ts g Hscan Hl.
  destruct (load_project_ok fs Hscan) as [[_ [n [Hx _]]]|[_ [[_ Hx]|[_ [[_ Hx]|[_ Hx]]]]]]; try congruence.
  destruct Hx as (ts' & fs3 & g' & Heq & _ & _ & Hs & Hu & Hg & _). rewrite Hl in Heq. inversion Heq; subst.
  eauto.
Qed.
