(** Proofs about linking. *)

From Coq Require Import Ascii String Bool Sorted.
From Coq Require Import List.
From Verif Require Import Str Path SMap PathProofs DbModel JsonModel DepGraphModel DepGraphSpec DepGraphProofs FileListModel FileListSpec FileListProofs.
From Verif Require Import LoadModel LexModel CfgModel CfgSpec KindModel KindSpec KindProofs.
From Verif Require Import SchedModel SchedSpec SchedProofs TaskListModel TaskListSpec TaskListProofs BuildModel BuildSpec BuildProofs LinkSpec.
Import ListNotations.

(** * addTargetDepsToSourceFiles *)

Lemma add_target_deps_to_other m k p i : p <> k -> sorted_map m -> In (p, i) m -> In (p, i) (add_target_deps_to m k).
Proof.
  intros N S I. unfold add_target_deps_to. destruct (map_find k m) as [info|]; [|exact I].
  destruct (use_target_deps info); [|exact I]. apply map_update_other; assumption.
Qed.

Lemma add_target_deps_to_keys m k : map fst (add_target_deps_to m k) = map fst m.
Proof.
  unfold add_target_deps_to. destruct (map_find k m) as [info|]; [|reflexivity].
  destruct (use_target_deps info); [|reflexivity]. apply map_update_keys.
Qed.

Lemma fold_other l : forall m p i, ~ In p l -> sorted_map m -> In (p, i) m -> In (p, i) (fold_left add_target_deps_to l m).
Proof.
  induction l as [|k l IH]; intros m p i N S I; [exact I|]. cbn [fold_left]. apply IH.
  - intro H. apply N. right. exact H.
  - unfold sorted_map, keys. rewrite add_target_deps_to_keys. exact S.
  - apply add_target_deps_to_other; try assumption. intro H. apply N. left. symmetry. exact H.
Qed.

Lemma fold_added fs l : forall m done, sorted_map fs -> NoDup l -> (forall k, In k l -> ~ In k done) -> deps_added fs m done ->
  deps_added fs (fold_left add_target_deps_to l m) (rev l ++ done).
Proof.
  induction l as [|k l IH]; intros m done S N D A; [exact A|]. cbn [fold_left rev]. inversion N; subst.
  rewrite <- app_assoc. cbn [app]. apply IH; try assumption.
  - intros k' I [->|I']; [contradiction|]. apply (D k'); [right; exact I|exact I'].
  - apply add_target_deps_step; try assumption. apply D. left. reflexivity.
Qed.

Lemma target_use_deps_in m ts d : sorted_map m ->
  (In d (target_use_deps m ts) <-> exists t j, In t ts /\ In (ti_name t, j) m /\ In d (use_deps j)).
Proof.
  intro S. unfold target_use_deps. rewrite in_flat_map. split.
  - intros (t & It & I). destruct (map_find (ti_name t) m) as [j|] eqn:E; [|destruct I].
    apply map_find_in in E; [|exact S]. exists t, j. auto.
  - intros (t & j & It & I & D). exists t. split; [exact It|]. apply map_find_in in I; [|exact S]. rewrite I. exact D.
Qed.

(** The entry of a file which uses the dependencies of its targets, when all its targets are
    either itself, or do not use the dependencies of targets. *)
Lemma add_target_deps_entry fs p i : sorted_map fs -> In (p, i) fs -> use_target_deps i = true ->
  (forall t j, In t (targets i) -> In (ti_name t, j) fs -> ti_name t = p \/ use_target_deps j = false) ->
  exists i', In (p, i') (add_target_deps fs) /\
    forall d, In d (use_deps i') <->
      In d (use_deps i) \/ exists t j, In t (targets i) /\ ti_name t <> p /\ In (ti_name t, j) fs /\ In d (use_deps j).
Proof.
  intros S I U T.
  assert (In p (map fst fs)) as Ip by (apply in_map_iff; exists (p, i); auto).
  destruct (in_split _ _ Ip) as (l1 & l2 & E).
  assert (NoDup (map fst fs)) as N by (apply sorted_nodup; exact S). rewrite E in N.
  pose proof (NoDup_remove_2 _ _ _ N) as Np. pose proof (NoDup_remove_1 _ _ _ N) as N1.
  assert (NoDup l1) as N1l.
  { clear - N1. induction l1 as [|x l1 IH]; [constructor|]. cbn in N1. inversion N1; subst. constructor; [|auto].
    intro H. apply H1, in_or_app. left. exact H. }
  assert (deps_added fs fs []) as A0.
  { split; auto. intros q j Hin. exists j. split; auto. split; auto. exists [].
    rewrite app_nil_r, set_use_deps_same. split; auto. split; auto. intros d []. }
  set (m := fold_left add_target_deps_to l1 fs).
  assert (deps_added fs m (rev l1 ++ [])) as A by (apply fold_added; auto).
  destruct A as [K A].
  assert (sorted_map m) as Sm by (unfold sorted_map, keys; rewrite K; exact S).
  assert (In (p, i) m) as Im.
  { apply fold_other; auto. intro H. apply Np, in_or_app. left. exact H. }
  exists (set_use_deps (use_deps i ++ target_use_deps m (targets i)) i). split.
  - unfold add_target_deps. rewrite E, fold_left_app. fold m. cbn [fold_left]. apply fold_other.
    + intro H. apply Np, in_or_app. right. exact H.
    + unfold sorted_map, keys. rewrite add_target_deps_to_keys. exact Sm.
    + unfold add_target_deps_to. pose proof Im as F. apply map_find_in in F; [|exact Sm]. rewrite F, U.
      apply map_update_same. rewrite K. exact Ip.
  - intro d. cbn [use_deps set_use_deps]. rewrite in_app_iff, (target_use_deps_in _ _ _ Sm). split.
    + intros [D|(t & j & It & Ij & D)]; [left; exact D|].
      destruct (path_eq_dec (ti_name t) p) as [Eq|Ne].
      * left. rewrite Eq in Ij. assert (j = i) as -> by (eapply sorted_in_unique; eauto). exact D.
      * right. exists t, j. destruct (A _ _ Ij) as (j0 & Ij0 & (extra & -> & X & _) & _).
        destruct (T t j0 It Ij0) as [?|Uj]; [contradiction|]. rewrite (X Uj), app_nil_r, set_use_deps_same in *. auto.
    + intros [D|(t & j & It & Ne & Ij & D)]; [left; exact D|]. right. exists t.
      assert (In (ti_name t) (map fst m)) as Kt by (rewrite K; apply in_map_iff; exists (ti_name t, j); auto).
      apply in_map_iff in Kt. destruct Kt as ((q & j') & Eq & Ij'). cbn in Eq. subst q.
      exists j'. split; [exact It|]. split; [exact Ij'|].
      destruct (A _ _ Ij') as (j0 & Ij0 & (extra & -> & _ & _) & _).
      assert (j0 = j) as -> by (eapply sorted_in_unique; [exact S| |]; eassumption).
      cbn. apply in_or_app. left. exact D.
Qed.

(** * Loading *)

Lemma load_project_steps fs ts g : scanned fs -> load_project fs = Loaded (ts, g) ->
  exists fs1, sorted_map fs1 /\ (forall p info, In (p, info) fs -> In (p, info) fs1) /\
    (forall p info, In (p, info) fs1 -> In (p, info) fs \/
          (~ In p (map fst fs) /\ exists t inh, In (p, t) (declared_targets fs) /\
             info = generated_info (ti_use_deps (t_info t) ++ inh) (t_source t) /\
             forall d, In d inh <-> contributed fs p (t_source t) d)) /\
    (forall p t, In (p, t) (declared_targets fs) -> In p (map fst fs1)) /\
    NoDup (map fst (declared_targets fs)) /\
    make_graph false (add_target_deps (map_merge fs1 (create_placeholders fs1))) = Some g.
Proof.
  intros Hscan L. pose proof (proj1 Hscan) as Hs. pose proof (scanned_unresolved fs Hscan) as Hu.
  unfold load_project in L.
  destruct (collect_targets_ok fs) as [(ts' & Hts & Hnd & Hst & Hin)|(name & l1 & t & l2 & He & Hl & Hdup)];
    [|rewrite He in L; discriminate].
  rewrite Hts in L. cbn [then_load] in L. unfold make_source_file_infos in L.
  destruct (make_graph_lenient fs Hs) as [g0 [Hg0 _]]. rewrite Hg0 in L.
  destruct (insert_infos_ok g0 fs ts' fs) as
      [[(k & t & q & Hk & Hq & Hc) Hf]|[Hno (fs1 & Hf & Hs1 & Hkeep & Hnew & Hall)]]; auto.
  { apply sorted_nodup. auto. }
  { intros k t Hk. apply Hin in Hk. eapply generated_source_known; eauto. }
  { rewrite Hf in L. discriminate. }
  rewrite Hf in L. cbn [then_load] in L. exists fs1. split; auto. split; auto. split; [|split; [|split; auto]].
  - intros p i Hp. destruct (Hnew p i Hp) as [H|[Hn (t & inh & Ht & Hi & Hd)]]; auto.
    right. split; auto. exists t, inh. split; auto. apply Hin. auto.
  - intros p t Hp. eapply Hall. apply Hin. eauto.
  - destruct (make_graph false _) as [g'|]; [|discriminate]. injection L as _ ->. reflexivity.
Qed.

Lemma proper_generated fs g p i t : proper_names fs g -> In (p, i) fs -> In t (targets i) -> ti_name t <> p ->
  generated fs (ti_name t) (mk_target p t).
Proof.
  intros (_ & P) I It Ne. destruct (P p i t I It) as (N & [?|Nk]); [contradiction|]. split; [|exact Nk].
  apply declared_targets_spec. exists i. cbn. auto.
Qed.

Lemma linked_deps fs ts g p i : scanned fs -> load_project fs = Loaded (ts, g) -> proper_names fs g ->
  In (p, i) fs -> use_target_deps i = true ->
  exists i', In (p, i') g /\ forall q, In q (map dep_name (use_deps i')) <->
    In q (map dep_name (use_deps i)) \/ exists t, In t (targets i) /\ ti_name t <> p /\ target_uses fs (ti_name t) q.
Proof.
  intros Hscan L P I U. destruct (load_project_steps fs ts g Hscan L) as (fs1 & S1 & Keep & New & All & ND & G).
  set (fs2 := map_merge fs1 (create_placeholders fs1)) in *.
  assert (sorted_map fs2) as S2 by (apply map_merge_sorted; exact S1).
  assert (forall t, In t (targets i) -> ti_name t <> p -> exists inh,
            In (ti_name t, generated_info (ti_use_deps t ++ inh) p) fs2 /\
            forall d, In d inh <-> contributed fs (ti_name t) p d) as T.
  { intros t It Ne. destruct (generated_entry fs fs1 New All ND _ _ (proper_generated fs g p i t P I It Ne)) as (inh & Ie & C).
    exists inh. split; [|exact C]. apply (fs1_fs2 fs1 S1). exact Ie. }
  destruct (add_target_deps_entry fs2 p i S2 (fs1_fs2 fs1 S1 _ _ (Keep _ _ I)) U) as (i3 & I3 & D3).
  { intros t j It Ij. destruct (path_eq_dec (ti_name t) p) as [E|Ne]; [left; exact E|right].
    destruct (T t It Ne) as (inh & Ig & _). rewrite (sorted_in_unique _ _ _ _ _ S2 Ij Ig). reflexivity. }
  assert (sorted_map (add_target_deps fs2)) as S3.
  { unfold sorted_map, keys. rewrite (proj1 (add_target_deps_ok fs2 S2)). exact S2. }
  pose proof (make_graph_resolved _ _ _ S3 G) as R.
  destruct (Forall2_in_l _ _ _ _ _ _ R I3) as ((p' & i') & I' & (Ep & Hu & _)). cbn in Ep. subst p'.
  exists i'. split; [exact I'|]. intro q. cbn [snd] in Hu. rewrite (resolved_names _ _ _ Hu).
  split.
  - intro Q. apply in_map_iff in Q. destruct Q as (d & <- & D). apply D3 in D.
    destruct D as [D|(t & j & It & Ne & Ij & D)]; [left; apply in_map; exact D|right].
    exists t. split; [exact It|]. split; [exact Ne|]. destruct (T t It Ne) as (inh & Ig & C).
    rewrite (sorted_in_unique _ _ _ _ _ S2 Ij Ig) in D. cbn in D. apply in_app_or in D.
    pose proof (proper_generated fs g p i t P I It Ne) as Gn. destruct D as [D|D].
    + apply (uses_declared fs _ _ d Gn). exact D.
    + apply (uses_included fs _ _ d Gn). apply C. exact D.
  - intros [Q|(t & It & Ne & Us)].
    + apply in_map_iff in Q. destruct Q as (d & <- & D). apply in_map, D3. left. exact D.
    + pose proof (proper_generated fs g p i t P I It Ne) as Gn. destruct (T t It Ne) as (inh & Ig & C).
      destruct Us as [t' d Gn' D|t' d Gn' D]; apply in_map, D3; right;
        exists t; eexists; split; [exact It| |exact It|]; (split; [exact Ne|split; [exact Ig|]]); cbn; apply in_or_app;
        assert (t' = mk_target p t) as -> by (eapply declared_target_unique; [exact ND|apply Gn'|apply Gn]);
        [left; exact D|right; apply C; exact D].
Qed.

(** * What is needed for linking *)

Lemma loaded_graph fs g : loaded fs g -> exists ts, load_project fs = Loaded (ts, g) /\ project_graph fs g.
Proof.
  intros (Hscan & (ts & L) & _). exists ts. split; [exact L|].
  destruct (load_project_graph fs Hscan) as [[_ [n [Hx _]]]|[_ [[_ Hx]|[_ [[_ Hx]|[_ Hx]]]]]]; try congruence.
  destruct Hx as (ts' & g' & Heq & _ & _ & PG). rewrite L in Heq. injection Heq as <- <-. exact PG.
Qed.

Lemma depends_on fs g p i q : project_graph fs g -> In (p, i) g -> In q (map dep_name (use_deps i)) -> file_depends g p q.
Proof.
  intros (_ & _ & R & _) I Q. apply in_map_iff in Q. destruct Q as (d & <- & D).
  assert (declared_by g p d) as DB by (exists i; auto). destruct (R d (ex_intro _ p DB)) as (k & _ & N).
  split; [exists k; exact N|exists d; auto].
Qed.

Lemma target_uses_depends fs g name q : project_graph fs g -> target_uses fs name q -> file_depends g name q.
Proof.
  intros PG U. pose proof PG as (_ & _ & _ & _ & Gen & _).
  destruct U as [t d G D|t d G D]; destruct (Gen name t G) as (i & I & (_ & _ & _ & E)); apply (depends_on fs g name i); try assumption;
    apply E; exists d; auto.
Qed.

Lemma link_needs_reachable fs g name q : project_graph fs g -> link_needs fs name q -> file_reachable g name q.
Proof.
  intros PG L. induction L as [name q U|name q r U _ IH].
  - apply (reach_step g name q q); [|apply reach_self]. eapply target_uses_depends; eassumption.
  - apply (reach_step g name q r); [|exact IH]. eapply target_uses_depends; eassumption.
Qed.

Lemma linked_reachable fs g p i t q : loaded fs g -> proper_names fs g -> In (p, i) fs -> use_target_deps i = true ->
  In t (targets i) -> ti_name t <> p -> link_needs fs (ti_name t) q ->
  exists q', file_depends g p q' /\ file_reachable g q' q.
Proof.
  intros Ld P I U It Ne L. destruct (loaded_graph fs g Ld) as (ts & Hl & PG).
  destruct (linked_deps fs ts g p i (proj1 Ld) Hl P I U) as (i' & I' & D).
  assert (forall q', target_uses fs (ti_name t) q' -> file_depends g p q') as S.
  { intros q' Us. apply (depends_on fs g p i'); [exact PG|exact I'|]. apply D. right. exists t. auto. }
  destruct L as [q Us|q r Us L].
  - exists q. split; [apply S, Us|apply reach_self].
  - exists q. split; [apply S, Us|]. eapply link_needs_reachable; eassumption.
Qed.

Lemma deps_recursive fs g v p ds : loaded fs g -> numbered g v p -> get_use_deps_recursive g v = DepsFound ds ->
  ~ file_on_cycle g p /\ forall q, In q (map dep_name ds) <-> file_needs g p q.
Proof.
  intros Ld N R. destruct (loaded_project fs g Ld) as (fs3 & [S3 U3 K3 E3] & G & FR).
  apply (same_numbered fs3 g FR) in N.
  destruct (use_deps_recursive_spec false fs3 g v p S3 U3 G N) as [(_ & X)|(NC & ds' & X & _ & D & _)]; [congruence|].
  rewrite X in R. injection R as ->. split.
  - intro C. apply NC. exists p. split; [apply reach_self|]. apply (same_cycle fs3 g FR). exact C.
  - intro q. rewrite D. unfold file_needs. rewrite (same_reachable fs3 g FR). split; [tauto|].
    intros (Rq & Ne). split; [exact Rq|]. split; [exact Ne|]. intros ->.
    apply E3. clear - Rq Ne. induction Rq as [?|? q r D Rq IH]; [contradiction|].
    destruct (path_eq_dec r q) as [->|?]; [apply D|apply IH; assumption].
Qed.

Lemma linked_found fs g p i t q v ds : loaded fs g -> proper_names fs g -> In (p, i) fs -> use_target_deps i = true ->
  In t (targets i) -> ti_name t <> p -> link_needs fs (ti_name t) q -> numbered g v p ->
  get_use_deps_recursive g v = DepsFound ds -> In q (map dep_name ds).
Proof.
  intros Ld P I U It Ne L N R. destruct (linked_reachable fs g p i t q Ld P I U It Ne L) as (q' & D & Q).
  destruct (deps_recursive fs g v p ds Ld N R) as (NC & E). apply E. split.
  - eapply reach_step; eassumption.
  - intros ->. apply NC. exists q'. split; assumption.
Qed.

Lemma linked_started fs g p i t rs tasks ws cs tr st tr1 v tr2 q : loaded fs g -> proper_names fs g -> In (p, i) fs ->
  use_target_deps i = true -> In t (targets i) -> ti_name t <> p ->
  task_list g rs tasks -> idle_pool ws -> run (task_reads g) cs (init rs tasks ws) = Some (tr, st) ->
  tr = tr1 ++ Start v :: tr2 -> numbered g v p -> link_needs fs (ti_name t) q ->
  In q (map dep_name (task_use_deps g v)) /\
  forall t' u, generated fs q t' -> numbered g u (t_source t') -> In (Finish u Succeeds) tr1.
Proof.
  intros Ld P I U It Ne Tl Ws Rn E N L.
  destruct (linked_reachable fs g p i t q Ld P I U It Ne L) as (q' & D & Q).
  destruct (task_list_facts fs g Ld rs tasks Tl) as (Su & Nm & _).
  assert (In v tasks) as Tv.
  { apply (proj2 (started_tasks _ rs tasks ws Su Ws tr st (run_exec _ cs _ _ _ Rn))). apply started_in. rewrite E.
    apply in_or_app. right. left. reflexivity. }
  pose proof (tasks_acyclic fs g Ld rs tasks Tl v p Tv N) as NC.
  assert (~ file_on_cycle g p) as NP by (intro X; apply NC; exists p; split; [apply reach_self|exact X]).
  split.
  - destruct (loaded_project fs g Ld) as (fs3 & [S3 U3 K3 E3] & G & FR).
    pose proof N as N3. apply (same_numbered fs3 g FR) in N3. unfold task_use_deps.
    destruct (use_deps_recursive_spec false fs3 g v p S3 U3 G N3) as [((c & C1 & C2) & _)|(_ & ds & X & _)].
    + exfalso. apply NC. exists c. rewrite (same_reachable fs3 g FR), (same_cycle fs3 g FR). auto.
    + rewrite X. eapply linked_found; eassumption.
  - intros t' u Gn Nu. destruct (loaded_graph fs g Ld) as (ts & _ & PG).
    apply (project_started_ready fs g Ld rs tasks Tl ws Ws cs tr st Rn tr1 v tr2 p E N u (t_source t') Nu).
    + assert (file_depends g q (t_source t')) as B.
      { pose proof PG as (_ & _ & _ & _ & Gen & _). destruct (Gen q t' Gn) as (j & Ij & (_ & _ & B & _)).
        split; [exists u; exact Nu|]. destruct (build_deps j) as [|d [|? ?]] eqn:Eb; try discriminate. injection B as B.
        exists d. split; [|exact B]. exists j. split; [exact Ij|right; rewrite Eb; left; reflexivity]. }
      assert (file_reachable g q' (t_source t')) as Q2.
      { clear - Q B. induction Q as [?|? ? ? D Q IH]; [eapply reach_step; [exact B|apply reach_self]|].
        eapply reach_step; [exact D|apply IH, B]. }
      split; [eapply reach_step; eassumption|]. intro X. rewrite X in Q2. apply NP. exists q'. auto.
    + apply (builds_sources fs g Ld). destruct Gn as (Gn & _). apply declared_targets_spec in Gn.
      destruct Gn as (info & Ii & Iti & _). exists info. split; [exact Ii|]. intro X. rewrite X in Iti. destruct Iti.
Qed.

(** * Who is linked *)

Lemma any_link_true l b : any_link l = Some b -> (b = true <-> In (JString (lit "link")) l).
Proof.
  revert b. induction l as [|j l IH]; intros b H; cbn [any_link] in H.
  - injection H as <-. split; [discriminate|intros []].
  - destruct j; try discriminate H. cbn [as_string] in H. destruct (str_eqb s (lit "link")) eqn:E.
    + injection H as <-. split; [|reflexivity]. intros _. left. apply str_eqb_eq in E. subst s. reflexivity.
    + rewrite (IH b H). split; [right; assumption|]. intros [X|X]; [|exact X].
      injection X as ->. cbn in E. discriminate E.
Qed.

Lemma cxx_links c b : cxx_use_target_deps c = Some b -> (b = true <-> asks_for_linking (comp_config c)).
Proof.
  unfold cxx_use_target_deps, asks_for_linking, get_if. intro H.
  destruct (obj_get (lit "actions") (comp_config c)) as [j|].
  - destruct j; cbn [as_array option_map] in H; try discriminate H. rewrite (any_link_true _ _ H). split.
    + intro X. eexists. split; [reflexivity|exact X].
    + intros (l' & X & Y). injection X as ->. exact Y.
  - injection H as <-. split; [discriminate|]. intros (? & X & _). discriminate X.
Qed.

Lemma who_is_linked search print parse resolve configure script_tags cfg m src s t text info k c :
  increasing (file_info_loaders (tree_loader cfg)) -> increasing (info_loaders cfg) -> map_loaders cfg = Some m ->
  handled_by cfg (filename src) (k, c) ->
  load_configured search print src s t parse resolve configure script_tags (dir_compiler cfg) m (Some text) = Some info ->
  (use_target_deps info = true <-> k = KLib \/ (exists ps, k = KCxx ps) /\ asks_for_linking (comp_config c)).
Proof.
  intros I1 I2 M H L. unfold load_configured in L. rewrite (handled_match cfg m src (k, c) I1 I2 M H) in L.
  cbn [configured_loader] in L. destruct (kind_use_target_deps k c) as [u|] eqn:U; [|discriminate].
  cbn [option_map] in L.
  assert (use_target_deps info = u) as ->.
  { unfold load_source_file in L. cbn [filter_input loader_use_target_deps] in L.
    destruct (kind_filter_input print k (filename src) text) as [a b].
    repeat match type of L with
    | (match ?e with _ => _ end) = _ => destruct e; try discriminate
    end.
    injection L as <-. reflexivity. }
  destruct k; cbn [kind_use_target_deps] in U; try (injection U as <-); 
    try (split; [discriminate|intros [X|((? & X) & _)]; discriminate X]).
  - rewrite (cxx_links c u U). split; [intro X; right; split; [eexists; reflexivity|exact X]|intros [X|(_ & X)]; [discriminate X|exact X]].
  - split; [left; reflexivity|reflexivity].
Qed.
