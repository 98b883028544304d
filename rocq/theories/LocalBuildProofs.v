(** Proofs for C102: what is done and how. *)

From Coq Require Import Ascii String ZArith Bool.
From Coq Require Import List Permutation.
From Verif Require Import Str Path SMap PathProofs JsonModel DbModel DepGraphModel DepGraphSpec DepGraphProofs FileListModel FileListSpec FileListProofs.
From Verif Require Import SchedModel TaskListModel TaskListSpec BuildModel BuildSpec DueSpec RecipeModel JobModel ScriptModel LocalSpec LocalProofs.
Import ListNotations.

Section Built.
  Variables fs g fs' g' : file_list.
  Hypothesis L : loaded fs g.
  Hypothesis L' : loaded fs' g'.
  Hypothesis Add : only_adds fs g fs'.
  Hypothesis Proper : proper_names fs' g'.

  Lemma number_of_target x u q : target_of x u q -> exists p, numbered x u p.
  Proof. intros (p & i & t & E & _). exists p. unfold numbered. now rewrite nth_error_map, E. Qed.

  Theorem due_kept force folder D v v' p : numbered g v p -> numbered g' v' p ->
    (due g force folder D v <-> due g' force folder D v').
  Proof.
    intros N N'. split; intro H.
    - revert v' p N N'. induction H as [v F|v A|v Cu|v p0 t u q Np T Ft Du IH U Fq Ne]; intros v' p N N'.
      + now apply due_forced.
      + apply due_always. exact (proj1 (policy_kept fs g fs' g' L L' Add Proper v v' p N N') A).
      + apply due_itself. intro X. apply Cu. exact (proj2 (current_kept fs g fs' g' L L' Add Proper D v v' p N N') X).
      + assert (p0 = p). { unfold numbered in N, Np. rewrite N in Np. now injection Np. } subst p0.
        destruct (number_of_target _ _ _ U) as (pu & Nu).
        destruct (proj1 (proj2 (all_kept fs g fs' g' L L' Add Proper)) pu (ex_intro _ u Nu)) as (u' & Nu').
        apply (due_because g' force folder D v' p t u' q); try assumption.
        * exact (proj1 (target_of_kept fs g fs' g' L L' Add Proper v v' p t N N') T).
        * exact (IH u' pu Nu Nu').
        * exact (proj1 (target_of_kept fs g fs' g' L L' Add Proper u u' pu q Nu Nu') U).
        * exact (proj1 (needs_kept fs g fs' g' L L' Add Proper p q (ex_intro _ v N)) Ne).
    - revert v p N N'. induction H as [v' F|v' A|v' Cu|v' p0 t u' q Np T Ft Du IH U Fq Ne]; intros v p N N'.
      + now apply due_forced.
      + apply due_always. exact (proj2 (policy_kept fs g fs' g' L L' Add Proper v v' p N N') A).
      + apply due_itself. intro X. apply Cu. exact (proj1 (current_kept fs g fs' g' L L' Add Proper D v v' p N N') X).
      + assert (p0 = p). { unfold numbered in N', Np. rewrite N' in Np. now injection Np. } subst p0.
        apply (proj2 (needs_kept fs g fs' g' L L' Add Proper p q (ex_intro _ v N))) in Ne.
        pose proof (reach_in_g g p q (ex_intro _ v N) (proj1 Ne)) as Kq.
        destruct (source_of_target fs g fs' g' L L' Add u' q U Kq) as (u & pu & Nu & Nu').
        apply (due_because g force folder D v p t u q); try assumption.
        * exact (proj2 (target_of_kept fs g fs' g' L L' Add Proper v v' p t N N') T).
        * exact (IH u pu Nu Nu').
        * exact (proj2 (target_of_kept fs g fs' g' L L' Add Proper u u' pu q Nu Nu') U).
  Qed.

  Lemma filter_set f k x (o : compound) : (forall y z, f (k, y) = f (k, z)) ->
    filter f (obj_set k x o) = if f (k, x) then obj_set k x (filter f o) else filter f o.
  Proof.
    intro F. induction o as [|[k0 y] o IH]; cbn [obj_set filter].
    - destruct (f (k, x)); reflexivity.
    - destruct (str_eqb k k0) eqn:E.
      + apply str_eqb_eq in E. subst k0. cbn [filter]. rewrite (F y x). destruct (f (k, x)) eqn:X; [|reflexivity].
        cbn [obj_set]. now rewrite (proj2 (str_eqb_eq k k) eq_refl).
      + cbn [filter]. rewrite IH. destruct (f (k0, y)); [|reflexivity]. destruct (f (k, x)); [|reflexivity].
        cbn [obj_set]. now rewrite E.
  Qed.

  Definition not_id (e : str * json) : bool := negb (str_eqb (fst e) (lit "task_id")).

  Lemma filter_new k x (o : compound) : not_id (lit k, JNull) = true -> filter not_id (set_new k x o) = set_new k x (filter not_id o).
  Proof.
    intro K. unfold set_new. destruct x as [x|]; [|reflexivity]. rewrite filter_set by reflexivity.
    change (not_id (lit k, x)) with (not_id (lit k, JNull)). now rewrite K.
  Qed.

  Lemma filter_id x (o : compound) : filter not_id (set_new "task_id" (Some x) o) = filter not_id o.
  Proof. unfold set_new. rewrite filter_set by reflexivity. reflexivity. Qed.

  Lemma deps_shown l l' : Forall2 same_dependency l l' -> forall a,
    fold_left (fun a d => append_new a (Some (dependency_to_json d))) l a = fold_left (fun a d => append_new a (Some (dependency_to_json d))) l' a.
  Proof.
    intro F. induction F as [|d d' l l' (S1 & S2 & S3) F IH]; intro a; [reflexivity|]. cbn [fold_left]. rewrite IH.
    unfold dependency_to_json. now rewrite S1, S2, S3.
  Qed.

  Theorem command_kept view j v v' p : without_task_id view -> numbered g v p -> numbered g' v' p ->
    task_command view j g v = task_command view j g' v'.
  Proof.
    intros W N N'. destruct (all_kept fs g fs' g' L L' Add Proper) as (A & _ & U).
    destruct (A v v' p N N') as (i & i' & E & E' & R). specialize (U v v' p N N').
    unfold task_command. rewrite E, E'. unfold make_build_command.
    assert (Ce : effective_compiler i' = effective_compiler i /\ targets i' = targets i).
    { destruct R as [(_ & _ & _ & T & C1 & C2 & _)|[(o & _ & ->) (o' & _ & ->)]]; [|now split].
      split; [|exact T]. unfold effective_compiler. now rewrite C1, C2. }
    destruct Ce as [Ce T]. rewrite Ce. destruct (effective_compiler i) as [c|]; [|reflexivity].
    do 4 f_equal. rewrite W. rewrite (W (command_options (Z.of_nat v') _ _ _ _ _ _)). do 2 f_equal.
    change (filter not_id (command_options (Z.of_nat v) p i (comp_config c) (job_info j) (task_use_deps g v) (job_format j)) =
            filter not_id (command_options (Z.of_nat v') p i' (comp_config c) (job_info j) (task_use_deps g' v') (job_format j))).
    unfold command_options. rewrite T, (deps_shown _ _ U).
    rewrite !(filter_new "dependencies"), !(filter_new "targets"), !(filter_new "log_format"), !(filter_new "build_info"), !filter_id by reflexivity.
    reflexivity.
  Qed.
End Built.

(** * Whether the project can still be loaded *)

Section Loads.
  Variables fs g fs' : file_list.
  Hypothesis L : loaded fs g.
  Hypothesis Sc' : scanned fs'.
  Hypothesis Add : only_adds fs g fs'.

  Lemma source_is_known p : In p (map fst fs) -> known g p.
  Proof.
    destruct L as (Sc & (ts & E) & _). destruct (load_parts _ _ _ E) as (g0 & fs1 & C & G0 & I1 & G).
    exact (source_known fs g ts Sc g0 fs1 C G0 I1 G p).
  Qed.

  Lemma target_is_known n t : In (n, t) (declared_targets fs) -> known g n.
  Proof.
    destruct L as (Sc & (ts & E) & _). destruct (load_parts _ _ _ E) as (g0 & fs1 & C & G0 & I1 & G).
    exact (target_known fs g ts Sc g0 fs1 C G0 I1 G n t).
  Qed.

  Lemma depends_source p q : In p (map fst fs) -> (file_depends fs' p q <-> file_depends fs p q).
  Proof.
    destruct L as (Sc & (ts & E) & _). destruct (load_parts _ _ _ E) as (g0 & fs1 & C & G0 & I1 & G).
    intro P. split; intros (K & d & (i & I & D) & N).
    - pose proof (old_source fs fs' g Sc' Add p i I (source_is_known p P)) as I0.
      split; [|exists d; split; [exists i; now split|exact N]]. rewrite <- N in K |- *.
      refine (first_closed fs fs' g ts Sc Sc' E Add g0 fs1 C G0 I1 G d _ K). exists p, i. now split.
    - split; [|exists d; split; [exists i; split; [exact (proj1 Add _ _ I)|exact D]|exact N]].
      apply known_in in K. apply known_in. apply in_map_iff in K. destruct K as ([x j] & X & J). apply in_map_iff. exists (x, j).
      split; [exact X|exact (proj1 Add _ _ J)].
  Qed.

  Lemma depends_source_in p q : file_depends fs p q -> In q (map fst fs).
  Proof. intros [K _]. now apply known_in. Qed.

  Lemma reach_source p q : In p (map fst fs) -> (file_reachable fs' p q <-> file_reachable fs p q).
  Proof.
    intro P. split; intro R.
    - induction R as [p|p q r D R IH]; [constructor|]. apply depends_source in D; [|exact P]. apply reach_step with q; [exact D|].
      apply IH. exact (depends_source_in _ _ D).
    - induction R as [p|p q r D R IH]; [constructor|]. apply reach_step with q; [now apply depends_source|].
      apply IH. exact (depends_source_in _ _ D).
  Qed.

  Lemma reach_source_in p q : In p (map fst fs) -> file_reachable fs p q -> In q (map fst fs).
  Proof. intros P R. induction R as [p|p q r D R IH]; [exact P|]. apply IH. exact (depends_source_in _ _ D). Qed.

  Lemma added_in p i : In (p, i) (added fs fs') <-> In (p, i) fs' /\ ~ In p (map fst fs).
  Proof.
    unfold added. rewrite filter_In. cbn [fst]. rewrite negb_true_iff.
    assert (E : existsb (path_eqb p) (map fst fs) = true <-> In p (map fst fs)).
    { rewrite existsb_exists. split; [intros (x & I & E); apply path_eqb_eq in E; now subst|].
      intro I. exists p. split; [exact I|]. now apply path_eqb_eq. }
    destruct (existsb (path_eqb p) (map fst fs)).
    - split; [intros [_ X]; discriminate|]. intros [_ X]. destruct (X (proj1 E eq_refl)).
    - split; [|intros [I _]; now split]. intros [I _]. split; [exact I|]. intro X. discriminate (proj2 E X).
  Qed.

  Lemma declared_of_added n t : In (n, t) (declared_targets (added fs fs')) <->
    In (n, t) (declared_targets fs') /\ ~ In (t_source t) (map fst fs).
  Proof.
    rewrite !declared_targets_spec. split.
    - intros (i & I & R). apply added_in in I. destruct I as [I Y]. split; [exists i; now split|exact Y].
    - intros ((i & I & R) & X). exists i. split; [|exact R]. apply added_in. now split.
  Qed.

  Lemma declared_old n t : In (n, t) (declared_targets fs') -> In (t_source t) (map fst fs) -> In (n, t) (declared_targets fs).
  Proof.
    rewrite !declared_targets_spec. intros (i & I & R) X. exists i. split; [|exact R].
    exact (old_source fs fs' g Sc' Add _ i I (source_is_known _ X)).
  Qed.

  Lemma divided : Permutation fs' (fs ++ added fs fs').
  Proof.
    assert (N : forall A (l : list (path * A)), NoDup (map fst l) -> NoDup l) by (intros A l; apply NoDup_map_inv).
    pose proof (sorted_nodup _ _ (proj1 Sc')) as S'. destruct L as (Sc & _). pose proof (sorted_nodup _ _ (proj1 Sc)) as S.
    apply NoDup_Permutation; [exact (N _ _ S')| |].
    - apply NoDup_append; [exact (N _ _ S)|apply NoDup_filter; exact (N _ _ S')|].
      intros [p i] I J. apply added_in in J. apply (proj2 J). apply in_map_iff. now exists (p, i).
    - intros [p i]. rewrite in_app_iff, added_in. split.
      + intro I. destruct (in_dec path_eq_dec p (map fst fs)) as [Y|Y]; [left|right; now split].
        exact (old_source fs fs' g Sc' Add _ i I (source_is_known _ Y)).
      + intros [I|[I _]]; [exact (proj1 Add _ _ I)|exact I].
  Qed.

  Lemma available_more p : available fs p -> (forall d, needed fs d -> mentioned fs' d \/ needed fs' d) -> available fs' p.
  Proof.
    intros H Nd. destruct H as [p H|n t H|d H X].
    - apply available_source. apply in_map_iff in H. destruct H as ([x j] & X & J). apply in_map_iff. exists (x, j).
      split; [exact X|exact (proj1 Add _ _ J)].
    - apply (available_target fs' n t). apply declared_targets_spec in H. destruct H as (i & I & R).
      apply declared_targets_spec. exists i. split; [exact (proj1 Add _ _ I)|exact R].
    - apply available_external; [|exact X]. destruct H as [(p & i & I & H)|H]; [|now apply Nd].
      left. exists p, i. split; [exact (proj1 Add _ _ I)|exact H].
  Qed.

  Lemma needed_more d : needed fs d -> needed fs' d.
  Proof.
    assert (T : forall n t, generated fs n t -> generated fs' n t).
    { intros n t [D N]. split.
      - apply declared_targets_spec in D. destruct D as (i & I & R). apply declared_targets_spec. exists i.
        split; [exact (proj1 Add _ _ I)|exact R].
      - intro X. apply N. apply in_map_iff in X. destruct X as ([p i] & E & X). cbn [fst] in E. subst p.
        apply in_map_iff. exists (n, i). split; [reflexivity|]. exact (old_source fs fs' g Sc' Add _ i X (target_is_known _ _ D)). }
    intro H. destruct H as [p i d I D|n t d Gn D|n t d Gn D].
    - exact (needed_by_source fs' p i d (proj1 Add _ _ I) D).
    - exact (needed_by_target fs' n t d (T _ _ Gn) D).
    - apply (needed_contributed fs' n t d (T _ _ Gn)). destruct D as (q & i & R & I & D). exists q, i.
      split; [|split; [exact (proj1 Add _ _ I)|exact D]]. apply reach_source; [|exact R].
      exact (generated_source_known _ _ _ (proj1 Gn)).
  Qed.

  Theorem still_loads :
    (forall p info t, In (p, info) fs' -> In t (targets info) -> lexically_normal (ti_name t) = ti_name t) ->
    NoDup (map fst (declared_targets (added fs fs'))) ->
    (forall p q, In p (map fst (added fs fs')) -> file_reachable fs' p q -> ~ file_on_cycle fs' q) ->
    (forall d, needed fs' d -> ~ needed fs d -> available fs' (dep_name d)) ->
    exists ts g', load_project fs' = Loaded (ts, g').
  Proof.
    intros Nm Du Cy Nd. pose proof L as (Sc & (ts & E) & _).
    destruct (load_project_graph fs Sc) as [[_ (n & X & _)]|[D0 [[_ X]|[C0 [[_ X]|[A0 _]]]]]]; try congruence.
    destruct (load_project_graph fs' Sc') as [[X _]|[_ [[(n & t & q & T & R & Q) _]|[_ [[(d & D & A) _]|[_ (ts' & g' & X & _)]]]]]].
    - destruct X. assert (P : Permutation (declared_targets fs') (declared_targets fs ++ declared_targets (added fs fs'))).
      { unfold declared_targets. rewrite <- flat_map_app. apply Permutation_flat_map. exact divided. }
      apply (Permutation_NoDup (Permutation_sym (Permutation_map fst P))). rewrite map_app. apply NoDup_append; [exact D0|exact Du|].
      intros n I J. apply in_map_iff in I, J. destruct I as ([n1 t1] & E1 & I). destruct J as ([n2 t2] & E2 & J). cbn [fst] in E1, E2. subst n1 n2.
      apply target_is_known in I. apply declared_of_added in J. destruct J as [J Y]. apply declared_targets_spec in J.
      destruct J as (i & J & T & _ & ->). apply (proj2 (proj2 Add _ _ J Y) _ T). now rewrite (Nm _ _ _ J T) in I.
    - exfalso. destruct (in_dec path_eq_dec (t_source t) (map fst fs)) as [Y|Y].
      + apply C0. exists n, t, q. split; [exact (declared_old _ _ T Y)|]. apply reach_source in R; [|exact Y]. split; [exact R|].
        pose proof (reach_source_in _ _ Y R) as Qs. destruct Q as (r & D & R'). apply depends_source in D; [|exact Qs].
        exists r. split; [exact D|]. apply reach_source; [exact (depends_source_in _ _ D)|exact R'].
      + apply (Cy (t_source t) q); try assumption. apply declared_targets_spec in T. destruct T as (i & I & _).
        apply in_map_iff. exists (t_source t, i). split; [reflexivity|]. apply added_in. now split.
    - exfalso. apply A. apply Nd; [exact D|]. intro N. apply A. apply available_more; [exact (A0 _ N)|]. intros x X. right. now apply needed_more.
    - now exists ts', g'.
  Qed.
End Loads.
