(** Proofs about the times in the compilation log. *)

From Coq Require Import List Arith Bool ZArith Lia Permutation.
From Verif Require Import Str ValueModel BuildModel LogModel SchedModel SchedSpec SchedProofs WriteModel WriteSpec
  WriteProofs ScriptModel StampModel StampSpec.
Import ListNotations.

Lemma set_at_same A v (x : A) f : set_at v x f v = x.
Proof. unfold set_at. now rewrite Nat.eqb_refl. Qed.
Lemma set_at_other A v (x : A) f u : u <> v -> set_at v x f u = f u.
Proof. intro N. unfold set_at. apply Nat.eqb_neq in N. now rewrite N. Qed.

Lemma pool_trace_app a b : pool_trace (a ++ b) = pool_trace a ++ pool_trace b.
Proof. apply flat_map_app. Qed.

Lemma pool_trace_pool t ls : pool_trace (map (pair t) (map PoolEvent ls)) = ls.
Proof. induction ls as [|l ls IH]; [reflexivity|]. cbn. f_equal. exact IH. Qed.

Lemma pool_trace_in l tr : In l (pool_trace tr) <-> exists t, In (t, PoolEvent l) tr.
Proof.
  unfold pool_trace. rewrite in_flat_map. split.
  - intros ((t & e) & I & H). cbn in H. destruct e; cbn in H; [|contradiction..]. destruct H as [-> |[]]. now exists t.
  - intros (t & I). exists (t, PoolEvent l). split; [exact I|now left].
Qed.

Lemma running_step reads c s l s' v : step reads c s = Some (l, s') -> In v (running (workers s')) ->
  In v (running (workers s)) \/ l = [Start v].
Proof.
  intros H I. destruct c as [k|i o| |i]; cbn [step] in H.
  - assert (E : running (workers s') = running (workers s)).
    { unfold process_step in H.
      repeat (match type of H with
      | context [notify_pool k (workers s)] =>
          let E := fresh in destruct (notify_pool k (workers s)) eqn:E; [apply (notify_map running_of) in E; [|reflexivity..]|discriminate]
      | context [match ?x with _ => _ end] => destruct x
      | Some _ = Some _ => injection H as <- <-
      | None = Some _ => discriminate
      end); try reflexivity; assumption. }
    left. now rewrite <- E.
  - unfold worker_step in H. destruct (nth_error (workers s) i) as [w|] eqn:N; [|discriminate].
    assert (U : forall w', In v (running (update i w' (workers s))) -> In v (running (workers s)) \/ In v (running_of w')).
    { intros w' J. destruct (update_split _ i w w' (workers s) N) as (l1 & l2 & E1 & E2 & _).
      unfold running in *. rewrite E2 in J. rewrite E1. rewrite flat_map_app in *. cbn [flat_map] in *.
      rewrite !in_app_iff in *. tauto. }
    destruct w; [destruct (queue s)| |destruct o| | |]; try discriminate; injection H as <- <-; cbn [workers] in I;
      apply U in I; cbn in I; destruct I as [I|I]; try (now left); try contradiction.
    destruct I as [-> |[]]. now right.
  - unfold spurious_process in H. destruct (ph s); try discriminate; injection H as <- <-; now left.
  - unfold spurious_worker in H. destruct (nth_error (workers s) i) as [[]|] eqn:N; try discriminate. injection H as <- <-.
    left. destruct (update_split _ i WSleeping WChecking (workers s) N) as (l1 & l2 & E1 & E2 & _).
    cbn [workers] in I. unfold running in *. rewrite E2 in I. rewrite E1. rewrite flat_map_app in *. exact I.
Qed.

Lemma workers_length reads c s l s' : step reads c s = Some (l, s') -> length (workers s') = length (workers s).
Proof.
  intro H. destruct c as [k|i o| |i]; cbn [step] in H.
  - assert (N : forall ws', notify_pool k (workers s) = Some ws' -> length ws' = length (workers s)).
    { intros ws' E. apply notify_cases in E. destruct E as [(_ & ->)|(l1 & l2 & -> & ->)]; [reflexivity|]. rewrite !app_length. reflexivity. }
    unfold process_step in H.
    repeat (match type of H with
      | context [notify_pool k (workers s)] =>
          let E := fresh in destruct (notify_pool k (workers s)) eqn:E; [specialize (N _ eq_refl)|discriminate]
      | context [match ?x with _ => _ end] => destruct x
      | Some _ = Some _ => injection H as <- <-
      | None = Some _ => discriminate
      end); try reflexivity; exact N.
  - unfold worker_step in H.
    repeat (match type of H with
      | context [match ?x with _ => _ end] => destruct x
      | Some _ = Some _ => injection H as <- <-
      | None = Some _ => discriminate
      end); cbn [workers]; now rewrite update_length.
  - unfold spurious_process in H. destruct (ph s); try discriminate; injection H as <- <-; reflexivity.
  - unfold spurious_worker in H. destruct (nth_error (workers s) i) as [[]|]; try discriminate. injection H as <- <-.
    cbn [workers]. apply update_length.
Qed.

Lemma running_length ws : length (running ws) <= length ws.
Proof.
  unfold running. induction ws as [|w ws IH]; [apply Nat.le_refl|]. cbn [flat_map length]. rewrite app_length.
  assert (length (running_of w) <= 1) by (destruct w; cbn; lia). lia.
Qed.

(** The steps of runIfNecessary that have been made. *)
Definition done_with (all left : list moment) (m : moment) : Prop :=
  exists pre, all = pre ++ left /\ In m pre.

Section Timed.
  Variable reads : nat -> list nat.
  Variable level : log_level.
  Variable info : nat -> task_info.
  Variable dryrun : bool.
  Variable needed : nat -> option bool.
  Variable real : nat -> option (exit_status * str * str).
  Variable epoch now : Z.
  Variable rs : list task_result.
  Variable tasks : list nat.
  Variable ws : list worker.
  Hypothesis Hsetup : task_setup reads rs tasks.
  Hypothesis Hpool : idle_pool ws.

  Notation result := (outcome dryrun needed real).
  Notation program v := (moments dryrun (needed v) (real v)).
  Notation tstep := (timed_step reads level info dryrun needed real epoch).

  Inductive texec : list (Z * event) -> timed_state -> Prop :=
  | texec_init : texec [] (timed_init now rs tasks ws)
  | texec_step : forall tr T c es T', texec tr T -> tstep c T = Some (es, T') ->
                                      texec (tr ++ map (pair (clock T)) es) T'.

  Lemma timed_run_texec : forall cs tr0 T0 tr T, texec tr0 T0 ->
    timed_run reads level info dryrun needed real epoch cs T0 = Some (tr, T) -> texec (tr0 ++ tr) T.
  Proof.
    induction cs as [|c cs IH]; intros tr0 T0 tr T H0 H; cbn [timed_run] in H.
    - injection H as <- <-. now rewrite app_nil_r.
    - destruct (tstep c T0) as [[es T1]|] eqn:E; [|discriminate].
      destruct (timed_run reads level info dryrun needed real epoch cs T1) as [[tr' T2]|] eqn:E'; [|discriminate].
      injection H as <- <-. rewrite app_assoc. apply IH with T1; [|exact E'].
      apply texec_step with c; assumption.
  Qed.

  (** The kinds of steps. *)
  Inductive kind (T T' : timed_state) (es : list event) : Prop :=
  | kind_passing : forall d, es = [] -> T' = mk_timed_state (clock T + Z.of_nat d) (started_at T) (completed_at T) (ahead T) (full T) ->
      kind T T' es
  | kind_started : forall v p, ahead T v = ReadStarted :: p -> es = [] ->
      T' = mk_timed_state (clock T) (set_at v (Some (clock T)) (started_at T)) (completed_at T) (set_at v p (ahead T)) (full T) ->
      kind T T' es
  | kind_begin : forall v p, ahead T v = BeginCommand :: p -> es = [CommandBegins v] ->
      T' = mk_timed_state (clock T) (started_at T) (completed_at T) (set_at v p (ahead T)) (full T) -> kind T T' es
  | kind_end : forall v p, ahead T v = EndCommand :: p -> es = [CommandEnds v] ->
      T' = mk_timed_state (clock T) (started_at T) (completed_at T) (set_at v p (ahead T)) (full T) -> kind T T' es
  | kind_completed : forall v p, ahead T v = ReadCompleted :: p -> es = [] ->
      T' = mk_timed_state (clock T) (started_at T) (set_at v (Some (clock T)) (completed_at T)) (set_at v p (ahead T)) (full T) ->
      kind T T' es
  | kind_log : forall v L, returned_from v T = true -> times_match info epoch v T = true ->
      act v (snd (full T)) = Some L -> es = [] ->
      T' = mk_timed_state (clock T) (started_at T) (completed_at T) (ahead T) (fst (full T), L) -> kind T T' es
  | kind_quiet : forall c s, step reads c (fst (full T)) = Some ([], s) -> es = [] ->
      T' = mk_timed_state (clock T) (started_at T) (completed_at T) (ahead T) (s, snd (full T)) -> kind T T' es
  | kind_label : forall c l s L, step reads c (fst (full T)) = Some ([l], s) ->
      accept level info result l (snd (full T)) = Some L -> allowed T l = true -> es = [PoolEvent l] ->
      T' = mk_timed_state (clock T) (started_at T) (completed_at T) (begin_label dryrun needed real l (ahead T)) (s, L) ->
      kind T T' es.

  Lemma step_kind c T es T' : tstep c T = Some (es, T') -> kind T T' es.
  Proof.
    destruct c as [d|v|[c|v]]; cbn [timed_step].
    - intro H. injection H as <- <-. now apply kind_passing with d.
    - unfold live. destruct (ahead T v) as [|[] p] eqn:E; intro H; [discriminate|..]; injection H as <- <-.
      + now apply kind_started with v p.
      + now apply kind_begin with v p.
      + now apply kind_end with v p.
      + now apply kind_completed with v p.
    - cbn [full_step]. destruct (step reads c (fst (full T))) as [[l s]|] eqn:E; [|discriminate].
      destruct (step_labels _ _ _ _ _ E) as [-> |(x & ->)]; cbn [accept_all forallb fold_left map].
      + intro H. injection H as <- <-. now apply kind_quiet with c s.
      + destruct (accept level info result x (snd (full T))) as [L|] eqn:A; [|discriminate].
        cbn [forallb fold_left map]. rewrite andb_true_r.
        destruct (allowed T x) eqn:W; [|discriminate]. intro H. injection H as <- <-. now apply kind_label with c x s L.
    - cbn [full_step]. destruct (returned_from v T) eqn:R; [|discriminate]. destruct (times_match info epoch v T) eqn:M; [|discriminate].
      cbn [andb]. destruct (act v (snd (full T))) as [L|] eqn:A; [|discriminate]. cbn [forallb fold_left map].
      intro H. injection H as <- <-. now apply kind_log with v L.
  Qed.

  Lemma texec_fexec tr T : texec tr T -> fexec reads level info result rs tasks ws (pool_trace tr) (full T).
  Proof.
    intro H. induction H as [|tr T c es T' H IH S]; [constructor|]. rewrite pool_trace_app. destruct (step_kind _ _ _ _ S) as [d -> ->|v p _ -> ->|v p _ -> ->|v p _ -> ->|v p _ -> ->|v L _ _ A -> ->|c' s E -> ->|c' l s L E A W -> ->]; cbn [map full pool_trace flat_map snd app]; rewrite ?app_nil_r; try exact IH.
    - rewrite <- (app_nil_r (pool_trace tr)). apply fexec_step with (full T) (ByLog v); [exact IH|]. cbn [full_step]. now rewrite A.
    - rewrite <- (app_nil_r (pool_trace tr)). apply fexec_step with (full T) (ByPool c'); [exact IH|]. cbn [full_step]. rewrite E. reflexivity.
    - apply fexec_step with (full T) (ByPool c'); [exact IH|]. cbn [full_step]. rewrite E. cbn [accept_all]. now rewrite A.
  Qed.

  Lemma texec_exec tr T : texec tr T -> exec reads (init rs tasks ws) (pool_trace tr) (fst (full T)).
  Proof. intro H. exact (fexec_exec _ _ _ _ _ _ _ _ _ (texec_fexec _ _ H)). Qed.

  (** ** How far the threads are *)

  Lemma program_once v pre m p : program v = pre ++ m :: p -> ~ In m pre.
  Proof.
    intros E I. assert (N : NoDup (program v)).
    { unfold moments. destruct (needed v) as [[]|]; [destruct dryrun; [|destruct (real v) as [x|]]|..];
        repeat (constructor; [cbn; intuition discriminate|]); constructor. }
    rewrite E in N. apply NoDup_remove_2 in N. apply N, in_or_app. now left.
  Qed.

  Lemma program_first v pre m p : program v = pre ++ m :: p -> m = ReadStarted \/ In ReadStarted pre.
  Proof.
    unfold moments. destruct pre as [|x pre]; cbn [app]; intro E; injection E as <- _; [now left|right; now left].
  Qed.

  Lemma program_command v pre p : program v = pre ++ BeginCommand :: p -> ~ In EndCommand pre /\ ~ In ReadCompleted pre.
  Proof.
    unfold moments. destruct (needed v) as [[]|]; [destruct dryrun; [|destruct (real v) as [x|]]|..];
      destruct pre as [|x1 [|x2 [|x3 [|x4 [|x5 pre]]]]]; cbn [app]; intro E; try discriminate E;
      injection E; intros; subst; cbn; intuition discriminate.
  Qed.

  Lemma program_end v pre p : program v = pre ++ EndCommand :: p -> ~ In ReadCompleted pre.
  Proof.
    unfold moments. destruct (needed v) as [[]|]; [destruct dryrun; [|destruct (real v) as [x|]]|..];
      destruct pre as [|x1 [|x2 [|x3 [|x4 [|x5 pre]]]]]; cbn [app]; intro E; try discriminate E;
      injection E; intros; subst; cbn; intuition discriminate.
  Qed.

  Record stage_inv (tr : list (Z * event)) (T : timed_state) : Prop := mk_stage_inv {
    st_new : forall v, ~ In (Start v) (pool_trace tr) ->
      started_at T v = None /\ completed_at T v = None /\ ahead T v = [];
    st_prog : forall v, In (Start v) (pool_trace tr) -> exists pre, program v = pre ++ ahead T v /\
      (started_at T v <> None <-> In ReadStarted pre) /\ (completed_at T v <> None <-> In ReadCompleted pre) /\
      ((exists t, In (t, CommandBegins v) tr) <-> In BeginCommand pre) /\
      ((exists t, In (t, CommandEnds v) tr) <-> In EndCommand pre);
    st_none : forall v, ~ In (Start v) (pool_trace tr) ->
      forall t, ~ In (t, CommandBegins v) tr /\ ~ In (t, CommandEnds v) tr;
    st_end : forall v o, In (Finish v o) (pool_trace tr) -> ahead T v = []
  }.

  Lemma started_if_ahead tr T v m p : stage_inv tr T -> ahead T v = m :: p -> In (Start v) (pool_trace tr).
  Proof.
    intros I E. destruct (in_dec Nat.eq_dec v (started (pool_trace tr))) as [J|J]; [now apply started_in|].
    rewrite started_in in J. destruct (st_new _ _ I v J) as (_ & _ & X). congruence.
  Qed.

  Lemma event_app (v : nat) (e : nat -> event) (tr : list (Z * event)) (c : Z) es : (forall t, ~ In (t, e v) (map (pair c) es)) ->
    ((exists t, In (t, e v) (tr ++ map (pair c) es)) <-> exists t, In (t, e v) tr).
  Proof.
    intro N. split; intros (t & I).
    - apply in_app_or in I. destruct I as [I|I]; [now exists t|]. destruct (N t I).
    - exists t. apply in_or_app. now left.
  Qed.

  (** A step of one thread in runIfNecessary. *)
  Lemma live_stage tr T v m p sa ca es F : stage_inv tr T -> ahead T v = m :: p ->
    (forall u, u <> v -> sa u = started_at T u /\ ca u = completed_at T u) ->
    (sa v <> None <-> started_at T v <> None \/ m = ReadStarted) ->
    (ca v <> None <-> completed_at T v <> None \/ m = ReadCompleted) ->
    es = match m with BeginCommand => [CommandBegins v] | EndCommand => [CommandEnds v] | _ => [] end ->
    pool_trace (map (pair (clock T)) es) = [] ->
    stage_inv (tr ++ map (pair (clock T)) es) (mk_timed_state (clock T) sa ca (set_at v p (ahead T)) F).
  Proof.
    intros I E O Es Ec Ee Ep. pose proof (started_if_ahead _ _ _ _ _ I E) as Sv.
    assert (X : forall u t e, u <> v -> In (t, e) (map (pair (clock T)) es) -> e <> CommandBegins u /\ e <> CommandEnds u).
    { intros u t e N J. apply in_map_iff in J. destruct J as (e' & J1 & J2). injection J1 as _ <-. subst es.
      destruct m; cbn in J2; try contradiction; destruct J2 as [<-|[]]; split; congruence. }
    constructor.
    - intros u. rewrite pool_trace_app, Ep, app_nil_r. intro N. assert (u <> v) by (intros ->; contradiction).
      cbn [started_at completed_at ahead]. rewrite set_at_other by assumption. destruct (O u H) as (-> & ->). now apply (st_new _ _ I).
    - intros u. rewrite pool_trace_app, Ep, app_nil_r. intro J. cbn [started_at completed_at ahead].
      destruct (st_prog _ _ I u J) as (pre & P1 & P2 & P3 & P4 & P5). destruct (Nat.eq_dec u v) as [-> |N].
      + rewrite E in P1. rewrite set_at_same. exists (pre ++ [m]). split; [now rewrite <- app_assoc|].
        rewrite !in_app_iff. cbn [In]. rewrite Es, Ec, P2, P3, <- P4, <- P5.
        split; [intuition congruence|]. split; [intuition congruence|]. subst es. split.
        * split; [intros (t & K)|intros [(t & K)|[-> |[]]]].
          -- apply in_app_or in K. destruct K as [K|K]; [left; now exists t|]. right. left.
             destruct m; cbn in K; try contradiction; destruct K as [K|[]]; try discriminate K. reflexivity.
          -- exists t. apply in_or_app. now left.
          -- exists (clock T). apply in_or_app. right. now left.
        * split; [intros (t & K)|intros [(t & K)|[-> |[]]]].
          -- apply in_app_or in K. destruct K as [K|K]; [left; now exists t|]. right. left.
             destruct m; cbn in K; try contradiction; destruct K as [K|[]]; try discriminate K. reflexivity.
          -- exists t. apply in_or_app. now left.
          -- exists (clock T). apply in_or_app. right. now left.
      + rewrite set_at_other by assumption. destruct (O u N) as (-> & ->). exists pre.
        rewrite (event_app u CommandBegins), (event_app u CommandEnds); [tauto|..]; intros t K; destruct (X u t _ N K); congruence.
    - intros u. rewrite pool_trace_app, Ep, app_nil_r. intros N t. assert (Nu : u <> v) by (intros ->; contradiction).
      destruct (st_none _ _ I u N t) as (N1 & N2). rewrite !in_app_iff.
      split; intros [K|K]; try contradiction; destruct (X u t _ Nu K); congruence.
    - intros u o. rewrite pool_trace_app, Ep, app_nil_r. intro J. cbn [ahead]. pose proof (st_end _ _ I u o J) as A.
      assert (Nu : u <> v) by (intros ->; congruence). now rewrite set_at_other.
  Qed.

  Lemma same_stage tr T T' : stage_inv tr T -> started_at T' = started_at T -> completed_at T' = completed_at T ->
    ahead T' = ahead T -> stage_inv (tr ++ []) T'.
  Proof.
    intros [I1 I2 I3 I4] E1 E2 E3. rewrite app_nil_r. constructor; rewrite ?E1, ?E2, ?E3; assumption.
  Qed.

  Lemma texec_stage tr T : texec tr T -> stage_inv tr T.
  Proof.
    intro H. induction H as [|tr T c es T' H IH S].
    { constructor; cbn; tauto. }
    pose proof (texec_exec _ _ (texec_step _ _ _ _ _ H S)) as X.
    destruct (step_kind _ _ _ _ S) as [d -> ->|v p E -> ->|v p E -> ->|v p E -> ->|v p E -> ->|v L _ _ A -> ->|c' s E -> ->|c' l s L E A W -> ->];
      try (apply same_stage with T; [exact IH|reflexivity..]).
    - apply live_stage with (m := ReadStarted) (es := []); try reflexivity; try assumption.
      + intros u N. now rewrite set_at_other.
      + rewrite set_at_same. split; [now right|discriminate].
      + split; [now left|]. intros [K|K]; [exact K|discriminate K].
    - apply live_stage with (m := BeginCommand) (es := [CommandBegins v]); try reflexivity; try assumption.
      + intros u N. split; reflexivity.
      + split; [now left|]. intros [K|K]; [exact K|discriminate K].
      + split; [now left|]. intros [K|K]; [exact K|discriminate K].
    - apply live_stage with (m := EndCommand) (es := [CommandEnds v]); try reflexivity; try assumption.
      + intros u N. split; reflexivity.
      + split; [now left|]. intros [K|K]; [exact K|discriminate K].
      + split; [now left|]. intros [K|K]; [exact K|discriminate K].
    - apply live_stage with (m := ReadCompleted) (es := []); try reflexivity; try assumption.
      + intros u N. now rewrite set_at_other.
      + split; [now left|]. intros [K|K]; [exact K|discriminate K].
      + rewrite set_at_same. split; [now right|discriminate].
    - assert (P : pool_trace (tr ++ map (pair (clock T)) [PoolEvent l]) = pool_trace tr ++ [l]) by now rewrite pool_trace_app.
      assert (ND : NoDup (started (pool_trace tr ++ [l]))).
      { rewrite <- P. exact (proj1 (started_tasks _ _ _ _ Hsetup Hpool _ _ X)). }
      assert (EV : forall u e t, (e = CommandBegins u \/ e = CommandEnds u) ->
                   (In (t, e) (tr ++ map (pair (clock T)) [PoolEvent l]) <-> In (t, e) tr)).
      { intros u e t He. rewrite in_app_iff. cbn. intuition congruence. }
      constructor; rewrite P; cbn [started_at completed_at ahead].
      + intros u N. rewrite in_app_iff in N. destruct (st_new _ _ IH u) as (N1 & N2 & N3); [tauto|].
        split; [exact N1|]. split; [exact N2|]. destruct l as [w|w|w o]; cbn [begin_label]; try exact N3.
        rewrite set_at_other; [exact N3|]. intros ->. apply N. right. now left.
      + intros u J. rewrite in_app_iff in J.
        assert (EB : forall e, (e = CommandBegins u \/ e = CommandEnds u) ->
          ((exists t, In (t, e) (tr ++ map (pair (clock T)) [PoolEvent l])) <-> exists t, In (t, e) tr)).
        { intros e He. split; intros (t & K); exists t; apply (EV u e t He); exact K. }
        setoid_rewrite (EB (CommandBegins u) (or_introl eq_refl)). setoid_rewrite (EB (CommandEnds u) (or_intror eq_refl)).
        destruct (in_dec Nat.eq_dec u (started (pool_trace tr))) as [K|K].
        * rewrite started_in in K. destruct (st_prog _ _ IH u K) as (pre & P1 & P2). exists pre. split; [|exact P2].
          destruct l as [w|w|w o]; cbn [begin_label]; try exact P1. rewrite set_at_other; [exact P1|].
          intros ->. rewrite started_app in ND. cbn in ND. apply NoDup_remove_2 in ND. rewrite app_nil_r in ND.
          apply ND. now apply started_in.
        * rewrite started_in in K. destruct J as [J|[-> |[]]]; [contradiction|]. cbn [begin_label]. rewrite set_at_same.
          destruct (st_new _ _ IH u K) as (-> & -> & _). exists []. split; [reflexivity|].
          split; [cbn; tauto|]. split; [cbn; tauto|].
          split; (split; [intros (t & Z)|intros []]); destruct (st_none _ _ IH u K t); contradiction.
      + intros u N t. rewrite in_app_iff in N. rewrite !(EV u) by auto. apply (st_none _ _ IH u). tauto.
      + intros u o J. rewrite in_app_iff in J. destruct J as [J|[-> |[]]].
        * assert (K : In (Start u) (pool_trace tr)) by exact (finish_started _ _ _ _ Hsetup Hpool _ _ _ _ (texec_exec _ _ H) J).
          destruct l as [w|w|w o']; cbn [begin_label]; try exact (st_end _ _ IH u o J).
          rewrite set_at_other; [exact (st_end _ _ IH u o J)|].
          intros ->. rewrite started_app in ND. cbn in ND. apply NoDup_remove_2 in ND. rewrite app_nil_r in ND.
          apply ND. now apply started_in.
        * cbn [begin_label]. cbn [allowed] in W. unfold returned_from in W. now destruct (ahead T u).
  Qed.

  Lemma texec_workers tr T : texec tr T -> length (workers (fst (full T))) = length ws.
  Proof.
    intro H. induction H as [|tr T c es T' H IH S]; [reflexivity|].
    destruct (step_kind _ _ _ _ S) as [d -> ->|v p _ -> ->|v p _ -> ->|v p _ -> ->|v p _ -> ->|v L _ _ A -> ->|c' s E -> ->|c' l s L E A W -> ->]; cbn [full fst]; try exact IH;
      rewrite (workers_length _ _ _ _ _ E); exact IH.
  Qed.

  (** ** What the clock says *)

  Lemma finish_result tr T v o : texec tr T -> In (Finish v o) (pool_trace tr) -> o = task_end (result v).
  Proof.
    intro H. induction H as [|tr T c es T' H IH S]; [intros []|]. rewrite pool_trace_app, in_app_iff. intros [I|I]; [exact (IH I)|].
    destruct (step_kind _ _ _ _ S) as [d -> ->|w p E -> ->|w p E -> ->|w p E -> ->|w p E -> ->|w L _ _ A -> ->|c' s E -> ->|c' l s L E A W -> ->];
      cbn in I; try contradiction. destruct I as [-> |[]]. cbn [accept] in A.
    destruct (lookup_todo v (todo (snd (full T)))), o, (task_end (result v)); try discriminate A; reflexivity.
  Qed.

  Lemma not_raised v : task_end (result v) <> Throws -> In ReadCompleted (program v).
  Proof.
    unfold outcome, invoke_if_necessary, moments. destruct (needed v) as [[]|]; [destruct dryrun; [|destruct (real v) as [[[st out] err]|]]|..];
      cbn; intro N; tauto || congruence.
  Qed.

  Lemma read_all tr T v o : texec tr T -> In (Finish v o) (pool_trace tr) -> o <> Throws ->
    exists a b, started_at T v = Some a /\ completed_at T v = Some b.
  Proof.
    intros H I N. pose proof (texec_stage _ _ H) as G. pose proof (st_end _ _ G v o I) as E.
    pose proof (finish_started _ _ _ _ Hsetup Hpool _ _ _ _ (texec_exec _ _ H) I) as Sv.
    destruct (st_prog _ _ G v Sv) as (pre & P & P1 & P2 & _). rewrite E, app_nil_r in P.
    rewrite (finish_result _ _ _ _ H I) in N. apply not_raised in N.
    assert (In ReadStarted (program v)) by now left. rewrite <- P in P1, P2.
    destruct (started_at T v) as [a|]; [|destruct (proj2 P1); auto]. destruct (completed_at T v) as [b|]; [|destruct (proj2 P2); auto].
    now exists a, b.
  Qed.

  Lemma live_running tr T v m p : texec tr T -> ahead T v = m :: p -> In v (running (workers (fst (full T)))).
  Proof.
    intros H E. pose proof (texec_stage _ _ H) as G. pose proof (started_if_ahead _ _ _ _ _ G E) as Sv.
    pose proof (exec_inv _ _ _ _ Hsetup Hpool _ _ (texec_exec _ _ H)) as J.
    apply started_in in Sv. apply (Permutation_in _ (inv_running _ _ _ _ _ J)) in Sv. apply in_app_or in Sv.
    destruct Sv as [Sv|Sv]; [exact Sv|]. apply finished_in in Sv. destruct Sv as (o & Sv).
    rewrite (st_end _ _ G v o Sv) in E. discriminate.
  Qed.

  Record time_inv (tr : list (Z * event)) (T : timed_state) : Prop := mk_time_inv {
    tm_now : (now <= clock T)%Z;
    tm_started : forall v a, started_at T v = Some a -> (now <= a <= clock T)%Z;
    tm_completed : forall v b, completed_at T v = Some b -> (b <= clock T)%Z /\ exists a, started_at T v = Some a /\ (a <= b)%Z;
    tm_deps : forall v a, started_at T v = Some a -> forall d, In d (reads v) -> In d tasks ->
      exists b, completed_at T d = Some b /\ (b <= a)%Z;
    tm_parallel : forall t, (t <= clock T)%Z -> forall l, NoDup l ->
      (forall v, In v l -> exists a, started_at T v = Some a /\ (a <= t)%Z /\
        (In v (running (workers (fst (full T)))) \/ exists b, completed_at T v = Some b /\ (t < b)%Z)) ->
      length l <= length ws;
    tm_past : forall t e, In (t, e) tr -> (now <= t <= clock T)%Z;
    tm_begin : forall t v, In (t, CommandBegins v) tr -> exists a, started_at T v = Some a /\ (a <= t)%Z;
    tm_begin_end : forall t v t', In (t, CommandBegins v) tr -> In (t', CommandEnds v) tr -> (t <= t')%Z;
    tm_end : forall t v, In (t, CommandEnds v) tr -> forall b, completed_at T v = Some b -> (t <= b)%Z;
    tm_start : forall t v, In (t, PoolEvent (Start v)) tr -> forall a, started_at T v = Some a -> (t <= a)%Z;
    tm_finish : forall t v o, In (t, PoolEvent (Finish v o)) tr -> forall b, completed_at T v = Some b -> (b <= t)%Z
  }.

  (** Only the present time needs to be considered. *)
  Lemma parallel_step tr T T' : texec tr T -> length (workers (fst (full T'))) = length ws -> clock T' = clock T -> time_inv tr T ->
    (forall v b, completed_at T' v = Some b -> (b <= clock T')%Z) ->
    (forall v t, (t < clock T)%Z ->
       (exists a, started_at T' v = Some a /\ (a <= t)%Z /\
        (In v (running (workers (fst (full T')))) \/ exists b, completed_at T' v = Some b /\ (t < b)%Z)) ->
       (exists a, started_at T v = Some a /\ (a <= t)%Z /\
        (In v (running (workers (fst (full T)))) \/ exists b, completed_at T v = Some b /\ (t < b)%Z))) ->
    forall t, (t <= clock T')%Z -> forall l, NoDup l ->
      (forall v, In v l -> exists a, started_at T' v = Some a /\ (a <= t)%Z /\
        (In v (running (workers (fst (full T')))) \/ exists b, completed_at T' v = Some b /\ (t < b)%Z)) ->
      length l <= length ws.
  Proof.
    intros H W C I B P t Ht l N Q. destruct (Z.eq_dec t (clock T')) as [-> |D].
    - apply Nat.le_trans with (length (running (workers (fst (full T'))))); [|rewrite <- W; apply running_length].
      apply NoDup_incl_length; [exact N|]. intros v Iv. destruct (Q v Iv) as (a & _ & _ & [J|(b & Eb & Lb)]); [exact J|].
      specialize (B v b Eb). lia.
    - apply (tm_parallel _ _ I t); [lia|exact N|]. intros v Iv. apply P; [lia|]. exact (Q v Iv).
  Qed.

  Lemma texec_time tr T : texec tr T -> time_inv tr T.
  Proof.
    intro H. induction H as [|tr T c es T' H IH S].
    { constructor; cbn; try tauto; try discriminate; try lia. intros t _ l _ Q. destruct l as [|v l]; [apply Nat.le_0_l|].
      destruct (Q v (or_introl eq_refl)) as (a & E & _). discriminate. }
    pose proof (texec_step _ _ _ _ _ H S) as H'. pose proof (texec_workers _ _ H') as W'.
    pose proof (texec_stage _ _ H) as G. pose proof (texec_stage _ _ H') as G'.
    pose proof (texec_exec _ _ H') as X'.
    destruct (step_kind _ _ _ _ S) as [d -> ->|v p E -> ->|v p E -> ->|v p E -> ->|v p E -> ->|v L _ _ A -> ->|c' s E -> ->|c' l s L E A W -> ->];
      cbn [map] in *; rewrite ?app_nil_r in *.
    - (* time goes by *)
      constructor; cbn [clock started_at completed_at ahead full fst].
      + pose proof (tm_now _ _ IH). lia.
      + intros v a E. pose proof (tm_started _ _ IH v a E). lia.
      + intros v b E. destruct (tm_completed _ _ IH v b E) as (L & a & Ea & La). split; [lia|]. now exists a.
      + exact (tm_deps _ _ IH).
      + intros t Ht l N Q. destruct (Z_le_gt_dec t (clock T)) as [D|D].
        * exact (tm_parallel _ _ IH t D l N Q).
        * cbn [full fst] in W'. apply Nat.le_trans with (length (running (workers (fst (full T))))); [|rewrite <- W'; apply running_length].
          apply NoDup_incl_length; [exact N|]. intros v Iv. destruct (Q v Iv) as (a & _ & _ & [J|(b & Eb & Lb)]); [exact J|].
          destruct (tm_completed _ _ IH v b Eb). lia.
      + intros t e J. pose proof (tm_past _ _ IH t e J). lia.
      + exact (tm_begin _ _ IH).
      + exact (tm_begin_end _ _ IH).
      + exact (tm_end _ _ IH).
      + exact (tm_start _ _ IH).
      + exact (tm_finish _ _ IH).
    - (* the start is read *)
      pose proof (started_if_ahead _ _ _ _ _ G E) as Sv.
      destruct (st_prog _ _ G v Sv) as (pre & P & P1 & P2 & P3 & P4). rewrite E in P.
      pose proof (program_once _ _ _ _ P) as NS. assert (pre = []) as ->.
      { destruct pre as [|x pre]; [reflexivity|]. injection P as <- _. destruct NS. now left. }
      assert (E0 : started_at T v = None) by (destruct (started_at T v); [destruct (proj1 P1); discriminate|reflexivity]).
      assert (C0 : completed_at T v = None) by (destruct (completed_at T v); [destruct (proj1 P2); discriminate|reflexivity]).
      assert (SA : forall u a, set_at v (Some (clock T)) (started_at T) u = Some a -> (u = v /\ a = clock T) \/ (u <> v /\ started_at T u = Some a)).
      { intros u a Ea. destruct (Nat.eq_dec u v) as [-> |Nu]; [left; rewrite set_at_same in Ea; split; congruence|right; rewrite set_at_other in Ea; tauto]. }
      constructor; cbn [clock started_at completed_at ahead full fst].
      + exact (tm_now _ _ IH).
      + intros u a Ea. destruct (SA u a Ea) as [(-> & ->)|(Nu & Eu)]; [pose proof (tm_now _ _ IH); lia|]. exact (tm_started _ _ IH u a Eu).
      + intros u b Eb. destruct (tm_completed _ _ IH u b Eb) as (L & a & Ea & La). split; [exact L|]. exists a.
        rewrite set_at_other by congruence. now split.
      + intros u a Ea d Id Td. destruct (SA u a Ea) as [(-> & ->)|(Nu & Eu)]; [|exact (tm_deps _ _ IH u a Eu d Id Td)].
        destruct (in_split _ _ Sv) as (tr1 & tr2 & Es).
        pose proof (started_ready _ _ _ _ Hsetup Hpool _ _ (texec_exec _ _ H) tr1 v tr2 Es d Id Td) as F.
        assert (F' : In (Finish d Succeeds) (pool_trace tr)) by (rewrite Es; apply in_or_app; now left).
        destruct (read_all _ _ _ _ H F') as (a' & b & _ & Eb); [discriminate|]. exists b. split; [exact Eb|].
        exact (proj1 (tm_completed _ _ IH d b Eb)).
      + intros t Ht l N Q. apply (parallel_step tr T) with (T' := mk_timed_state (clock T) (set_at v (Some (clock T)) (started_at T)) (completed_at T) (set_at v p (ahead T)) (full T)) (t := t); try assumption; try reflexivity.
        * intros u b Eb. exact (proj1 (tm_completed _ _ IH u b Eb)).
        * intros u t' Lt (a & Ea & La & R). cbn [started_at completed_at full] in *. destruct (SA u a Ea) as [(-> & ->)|(Nu & Eu)]; [lia|]. now exists a.
      + exact (tm_past _ _ IH).
      + intros t u J. destruct (tm_begin _ _ IH t u J) as (a & Ea & La). exists a. rewrite set_at_other by congruence. now split.
      + exact (tm_begin_end _ _ IH).
      + exact (tm_end _ _ IH).
      + intros t u J a Ea. destruct (SA u a Ea) as [(-> & ->)|(Nu & Eu)]; [exact (proj2 (tm_past _ _ IH _ _ J))|]. exact (tm_start _ _ IH t u J a Eu).
      + exact (tm_finish _ _ IH).
    - (* the command begins *)
      pose proof (started_if_ahead _ _ _ _ _ G E) as Sv.
      destruct (st_prog _ _ G v Sv) as (pre & P & P1 & P2 & P3 & P4). rewrite E in P.
      destruct (program_command _ _ _ P) as (NE & NC).
      assert (exists a, started_at T v = Some a) as (a0 & Ea0).
      { destruct (program_first _ _ _ _ P) as [D|D]; [discriminate D|]. apply P1 in D. destruct (started_at T v) as [a|]; [now exists a|congruence]. }
      constructor; cbn [clock started_at completed_at ahead full fst]; try exact (tm_now _ _ IH); try exact (tm_started _ _ IH);
        try exact (tm_completed _ _ IH); try exact (tm_deps _ _ IH); try exact (tm_parallel _ _ IH).
      + intros t e J. apply in_app_or in J. destruct J as [J|[J|[]]]; [exact (tm_past _ _ IH t e J)|]. injection J as <- _.
        pose proof (tm_now _ _ IH). lia.
      + intros t u J. apply in_app_or in J. destruct J as [J|[J|[]]]; [exact (tm_begin _ _ IH t u J)|]. injection J as <- <-.
        exists a0. split; [exact Ea0|]. exact (proj2 (tm_started _ _ IH v a0 Ea0)).
      + intros t u t' J J'. apply in_app_or in J'. destruct J' as [J'|[J'|[]]]; [|discriminate J'].
        apply in_app_or in J. destruct J as [J|[J|[]]]; [exact (tm_begin_end _ _ IH t u t' J J')|]. injection J as <- <-.
        destruct NE. apply P4. now exists t'.
      + intros t u J. apply in_app_or in J. destruct J as [J|[J|[]]]; [exact (tm_end _ _ IH t u J)|discriminate J].
      + intros t u J. apply in_app_or in J. destruct J as [J|[J|[]]]; [exact (tm_start _ _ IH t u J)|discriminate J].
      + intros t u o J. apply in_app_or in J. destruct J as [J|[J|[]]]; [exact (tm_finish _ _ IH t u o J)|discriminate J].
    - (* the command ends *)
      pose proof (started_if_ahead _ _ _ _ _ G E) as Sv.
      destruct (st_prog _ _ G v Sv) as (pre & P & P1 & P2 & P3 & P4). rewrite E in P.
      pose proof (program_end _ _ _ P) as NC.
      assert (C0 : completed_at T v = None) by (destruct (completed_at T v); [destruct NC; apply P2; discriminate|reflexivity]).
      constructor; cbn [clock started_at completed_at ahead full fst]; try exact (tm_now _ _ IH); try exact (tm_started _ _ IH);
        try exact (tm_completed _ _ IH); try exact (tm_deps _ _ IH); try exact (tm_parallel _ _ IH).
      + intros t e J. apply in_app_or in J. destruct J as [J|[J|[]]]; [exact (tm_past _ _ IH t e J)|]. injection J as <- _.
        pose proof (tm_now _ _ IH). lia.
      + intros t u J. apply in_app_or in J. destruct J as [J|[J|[]]]; [exact (tm_begin _ _ IH t u J)|discriminate J].
      + intros t u t' J J'. apply in_app_or in J. destruct J as [J|[J|[]]]; [|discriminate J].
        apply in_app_or in J'. destruct J' as [J'|[J'|[]]]; [exact (tm_begin_end _ _ IH t u t' J J')|]. injection J' as <- _.
        exact (proj2 (tm_past _ _ IH _ _ J)).
      + intros t u J b Eb. apply in_app_or in J. destruct J as [J|[J|[]]]; [exact (tm_end _ _ IH t u J b Eb)|]. injection J as _ <-. congruence.
      + intros t u J. apply in_app_or in J. destruct J as [J|[J|[]]]; [exact (tm_start _ _ IH t u J)|discriminate J].
      + intros t u o J. apply in_app_or in J. destruct J as [J|[J|[]]]; [exact (tm_finish _ _ IH t u o J)|discriminate J].
    - (* the end is read *)
      pose proof (started_if_ahead _ _ _ _ _ G E) as Sv. pose proof (live_running _ _ _ _ _ H E) as Rv.
      destruct (st_prog _ _ G v Sv) as (pre & P & P1 & P2 & P3 & P4). rewrite E in P.
      pose proof (program_once _ _ _ _ P) as NS.
      assert (C0 : completed_at T v = None) by (destruct (completed_at T v); [destruct NS; apply P2; discriminate|reflexivity]).
      assert (exists a, started_at T v = Some a) as (a0 & Ea0).
      { destruct (program_first _ _ _ _ P) as [D|D]; [discriminate D|]. apply P1 in D. destruct (started_at T v) as [a|]; [now exists a|congruence]. }
      assert (SA : forall u a, set_at v (Some (clock T)) (completed_at T) u = Some a -> (u = v /\ a = clock T) \/ (u <> v /\ completed_at T u = Some a)).
      { intros u a Ea. destruct (Nat.eq_dec u v) as [-> |Nu]; [left; rewrite set_at_same in Ea; split; congruence|right; rewrite set_at_other in Ea; tauto]. }
      assert (CC : forall u b, set_at v (Some (clock T)) (completed_at T) u = Some b -> (b <= clock T)%Z /\ exists a, started_at T u = Some a /\ (a <= b)%Z).
      { intros u b Eb. destruct (SA u b Eb) as [(-> & ->)|(Nu & Eu)]; [|exact (tm_completed _ _ IH u b Eu)].
        split; [lia|]. exists a0. split; [exact Ea0|]. exact (proj2 (tm_started _ _ IH v a0 Ea0)). }
      constructor; cbn [clock started_at completed_at ahead full fst]; try exact (tm_now _ _ IH); try exact (tm_started _ _ IH);
        try exact (tm_past _ _ IH); try exact (tm_begin _ _ IH); try exact (tm_begin_end _ _ IH); try exact (tm_start _ _ IH).
      + exact CC.
      + intros u a Ea d Id Td. destruct (tm_deps _ _ IH u a Ea d Id Td) as (b & Eb & Lb). exists b. rewrite set_at_other by congruence. now split.
      + intros t Ht l N Q. apply (parallel_step tr T) with (T' := mk_timed_state (clock T) (started_at T) (set_at v (Some (clock T)) (completed_at T)) (set_at v p (ahead T)) (full T)) (t := t); try assumption; try reflexivity.
        * intros u b Eb. exact (proj1 (CC u b Eb)).
        * intros u t' Lt (a & Ea & La & [R|(b & Eb & Lb)]); cbn [started_at completed_at full] in *; exists a; (split; [exact Ea|]); (split; [exact La|]); [now left|].
          destruct (SA u b Eb) as [(-> & ->)|(Nu & Eu)]; [now left|]. right. now exists b.
      + intros t u J b Eb. destruct (SA u b Eb) as [(-> & ->)|(Nu & Eu)]; [exact (proj2 (tm_past _ _ IH _ _ J))|exact (tm_end _ _ IH t u J b Eu)].
      + intros t u o J b Eb. destruct (SA u b Eb) as [(-> & ->)|(Nu & Eu)]; [|exact (tm_finish _ _ IH t u o J b Eu)].
        assert (K : In (Finish v o) (pool_trace tr)) by (apply pool_trace_in; now exists t).
        rewrite (st_end _ _ G v o K) in E. discriminate.
    - destruct IH. constructor; assumption.
    - assert (RR : forall u, In u (running (workers s)) -> In u (running (workers (fst (full T))))).
      { intros u J. destruct (running_step _ _ _ _ _ _ E J) as [K|K]; [exact K|discriminate K]. }
      constructor; cbn [clock started_at completed_at ahead full fst]; try exact (tm_now _ _ IH); try exact (tm_started _ _ IH);
        try exact (tm_completed _ _ IH); try exact (tm_deps _ _ IH); try exact (tm_past _ _ IH); try exact (tm_begin _ _ IH);
        try exact (tm_begin_end _ _ IH); try exact (tm_end _ _ IH); try exact (tm_start _ _ IH); try exact (tm_finish _ _ IH).
      intros t Ht l N Q. apply (tm_parallel _ _ IH t Ht l N). intros v Iv. destruct (Q v Iv) as (a & Ea & La & [R|R]); exists a;
        (split; [exact Ea|]); (split; [exact La|]); [left; now apply RR|now right].
    - assert (RR : forall u a, started_at T u = Some a -> In u (running (workers s)) -> In u (running (workers (fst (full T))))).
      { intros u a Ea J. destruct (running_step _ _ _ _ _ _ E J) as [K|K]; [exact K|]. injection K as ->.
        assert (ND : NoDup (started (pool_trace tr ++ [Start u]))).
        { rewrite pool_trace_app in X'. exact (proj1 (started_tasks _ _ _ _ Hsetup Hpool _ _ X')). }
        rewrite started_app in ND. cbn in ND. apply NoDup_remove_2 in ND. rewrite app_nil_r in ND.
        destruct (st_new _ _ G u) as (N1 & _); [rewrite <- started_in; exact ND|congruence]. }
      constructor; cbn [clock started_at completed_at ahead full fst]; try exact (tm_now _ _ IH); try exact (tm_started _ _ IH);
        try exact (tm_completed _ _ IH); try exact (tm_deps _ _ IH).
      + intros t Ht l' N Q. apply (tm_parallel _ _ IH t Ht l' N). intros v Iv. destruct (Q v Iv) as (a & Ea & La & [R|R]); exists a;
          (split; [exact Ea|]); (split; [exact La|]); [left; now apply (RR v a)|now right].
      + intros t e J. apply in_app_or in J. destruct J as [J|[J|[]]]; [exact (tm_past _ _ IH t e J)|]. injection J as <- _.
        pose proof (tm_now _ _ IH). lia.
      + intros t u J. apply in_app_or in J. destruct J as [J|[J|[]]]; [exact (tm_begin _ _ IH t u J)|discriminate J].
      + intros t u t' J J'. apply in_app_or in J. destruct J as [J|[J|[]]]; [|discriminate J].
        apply in_app_or in J'. destruct J' as [J'|[J'|[]]]; [|discriminate J']. exact (tm_begin_end _ _ IH t u t' J J').
      + intros t u J. apply in_app_or in J. destruct J as [J|[J|[]]]; [exact (tm_end _ _ IH t u J)|discriminate J].
      + intros t u J a Ea. apply in_app_or in J. destruct J as [J|[J|[]]]; [exact (tm_start _ _ IH t u J a Ea)|]. injection J as <- ->.
        assert (ND : NoDup (started (pool_trace tr ++ [Start u]))).
        { rewrite pool_trace_app in X'. exact (proj1 (started_tasks _ _ _ _ Hsetup Hpool _ _ X')). }
        rewrite started_app in ND. cbn in ND. apply NoDup_remove_2 in ND. rewrite app_nil_r in ND.
        destruct (st_new _ _ G u) as (N1 & _); [rewrite <- started_in; exact ND|congruence].
      + intros t u o J b Eb. apply in_app_or in J. destruct J as [J|[J|[]]]; [exact (tm_finish _ _ IH t u o J b Eb)|]. injection J as <- _.
        exact (proj1 (tm_completed _ _ IH u b Eb)).
  Qed.

  (** ** What the log says *)

  Lemma program_last v pre m p : program v = pre ++ m :: p -> ~ In ReadCompleted pre.
  Proof.
    unfold moments. destruct (needed v) as [[]|]; [destruct dryrun; [|destruct (real v) as [x|]]|..];
      destruct pre as [|x1 [|x2 [|x3 [|x4 [|x5 pre]]]]]; cbn [app]; intro E; try discriminate E;
      injection E; intros; subst; cbn; intuition discriminate.
  Qed.

  Lemma not_yet_completed tr T v m p : stage_inv tr T -> ahead T v = m :: p -> completed_at T v = None.
  Proof.
    intros G E. destruct (st_prog _ _ G v (started_if_ahead _ _ _ _ _ G E)) as (pre & P & _ & P2 & _). rewrite E in P.
    apply program_last in P. destruct (completed_at T v); [|reflexivity]. destruct P. apply P2. discriminate.
  Qed.

  Record text_inv (tr : list (Z * event)) (T : timed_state) : Prop := mk_text_inv {
    tx_begun : forall v, In (Start v) (pool_trace tr) ->
      lookup_todo v (todo (snd (full T))) = task_actions level (info v) (result v) \/ times_match info epoch v T = true;
    tx_ended : forall v o, In (Finish v o) (pool_trace tr) -> o <> Throws -> times_match info epoch v T = true
  }.

  Lemma match_same T T' v : started_at T' v = started_at T v -> completed_at T' v = completed_at T v ->
    times_match info epoch v T' = times_match info epoch v T.
  Proof. unfold times_match. now intros -> ->. Qed.

  (** A step of one thread in runIfNecessary. *)
  Lemma live_text tr T v m p sa ca es : stage_inv tr T -> text_inv tr T -> ahead T v = m :: p ->
    (forall u, u <> v -> sa u = started_at T u /\ ca u = completed_at T u) ->
    pool_trace (map (pair (clock T)) es) = [] ->
    text_inv (tr ++ map (pair (clock T)) es) (mk_timed_state (clock T) sa ca (set_at v p (ahead T)) (full T)).
  Proof.
    intros G I E O Ep. constructor.
    - intros u. rewrite pool_trace_app, Ep, app_nil_r. intro J. cbn [full]. destruct (tx_begun _ _ I u J) as [K|K]; [now left|].
      destruct (Nat.eq_dec u v) as [-> |N].
      + unfold times_match in K. rewrite (not_yet_completed _ _ _ _ _ G E) in K. destruct (started_at T v); discriminate K.
      + right. rewrite <- K. destruct (O u N). now apply match_same.
    - intros u o. rewrite pool_trace_app, Ep, app_nil_r. intros J N. rewrite <- (tx_ended _ _ I u o J N).
      assert (Nu : u <> v) by (intros ->; rewrite (st_end _ _ G v o J) in E; discriminate).
      destruct (O u Nu). now apply match_same.
  Qed.

  Lemma texec_text tr T : texec tr T -> text_inv tr T.
  Proof.
    intro H. induction H as [|tr T c es T' H IH S]; [constructor; cbn; tauto|].
    pose proof (texec_stage _ _ H) as G. pose proof (texec_exec _ _ (texec_step _ _ _ _ _ H S)) as X.
    destruct (step_kind _ _ _ _ S) as [d -> ->|v p E -> ->|v p E -> ->|v p E -> ->|v p E -> ->|v L R M A -> ->|c' s E -> ->|c' l s L E A W -> ->].
    - cbn [map]. rewrite app_nil_r. destruct IH as [I1 I2]. constructor; assumption.
    - apply live_text with (m := ReadStarted); try assumption; [|reflexivity]. intros u N. now rewrite set_at_other.
    - apply live_text with (m := BeginCommand); try assumption; [|reflexivity]. intros u N. now split.
    - apply live_text with (m := EndCommand); try assumption; [|reflexivity]. intros u N. now split.
    - apply live_text with (m := ReadCompleted); try assumption; [|reflexivity]. intros u N. now rewrite set_at_other.
    - cbn [map]. rewrite app_nil_r. destruct IH as [I1 I2]. constructor; [|exact I2]. intros u J. cbn [full snd].
      destruct (Nat.eq_dec u v) as [-> |N]; [now right|]. destruct (I1 u J) as [K|K]; [|now right]. left. rewrite <- K.
      apply act_todo in A. destruct A as (p & o & out & err & A & _) || destruct A as (p & o & out & err & A). rewrite A, lookup_set. apply not_eq_sym, Nat.eqb_neq in N. now rewrite N.
    - cbn [map]. rewrite app_nil_r. destruct IH as [I1 I2]. constructor; assumption.
    - assert (P : pool_trace (tr ++ map (pair (clock T)) [PoolEvent l]) = pool_trace tr ++ [l]) by now rewrite pool_trace_app.
      assert (ND : NoDup (started (pool_trace tr ++ [l]))).
      { rewrite <- P. exact (proj1 (started_tasks _ _ _ _ Hsetup Hpool _ _ X)). }
      constructor; rewrite P; intro u; cbn [full snd].
      + rewrite in_app_iff. intros [J|[-> |[]]].
        * destruct (tx_begun _ _ IH u J) as [K|K]; [|now right]. left. rewrite <- K.
          destruct l as [w|w|w o]; cbn [accept] in A.
          -- injection A as <-. reflexivity.
          -- injection A as <-. rewrite lookup_set. destruct (Nat.eqb_spec w u) as [-> |Nw]; [|reflexivity].
             rewrite started_app in ND. cbn in ND. apply NoDup_remove_2 in ND. rewrite app_nil_r in ND.
             destruct ND. now apply started_in.
          -- destruct (lookup_todo w (todo (snd (full T)))), o, (task_end (result w)); try discriminate A; injection A as <-; reflexivity.
        * left. cbn [accept] in A. injection A as <-. rewrite lookup_set, Nat.eqb_refl. reflexivity.
      + intros o. rewrite in_app_iff. intros [J|[-> |[]]] N; [exact (tx_ended _ _ IH u o J N)|].
        cbn [accept] in A. destruct (lookup_todo u (todo (snd (full T)))) eqn:Q; [|destruct o; discriminate A].
        assert (Su : In (Start u) (pool_trace tr)).
        { rewrite P in X. assert (Z : In (Finish u o) (pool_trace tr ++ [Finish u o])) by (apply in_or_app; right; now left).
          pose proof (finish_started _ _ _ _ Hsetup Hpool _ _ _ _ X Z) as Y. rewrite in_app_iff in Y. destruct Y as [Y|[Y|[]]]; [exact Y|discriminate Y]. }
        destruct (tx_begun _ _ IH u Su) as [K|K]; [|exact K]. rewrite Q in K. symmetry in K. apply actions_nil in K.
        destruct o, (task_end (result u)) eqn:V; try discriminate A; try congruence; rewrite K in V; discriminate V.
  Qed.

  (** ** The claims *)

  Hypothesis Hepoch : (epoch <= now)%Z.

  Lemma ended_facts tr T v : texec tr T -> clock_range epoch (clock T) -> ended tr v ->
    exists a b, started_at T v = Some a /\ completed_at T v = Some b /\ (now <= a <= b)%Z /\ (b <= clock T)%Z /\
      stands_for epoch (task_started (info v)) a /\ stands_for epoch (task_completed (info v)) b.
  Proof.
    intros H R E. assert (exists o, In (Finish v o) (pool_trace tr) /\ o <> Throws) as (o & J & N).
    { destruct E as [E|E]; [exists Succeeds|exists Fails]; (split; [exact E|discriminate]). }
    destruct (read_all _ _ _ _ H J N) as (a & b & Ea & Eb). exists a, b. split; [exact Ea|]. split; [exact Eb|].
    pose proof (texec_time _ _ H) as I. pose proof (tm_started _ _ I v a Ea) as La.
    destruct (tm_completed _ _ I v b Eb) as (Lb & a' & Ea' & Lab). assert (a' = a) as -> by congruence.
    split; [lia|]. split; [exact Lb|].
    pose proof (tx_ended _ _ (texec_text _ _ H) v o J N) as M. unfold times_match in M. rewrite Ea, Eb in M.
    apply andb_prop in M. destruct M as (M1 & M2). apply Z.eqb_eq in M1, M2. unfold clock_range in R.
    assert (Q : forall t, (now <= t <= clock T)%Z -> stands_for epoch (to_mus (t - epoch)) t).
    { intros t Ht. unfold stands_for, to_mus. rewrite Z.quot_div_nonneg by lia.
      assert (0 <= (t - epoch) / 1000)%Z by (apply Z.div_pos; lia).
      assert ((t - epoch) / 1000 <= t - epoch)%Z by (apply Z.div_le_upper_bound; lia).
      assert (2 ^ 63 < 2 ^ 64)%Z by reflexivity.
      rewrite Z.mod_small by lia. pose proof (Z.div_mod (t - epoch) 1000). pose proof (Z.mod_pos_bound (t - epoch) 1000). lia. }
    rewrite M1, M2. split; apply Q; lia.
  Qed.

  Theorem times_in_order tr T v : texec tr T -> clock_range epoch (clock T) -> ended tr v ->
    (0 <= task_started (info v) <= task_completed (info v))%Z /\ (epoch + 1000 * task_completed (info v) <= clock T)%Z.
  Proof.
    intros H R E. destruct (ended_facts _ _ _ H R E) as (a & b & _ & _ & L & Lb & Sa & Sb). unfold stands_for in *. lia.
  Qed.

  Theorem times_of_needed tr T v d : texec tr T -> clock_range epoch (clock T) -> ended tr v ->
    In d (reads v) -> In d tasks -> ended tr d /\ (task_completed (info d) <= task_started (info v))%Z.
  Proof.
    intros H R E Id Td. destruct (ended_facts _ _ _ H R E) as (a & b & Ea & _ & _ & _ & Sa & _).
    assert (Sv : In (Start v) (pool_trace tr)).
    { destruct E as [E|E]; exact (finish_started _ _ _ _ Hsetup Hpool _ _ _ _ (texec_exec _ _ H) E). }
    assert (Ed : ended tr d).
    { destruct (in_split _ _ Sv) as (tr1 & tr2 & Es). left. rewrite Es. apply in_or_app. left.
      exact (started_ready _ _ _ _ Hsetup Hpool _ _ (texec_exec _ _ H) tr1 v tr2 Es d Id Td). }
    split; [exact Ed|]. destruct (ended_facts _ _ _ H R Ed) as (a' & b' & _ & Eb' & _ & _ & _ & Sb').
    destruct (tm_deps _ _ (texec_time _ _ H) v a Ea d Id Td) as (b'' & Eb'' & L). assert (b'' = b') as -> by congruence.
    unfold stands_for in *. lia.
  Qed.

  Theorem times_of_command tr T v : texec tr T -> clock_range epoch (clock T) -> ended tr v ->
    (forall t, In (t, PoolEvent (Start v)) tr -> (t < epoch + 1000 * (task_started (info v) + 1))%Z) /\
    (forall t, In (t, CommandBegins v) tr -> (epoch + 1000 * task_started (info v) <= t)%Z) /\
    (forall t t', In (t, CommandBegins v) tr -> In (t', CommandEnds v) tr -> (t <= t')%Z) /\
    (forall t, In (t, CommandEnds v) tr -> (t < epoch + 1000 * (task_completed (info v) + 1))%Z) /\
    (forall t o, In (t, PoolEvent (Finish v o)) tr -> (epoch + 1000 * task_completed (info v) <= t)%Z).
  Proof.
    intros H R E. destruct (ended_facts _ _ _ H R E) as (a & b & Ea & Eb & _ & _ & Sa & Sb). pose proof (texec_time _ _ H) as I.
    unfold stands_for in *. split; [|split; [|split; [|split]]].
    - intros t J. pose proof (tm_start _ _ I t v J a Ea). lia.
    - intros t J. destruct (tm_begin _ _ I t v J) as (a' & Ea' & L). assert (a' = a) as -> by congruence. lia.
    - intros t t'. exact (tm_begin_end _ _ I t v t').
    - intros t J. pose proof (tm_end _ _ I t v J b Eb). lia.
    - intros t o J. pose proof (tm_finish _ _ I t v o J b Eb). lia.
  Qed.

  Theorem command_run tr T v : texec tr T -> ended tr v ->
    ((exists t, In (t, CommandBegins v) tr) <-> dryrun = false /\ needed v = Some true) /\
    ((exists t, In (t, CommandEnds v) tr) <-> dryrun = false /\ needed v = Some true).
  Proof.
    intros H E. assert (exists o, In (Finish v o) (pool_trace tr) /\ o <> Throws) as (o & J & N).
    { destruct E as [E|E]; [exists Succeeds|exists Fails]; (split; [exact E|discriminate]). }
    pose proof (texec_stage _ _ H) as G. pose proof (st_end _ _ G v o J) as A.
    pose proof (finish_started _ _ _ _ Hsetup Hpool _ _ _ _ (texec_exec _ _ H) J) as Sv.
    destruct (st_prog _ _ G v Sv) as (pre & P & _ & _ & P3 & P4). rewrite A, app_nil_r in P. rewrite <- P in P3, P4.
    rewrite P3, P4. rewrite (finish_result _ _ _ _ H J) in N. unfold outcome, invoke_if_necessary in N. unfold moments.
    clear - N. destruct (needed v) as [[]|]; [destruct dryrun; [|destruct (real v) as [[[st out] err]|]]|..]; cbn in *; intuition (congruence || discriminate).
  Qed.

  Theorem times_parallel tr T l t : texec tr T -> clock_range epoch (clock T) -> NoDup l ->
    (forall v, In v l -> ended tr v /\ in_progress info t v) -> length l <= length ws.
  Proof.
    intros H R N Q. destruct l as [|v0 l0] eqn:El; [apply Nat.le_0_l|]. rewrite <- El in *.
    apply (tm_parallel _ _ (texec_time _ _ H) (epoch + 1000 * (t + 1) - 1)).
    - destruct (Q v0) as (E & P); [rewrite El; now left|]. destruct (ended_facts _ _ _ H R E) as (a & b & _ & _ & _ & Lb & _ & Sb).
      unfold in_progress, stands_for in *. lia.
    - exact N.
    - intros v Iv. destruct (Q v Iv) as (E & P). destruct (ended_facts _ _ _ H R E) as (a & b & Ea & Eb & _ & _ & Sa & Sb).
      unfold in_progress, stands_for in *. exists a. split; [exact Ea|]. split; [lia|]. right. exists b. split; [exact Eb|lia].
  Qed.

  Lemma delivered_outcome v r : delivered dryrun (needed v) (real v) r -> result v = r.
  Proof.
    unfold outcome, invoke_if_necessary. intro D. inversion D as [r' E1 E2|r' Ed E1 E2|st out err Ed E1 E2].
    - reflexivity.
    - now rewrite Ed.
    - now rewrite Ed.
  Qed.

  Lemma ended_delivered tr T v : texec tr T -> ended tr v -> delivered dryrun (needed v) (real v) (result v).
  Proof.
    intros H E. assert (exists o, In (Finish v o) (pool_trace tr) /\ o <> Throws) as (o & J & N).
    { destruct E as [E|E]; [exists Succeeds|exists Fails]; (split; [exact E|discriminate]). }
    rewrite (finish_result _ _ _ _ H J) in N. unfold outcome, invoke_if_necessary in *.
    destruct (needed v) as [[]|]; [destruct dryrun eqn:D; [|destruct (real v) as [[[st out] err]|]]|..]; cbn in N; try congruence; now constructor.
  Qed.

  Theorem marks tr T v : texec tr T -> ended tr v ->
    exists r, delivered dryrun (needed v) (real v) r /\
      (In (Finish v Succeeds) (pool_trace tr) <-> r = Skipped \/ exists out err, r = Executed (ExitCode 0) out err).
  Proof.
    intros H E. exists (result v). split; [exact (ended_delivered _ _ _ H E)|].
    assert (Q : forall o, In (Finish v o) (pool_trace tr) -> o = task_end (result v)) by (intros o; exact (finish_result _ _ _ _ H)).
    split.
    - intro J. apply Q in J. destruct (result v) as [| |st out err]; cbn in J; [discriminate J|now left|]. right. exists out, err.
      destruct st as [c|c]; cbn in J; [|discriminate J]. destruct (Z.eqb_spec c 0) as [-> |Nc]; [reflexivity|discriminate J].
    - intro D. destruct E as [E|E]; [exact E|]. apply Q in E. destruct D as [D|(out & err & D)]; rewrite D in E; discriminate E.
  Qed.

  Theorem text_of_log tr T : texec tr T -> final (ph (fst (full T))) ->
    exists order, NoDup order /\ (forall v, In v order <-> ended tr v) /\ dependencies_first reads tasks order /\
      forall r, (forall v, In v order -> delivered dryrun (needed v) (real v) (r v)) ->
        out_text (snd (full T)) = concat (map (out_record level info r) order) /\
        err_text (snd (full T)) = concat (map (err_record level info r) order).
  Proof.
    intros H F. destruct (records_at_end _ _ _ _ _ _ _ Hsetup Hpool _ _ (texec_fexec _ _ H) F) as (order & O1 & O2 & O3 & O4 & O5).
    exists order. split; [exact O1|]. split; [exact O2|]. split; [exact O3|]. intros r D. rewrite O4, O5.
    split; f_equal; apply map_ext_in; intros v Iv; pose proof (delivered_outcome v _ (D v Iv)) as E; unfold out_record, err_record; now rewrite E.
  Qed.
End Timed.

(** * Projects *)

From Verif Require Import Path DbModel DepGraphSpec FileListModel FileListSpec TaskListModel TaskListSpec TaskListProofs.

Theorem project_times fs g : loaded fs g -> forall rs tasks, task_list g rs tasks -> forall ws, idle_pool ws ->
  forall level info dryrun needed real epoch now cs tr T, (epoch <= now)%Z ->
  timed_run (task_reads g) level info dryrun needed real epoch cs (timed_init now rs tasks ws) = Some (tr, T) ->
  clock_range epoch (clock T) ->
  forall v p d q, numbered g v p -> ended tr v -> numbered g d q -> file_needs g p q -> builds g q ->
  ended tr d /\ (task_completed (info d) <= task_started (info v))%Z.
Proof.
  intros Hl rs tasks Ht ws Hws level info dryrun needed real epoch now cs tr T Le Hrun R v p d q Hvp E Hd Hn Hb.
  destruct (task_list_facts fs g Hl rs tasks Ht) as (Hsetup & _ & Hreads).
  apply (timed_run_texec _ _ _ _ _ _ _ now rs tasks ws cs []) in Hrun; [|constructor]. cbn [app] in Hrun.
  assert (Hv : In v tasks).
  { pose proof (texec_exec _ _ _ _ _ _ _ _ _ _ _ _ _ Hrun) as Hex. apply (started_tasks _ _ _ _ Hsetup Hws _ _ Hex). apply started_in.
    destruct E as [E|E]; exact (finish_started _ _ _ _ Hsetup Hws _ _ _ _ Hex E). }
  apply (times_of_needed _ _ _ _ _ _ _ now _ _ _ Hsetup Hws Le _ _ v d Hrun R E).
  - apply (Hreads v p Hv Hvp). eauto.
  - eapply task_list_closed; eauto.
Qed.
