(** Proofs about runs of the program, and the files they leave. *)

From Coq Require Import List ZArith Bool.
From Verif Require Import Str Path SMap PathProofs JsonModel DbModel GraphModel DepGraphModel DepGraphSpec DepGraphProofs FileListModel FileListSpec FileListProofs.
From Verif Require Import SchedModel SchedSpec SchedProofs TaskListModel TaskListSpec TaskListProofs BuildModel BuildSpec BuildProofs.
From Verif Require Import CmdModel CmdSpec MainModel MainSpec MainProofs WholeSpec.
Import ListNotations.

Lemma unfolds_app e1 e2 : forall D D' dec, unfolds (e1 ++ e2) D D' dec ->
  exists D1 d1 d2, unfolds e1 D D1 d1 /\ unfolds e2 D1 D' d2 /\ dec = d1 ++ d2.
Proof.
  induction e1 as [|e e1 IH]; intros D D' dec U.
  - exists D, [], dec. repeat split; [constructor|exact U].
  - cbn [app] in U. inversion U; subst.
    + match goal with X : unfolds (e1 ++ e2) _ _ _ |- _ => destruct (IH _ _ _ X) as (D1 & d1 & d2 & U1 & U2 & ->) end.
      exists D1, d1, d2. repeat split; [now constructor|exact U2].
    + match goal with X : unfolds (e1 ++ e2) _ _ _ |- _ => destruct (IH _ _ _ X) as (D1 & d1 & d2 & U1 & U2 & ->) end.
      exists D1, d1, d2. repeat split; [now constructor|exact U2].
    + match goal with X : unfolds (e1 ++ e2) _ _ _ |- _ => destruct (IH _ _ _ X) as (D2 & d1 & d2 & U1 & U2 & ->) end.
      exists D2, (dec1 ++ d1), d2. split; [now apply unfolds_build with D1|]. split; [exact U2|apply app_assoc].
Qed.

Section Project.
Variables fs g : file_list.
Hypothesis Hload : loaded fs g.
Hypothesis Hnames : proper_names fs g.

(** The tasks in [E] have been done, together with everything they need. *)
Definition closed (E : nat -> Prop) : Prop :=
  forall v, E v -> exists rs tasks, task_list g rs tasks /\ In v tasks /\ forall u, In u tasks -> E u.

Lemma closed_tasks rs tasks : task_list g rs tasks -> closed (fun v => In v tasks).
Proof. intros T v I. now exists rs, tasks. Qed.

Section NotAlways.
Hypothesis Hna : forall rs tasks v, task_list g rs tasks -> In v tasks -> ~ always_rebuilt g v.

Lemma building_clean E D0 tr D dec : closed E -> building g false D0 tr D dec ->
  (forall v, E v -> current g D0 v) -> forall v, E v -> current g D v /\ ~ invoked dec v.
Proof.
  intros C B H0. induction B; intros w Hw.
  - split; [now apply H0|intros []].
  - now apply IHB.
  - destruct (IHB w Hw) as [Hc Hi]. split; [exact Hc|]. intros [X | X]; [|now apply Hi].
    injection X as -> X. revert X. destruct (C w Hw) as (rs & tasks & T & Iw & _).
    apply current_not_needed; [exact Hc|exact (Hna rs tasks w T Iw)].
  - destruct (IHB w Hw) as [Hc Hi]. split; [|exact Hi].
    destruct (C w Hw) as (rs & tasks & T & Iw & Cl).
    assert (v <> w) as Ne by (intros ->; now apply Hi).
    apply (current_same fs g Hload Hnames rs tasks T D D' v w Iw Ne H2); [|exact Hc].
    intros (p & pu & Nw & Nu & Bu & Hn). destruct (IHB v) as [_ X]; [|now apply X].
    apply Cl. exact (task_list_closed fs g Hload rs tasks T w p Iw Nw v pu Nu Hn Bu).
  - now apply IHB.
Qed.

(** A build without force and dry run, at any stage *)
Definition lawful (e : event) : Prop :=
  match e with
  | Processed g' rs tasks d f tr => g' = g /\ f = false /\ task_list g rs tasks /\
      exists ws cs s, idle_pool ws /\ run (task_reads g) cs (init rs tasks ws) = Some (tr, s)
  | _ => True
  end.

Lemma unfolds_clean E events D D' dec : closed E -> unfolds events D D' dec ->
  Forall lawful events -> (forall v, E v -> current g D v) -> forall v, E v -> current g D' v /\ ~ invoked dec v.
Proof.
  intros C U. induction U; intros L H0 w Hw.
  - split; [now apply H0|intros []].
  - inversion L; subst. now apply IHU.
  - inversion L; subst. now apply IHU.
  - inversion L as [|x l Le L']; subst. destruct Le as (-> & -> & T & _).
    pose proof (building_clean E D tr D1 dec1 C H H0) as K.
    destruct (IHU L' (fun v Hv => proj1 (K v Hv)) w Hw) as [Hc Hi]. split; [exact Hc|].
    intro X. apply in_app_or in X. destruct X as [X | X]; [now apply (proj2 (K w Hw))|now apply Hi].
Qed.

(** ...that has returned *)
Definition returned (e : event) : Prop :=
  match e with
  | Processed g' rs tasks d f tr => g' = g /\ d = false /\ f = false /\ task_list g rs tasks /\
      exists ws cs s n, idle_pool ws /\ run (task_reads g) cs (init rs tasks ws) = Some (tr, s) /\ ph s = Returned n
  | _ => True
  end.

Lemma returned_lawful e : returned e -> lawful e.
Proof.
  destruct e; try exact (fun H => H). intros (-> & -> & -> & T & ws & cs & s & n & W & R & _).
  repeat split; [exact T|]. now exists ws, cs, s.
Qed.

Lemma unfolds_returned events D D' dec : unfolds events D D' dec -> Forall returned events ->
  forall rs tasks d f tr, In (Processed g rs tasks d f tr) events -> forall v, In v tasks -> current g D' v.
Proof.
  intros U. induction U; intros L rs0 tasks0 d0 f0 tr0 I w Hw.
  - destruct I.
  - inversion L; subst. destruct I as [-> | I]; [exfalso; apply H; exact Logic.I|]. exact (IHU H3 _ _ _ _ _ I w Hw).
  - inversion L as [|x l Le L']; subst. destruct Le as (_ & X & _). discriminate.
  - inversion L as [|x l Le L']; subst. destruct Le as (-> & _ & -> & T & ws & cs & s & n & W & R & P).
    destruct I as [I | I]; [|exact (IHU L' _ _ _ _ _ I w Hw)]. injection I as <- <- <- <- <-.
    pose proof (built_all_current fs g Hload Hnames rs tasks T ws W false cs tr s n D D1 dec1 R P H) as K.
    apply (unfolds_clean _ _ _ _ _ (closed_tasks rs tasks T) U (Forall_impl _ returned_lawful L') K w Hw).
Qed.
End NotAlways.

(** From tasks to files *)
Lemma current_file rs tasks D v p : task_list g rs tasks -> In v tasks -> numbered g v p -> current g D v -> up_to_date_file fs g D p.
Proof.
  intros T Iv Nv C info t Ip It. pose proof Hload as (Sc & (ts & Ld) & _).
  destruct (loaded_targets fs ts g Sc Ld) as (_ & _ & (Sg & _ & _ & Src & _)).
  destruct (Src p info Ip) as (i' & Ig & (Et & _)).
  assert (nth_error g v = Some (p, i')) as Nth.
  { unfold numbered in Nv. rewrite nth_error_map in Nv. destruct (nth_error g v) as [[q j]|] eqn:E; [|discriminate].
    cbn in Nv. injection Nv as ->. apply nth_error_In in E.
    now rewrite (sorted_in_unique _ _ _ _ _ Sg E Ig). }
  rewrite <- Et in It. exact (project_up_to_date fs g Hload rs tasks T D v p i' Iv Nth C t It).
Qed.

Lemma no_always : (forall p info, In (p, info) fs -> si_policy info <> Always) ->
  forall rs tasks v, task_list g rs tasks -> In v tasks -> ~ always_rebuilt g v.
Proof.
  intros A rs tasks v T Iv (p & i & Nth & P).
  destruct (task_list_facts _ _ Hload _ _ T) as (_ & Bl & _). destruct (Bl v Iv) as (p' & Nv & B).
  assert (numbered g v p) as Nv' by (eapply node_numbered; eauto).
  assert (p' = p) by (unfold numbered in *; congruence). subst p'.
  apply (builds_sources _ _ Hload p) in B. destruct B as (i0 & I0 & _).
  pose proof Hload as (Sc & (ts & Ld) & _).
  destruct (loaded_targets fs ts g Sc Ld) as (_ & _ & (Sg & _ & _ & Src & _)).
  destruct (Src p i0 I0) as (i' & Ig & (_ & _ & _ & _ & _ & _ & Po & _)).
  apply nth_error_In in Nth. rewrite (sorted_in_unique _ _ _ _ _ Sg Nth Ig) in P. apply (A p i0 I0). congruence.
Qed.
End Project.

(** * The program *)

Lemma map_io_last A B (f : A -> io B) l x : snd (map_io f (l ++ [x])) <> None ->
  fst (map_io f (l ++ [x])) = fst (map_io f l) ++ fst (f x) /\ snd (f x) <> None.
Proof.
  induction l as [|y l IH]; cbn [app map_io].
  - destruct (f x) as [es [z|]]; cbn [and_then fst snd]; [|congruence]. intros _. split; [|discriminate]. cbn. now rewrite app_nil_r.
  - destruct (f y) as [es [z|]]; [|rewrite then_thrown; cbn [snd]; congruence]. rewrite !then_done. cbn [fst snd].
    destruct (map_io f (l ++ [x])) as [es1 [zs|]] eqn:E1; [|rewrite then_thrown; cbn [snd]; congruence].
    rewrite then_done. cbn [done fst snd].
    intros _. destruct IH as [IH IH']; [discriminate|]. split; [|exact IH']. cbn [fst] in IH. rewrite app_nil_r, IH.
    rewrite <- app_assoc. f_equal.
    destruct (map_io f l) as [es2 [zs2|]] eqn:E2; [rewrite then_done; cbn; now rewrite app_nil_r|rewrite then_thrown; reflexivity].
Qed.

Section Run.
Variables (env : environment) (accepts : cmd_option -> str -> bool) (argv : list str).
Variables (s td : path) (fs : file_list) (ts : target_list) (g : file_list).
Let events := fst (main env accepts argv).
Hypothesis Hg : genuine env events.
Hypothesis Hs : In (Scanned s td fs) events.
Hypothesis Hl : load_project fs = Loaded (ts, g).

Lemma run_loaded : loaded fs g.
Proof. exact (genuine_loaded env accepts argv Hg s td fs ts g Hs Hl). Qed.

(** The lists of tasks *)
Lemma run_lists g' rs tasks d f tr : In (Processed g' rs tasks d f tr) events ->
  g' = g /\ task_list g rs tasks /\ (d = true <-> given accepts argv DryRun) /\ (f = true <-> given accepts argv ForceRebuild) /\
  (exists ws cs st, idle_pool ws /\ run (task_reads g) cs (init rs tasks ws) = Some (tr, st) /\
     (snd (main env accepts argv) = 0%Z -> exists n, ph st = Returned n)) /\
  forall v p, numbered g v p -> In v tasks -> asked_for accepts argv fs g td p.
Proof.
  intros I. destruct (processed_event env accepts argv g' rs tasks d f tr I) as (a & fs' & ts' & E & J & L & Ed & Ef & _ & Case & Ok).
  destruct (scanned_once env accepts argv _ _ _ _ _ _ Hs J) as (_ & Et & <-). rewrite Hl in L. injection L as <- <-.
  pose proof run_loaded as P. pose proof P as (Sc & _).
  assert (known g empty_path -> False) as _ by apply P.
  assert (task_list g rs tasks) as T.
  { destruct Case as [[_ M] | (names & name & t & _ & _ & F & M)]; [now left|]. right. exists (t_source t). split; [|exact M].
    apply (find_target_iff fs ts g _ name t Sc Hl) in F. exact (target_source_known fs ts g _ t Sc Hl F). }
  split; [reflexivity|]. split; [exact T|]. split; [subst d; apply (has_option_iff accepts argv a _ E)|].
  split; [subst f; apply (has_option_iff accepts argv a _ E)|]. split.
  - destruct (genuine_tasks _ _ Hg _ _ _ _ _ _ I) as (ws & cs & st & W & R & Ph). exists ws, cs, st. split; [exact W|]. split; [exact R|].
    intro Z. destruct (Ok Z) as (n & En). rewrite En in Ph. now exists n.
  - intros v p Nv Iv. destruct (task_list_facts _ _ P _ _ T) as (_ & Bl & _). destruct (Bl v Iv) as (p' & Nv' & B).
    assert (p' = p) by (unfold numbered in *; congruence). subst p'. apply (builds_sources _ _ P p) in B. split; [exact B|].
    intros names V. apply (given_value accepts argv a E) in V.
    destruct Case as [[N _] | (names' & name & t & O & In' & F & M)]; [now destruct (N names)|].
    rewrite V in O. injection O as <-. exists name. split; [exact In'|]. exists t. rewrite Et.
    apply (find_target_iff fs ts g _ name t Sc Hl) in F. split; [exact F|]. split; [exact B|].
    destruct (make_target_task_list_spec _ _ P (t_source t) (target_source_known fs ts g _ t Sc Hl F))
      as [[_ X]|[_ (rs' & tasks' & X & _ & K & _)]]; [congruence|]. rewrite M in X. injection X as <- <-.
    now apply (K v p Nv).
Qed.

Lemma asked_listed v p : snd (main env accepts argv) = 0%Z -> no_query accepts argv ->
  numbered g v p -> asked_for accepts argv fs g td p ->
  exists rs tasks d f tr, In (Processed g rs tasks d f tr) events /\ In v tasks.
Proof.
  intros Z N Nv (B & A). pose proof run_loaded as P.
  assert (forall rs tasks d f tr, In (Processed g rs tasks d f tr) events -> completed g tr p ->
    exists rs tasks d f tr, In (Processed g rs tasks d f tr) events /\ In v tasks) as K.
  { intros rs tasks d f tr I (v' & Nv' & St & _). exists rs, tasks, d, f, tr. split; [exact I|].
    destruct (run_lists g rs tasks d f tr I) as (_ & T & _ & _ & (ws & cs & st & W & R & _) & _).
    destruct (loaded_targets fs ts g (proj1 P) Hl) as (_ & _ & (Sg & _)).
    assert (v' = v) by (exact (numbered_inj g Sg v' v p Nv' Nv)). subst v'.
    apply (orderly_tasks _ _ _ (run_orderly fs g P rs tasks T ws cs tr st W R)). now apply started_in. }
  destruct (status_form env accepts argv Z N) as (a & fs' & ts' & g' & E & J & L & _).
  destruct (has_option a Targets) eqn:G.
  - unfold has_option in G. destruct (option_given a Targets) as [x|] eqn:O; [|discriminate].
    destruct (targets_value accepts argv a x E O) as (names & ->). apply (given_value accepts argv a E) in O.
    destruct (A names O) as (name & In' & Pt).
    destruct (success_targets env accepts argv Hg Z N names O) as (s2 & td2 & fs2 & ts2 & g2 & J2 & L2 & X).
    destruct (scanned_once env accepts argv _ _ _ _ _ _ Hs J2) as (_ & <- & <-). rewrite Hl in L2. injection L2 as <- <-.
    destruct (X name In') as (_ & rs & tasks & d & f & tr & I & C). exact (K _ _ _ _ _ I (C p Pt)).
  - apply (has_option_not accepts argv a _ E) in G.
    destruct (success_all env accepts argv Hg Z N G) as (s2 & td2 & fs2 & ts2 & g2 & rs & tasks & d & f & tr & J2 & L2 & I & C & _).
    destruct (scanned_once env accepts argv _ _ _ _ _ _ Hs J2) as (_ & _ & <-). rewrite Hl in L2. injection L2 as <- <-.
    exact (K _ _ _ _ _ I (C p B)).
Qed.

(** The last list *)
Lemma last_listed v p : snd (main env accepts argv) = 0%Z -> no_query accepts argv ->
  numbered g v p -> asked_last accepts argv fs g td p ->
  exists before rs tasks d f tr, events = before ++ [Processed g rs tasks d f tr] /\ In v tasks.
Proof.
  intros Z N Nv (B & A). pose proof run_loaded as P. pose proof P as (Sc & _).
  destruct (scanned_event env accepts argv s td fs Hs) as (a & evs & E & _ & _ & Et & _ & [[(e & X) _] | (ts' & g' & L & M)]); [congruence|].
  rewrite Hl in L. injection L as <- <-.
  assert (finish_phase env a ts g = build_phase env a ts g) as F.
  { unfold finish_phase. assert (forall o, In o implemented_queries -> has_option a o = false) as Not
      by (intros o Ho; apply (has_option_not accepts argv a o E), N, Ho).
    now rewrite (Not ListTargets), (Not PrintDepGraph) by (cbn; tauto). }
  rewrite F in M. unfold events. rewrite M in *. cbn [fst snd] in *.
  destruct (snd (build_phase env a ts g)) as [[]|] eqn:R; [|discriminate].
  apply (builds_sources _ _ P p) in B.
  set (d := has_option a DryRun) in *. set (f := has_option a ForceRebuild) in *.
  assert (forall l, snd (process_io env g d f l) <> None -> exists rs tasks tr, l = Some (rs, tasks) /\
    fst (process_io env g d f l) = [Processed g rs tasks d f tr]) as One.
  { intros [[rs tasks]|] H; [|now destruct H]. cbn [process_io] in *. destruct (env_process env g rs tasks d f) as [tr [n|]] eqn:Q.
    - exists rs, tasks, tr. split; reflexivity.
    - now destruct H. }
  unfold build_phase in *. fold d f in R |- *.
  assert (forall l, l = make_task_list g -> snd (and_then (process_io env g d f l) (fun _ => done tt)) = Some tt ->
    exists before rs tasks tr, (evs ++ [Scanned s td fs]) ++ fst (and_then (process_io env g d f l) (fun _ => done tt)) =
      before ++ [Processed g rs tasks d f tr] /\ In v tasks) as All.
  { intros l El Q. destruct (One l) as (rs & tasks & tr & -> & Fst).
    { intro X. destruct (process_io env g d f l) as [es [y|]]; [discriminate X|discriminate Q]. }
    exists (evs ++ [Scanned s td fs]), rs, tasks, tr. split.
    - f_equal. destruct (process_io env g d f (Some (rs, tasks))) as [es [y|]]; [|discriminate Q]. cbn [fst] in Fst. subst es. reflexivity.
    - destruct (make_task_list_spec _ _ P) as [[_ X]|[_ (rs' & tasks' & X & _ & K & _)]]; [congruence|].
      rewrite X in El. injection El as -> ->. now apply (K v p Nv). }
  destruct (option_given a Targets) as [[q | names |]|] eqn:O;
    try (destruct (All _ eq_refl R) as (before & rs & tasks & tr & X & Y); exists before, rs, tasks, d, f, tr; now split).
  assert (has_value accepts argv Targets (PathsValue names)) as V by now apply (given_value accepts argv a E).
  destruct (A names V) as (before & name & -> & (t & Ft & _ & Re)).
  unfold compile_targets in *. apply then_some in R. destruct R as (ys & R & _).
  destruct (map_io_last _ _ (compile_target env ts g (target_directory a) d f) before name) as [Fst Ne]; [congruence|].
  exists ((evs ++ [Scanned s td fs]) ++ fst (map_io (compile_target env ts g (target_directory a) d f) before)).
  rewrite Et in Ft. apply (find_target_iff fs ts g _ name t Sc Hl) in Ft.
  assert (compile_target env ts g (target_directory a) d f name = process_io env g d f (make_target_task_list g (t_source t))) as Ct.
  { unfold compile_target. rewrite Ft. unfold lift. rewrite then_done. now destruct (process_io env g d f (make_target_task_list g (t_source t))). }
  rewrite Ct in Ne, Fst.
  destruct (One _ Ne) as (rs & tasks & tr & Ml & Fp). exists rs, tasks, d, f, tr. split.
  - rewrite Fp in Fst. rewrite <- (app_assoc (evs ++ [Scanned s td fs])). rewrite <- Fst. f_equal.
    match goal with |- context [map_io ?h (before ++ [name])] => destruct (map_io h (before ++ [name])) as [es [zs|]] end; [|discriminate R].
    rewrite then_done. cbn [done fst]. now rewrite app_nil_r.
  - apply (find_target_iff fs ts g _ name t Sc Hl) in Ft.
    destruct (make_target_task_list_spec _ _ P (t_source t) (target_source_known fs ts g _ t Sc Hl Ft))
      as [[_ X]|[_ (rs' & tasks' & X & _ & K & _)]]; [congruence|]. rewrite Ml in X. injection X as <- <-.
    now apply (K v p Nv).
Qed.

Hypothesis Hn : proper_names fs g.

Theorem run_current D0 D dec v p : snd (main env accepts argv) = 0%Z -> no_query accepts argv -> ~ given accepts argv DryRun ->
  unfolds events D0 D dec -> numbered g v p -> asked_for accepts argv fs g td p ->
  only_when_needed accepts argv fs \/ asked_last accepts argv fs g td p ->
  current g D v /\ exists rs tasks, task_list g rs tasks /\ In v tasks.
Proof.
  intros Z N Dr U Nv A Cond. pose proof run_loaded as P. destruct Cond as [[Nf Na] | Last].
  - destruct (asked_listed v p Z N Nv A) as (rs & tasks & d & f & tr & I & Iv).
    destruct (run_lists _ _ _ _ _ _ I) as (_ & T & _). split; [|now exists rs, tasks].
    apply (unfolds_returned fs g P Hn (no_always fs g P Na) events D0 D dec U) with (rs := rs) (tasks := tasks) (d := d) (f := f) (tr := tr);
      [|exact I|exact Iv].
    apply Forall_forall. intros e J. destruct e; try exact Logic.I.
    destruct (run_lists _ _ _ _ _ _ J) as (-> & T' & [Hd _] & [Hf _] & (ws & cs & st & W & R & Ok) & _).
    split; [reflexivity|]. split; [destruct dryrun; [destruct (Dr (Hd eq_refl))|reflexivity]|].
    split; [destruct force; [destruct (Nf (Hf eq_refl))|reflexivity]|]. split; [exact T'|].
    destruct (Ok Z) as (n & Ph). now exists ws, cs, st, n.
  - destruct (last_listed v p Z N Nv Last) as (before & rs & tasks & d & f & tr & Ev & Iv).
    assert (In (Processed g rs tasks d f tr) events) as I by (rewrite Ev; apply in_or_app; right; now left).
    destruct (run_lists _ _ _ _ _ _ I) as (_ & T & [Hd _] & _ & (ws & cs & st & W & R & Ok) & _).
    destruct (Ok Z) as (n & Ph). split; [|now exists rs, tasks].
    rewrite Ev in U. apply unfolds_app in U. destruct U as (D1 & d1 & d2 & _ & U & _).
    inversion U; subst.
    + match goal with X : ~ is_build _ |- _ => now destruct X end.
    + destruct (Dr (Hd eq_refl)).
    + match goal with X : unfolds [] _ _ _ |- _ => inversion X; subst end.
      eapply (built_all_current fs g P Hn rs tasks T ws W); eauto.
Qed.

Theorem run_up_to_date D0 D dec p : snd (main env accepts argv) = 0%Z -> no_query accepts argv -> ~ given accepts argv DryRun ->
  unfolds events D0 D dec -> asked_for accepts argv fs g td p ->
  only_when_needed accepts argv fs \/ asked_last accepts argv fs g td p -> up_to_date_file fs g D p.
Proof.
  intros Z N Dr U A Cond. pose proof run_loaded as P. pose proof (proj1 A) as B.
  apply (builds_sources _ _ P p) in B. destruct B as (i & Ip & _). destruct (in_numbered g p i Ip) as (v & Nv).
  destruct (run_current D0 D dec v p Z N Dr U Nv A Cond) as (C & rs & tasks & T & Iv).
  exact (current_file fs g P rs tasks D v p T Iv Nv C).
Qed.
End Run.

Theorem second_run env1 env2 accepts argv1 argv2 s1 s2 td fs ts g :
  genuine env1 (fst (main env1 accepts argv1)) -> genuine env2 (fst (main env2 accepts argv2)) ->
  In (Scanned s1 td fs) (fst (main env1 accepts argv1)) -> In (Scanned s2 td fs) (fst (main env2 accepts argv2)) ->
  load_project fs = Loaded (ts, g) -> proper_names fs g ->
  snd (main env1 accepts argv1) = 0%Z -> no_query accepts argv1 -> ~ given accepts argv1 DryRun ->
  only_when_needed accepts argv2 fs ->
  ~ given accepts argv1 ForceRebuild \/ (forall p, asked_for accepts argv1 fs g td p -> asked_last accepts argv1 fs g td p) ->
  (forall p, asked_for accepts argv2 fs g td p -> asked_for accepts argv1 fs g td p) ->
  forall D0 D1 D2 dec1 dec2, unfolds (fst (main env1 accepts argv1)) D0 D1 dec1 ->
  unfolds (fst (main env2 accepts argv2)) D1 D2 dec2 ->
  (forall p, ~ recipe_run g dec2 p) /\ forall q, D2 q = D1 q.
Proof.
  intros G1 G2 S1 S2 L Nm Z N Dr [Nf2 Na] Cond Sub D0 D1 D2 dec1 dec2 U1 U2.
  pose proof (run_loaded env1 accepts argv1 s1 td fs ts g G1 S1 L) as P.
  set (E := fun v => exists rs tasks d f tr, In (Processed g rs tasks d f tr) (fst (main env1 accepts argv1)) /\ In v tasks).
  assert (closed g E) as C.
  { intros v (rs & tasks & d & f & tr & I & Iv). destruct (run_lists env1 accepts argv1 s1 td fs ts g G1 S1 L _ _ _ _ _ _ I) as (_ & T & _).
    exists rs, tasks. split; [exact T|]. split; [exact Iv|]. intros u Iu. now exists rs, tasks, d, f, tr. }
  assert (forall v, E v -> current g D1 v) as Cur.
  { intros v (rs & tasks & d & f & tr & I & Iv).
    destruct (run_lists env1 accepts argv1 s1 td fs ts g G1 S1 L _ _ _ _ _ _ I) as (_ & T & _ & _ & _ & A).
    destruct (task_list_facts _ _ P _ _ T) as (_ & Bl & _). destruct (Bl v Iv) as (p & Nv & _). specialize (A v p Nv Iv).
    apply (run_current env1 accepts argv1 s1 td fs ts g G1 S1 L Nm D0 D1 dec1 v p Z N Dr U1 Nv A).
    destruct Cond as [Nf | La]; [left; now split|right; now apply La]. }
  assert (Forall (lawful g) (fst (main env2 accepts argv2))) as Law.
  { apply Forall_forall. intros e J. destruct e; try exact Logic.I.
    destruct (run_lists env2 accepts argv2 s2 td fs ts g G2 S2 L _ _ _ _ _ _ J) as (-> & T & _ & [Hf _] & (ws & cs & st & W & R & _) & _).
    split; [reflexivity|]. split; [destruct force; [destruct (Nf2 (Hf eq_refl))|reflexivity]|]. split; [exact T|]. now exists ws, cs, st. }
  pose proof (unfolds_clean fs g P Nm (no_always fs g P Na) E _ _ _ _ C U2 Law Cur) as Cl.
  assert (forall v, invoked dec2 v -> E v) as InE.
  { assert (forall events, unfolds events D1 D2 dec2 -> (forall e, In e events -> In e (fst (main env2 accepts argv2))) ->
      forall v, invoked dec2 v -> exists rs tasks d f tr, In (Processed g rs tasks d f tr) (fst (main env2 accepts argv2)) /\ In v tasks) as K.
    { clear U2 Cl Cur U1. intros events U. induction U; intros Inc v Iv.
      - destruct Iv.
      - apply IHU; [|exact Iv]. intros x J. apply Inc. now right.
      - apply IHU; [|exact Iv]. intros x J. apply Inc. now right.
      - apply in_app_or in Iv. destruct Iv as [Iv | Iv]; [|apply IHU; [intros x J; apply Inc; now right|exact Iv]].
        pose proof (Inc _ (or_introl eq_refl)) as J.
        destruct (run_lists env2 accepts argv2 s2 td fs ts g G2 S2 L _ _ _ _ _ _ J) as (-> & T & _ & _ & (ws & cs & st & W & R & _) & _).
        exists rs, tasks, false, force, tr. split; [exact J|].
        apply (orderly_tasks _ _ _ (run_orderly fs g P rs tasks T ws cs tr st W R)). apply started_in. eapply invoked_started; eauto. }
    intros v Iv. destruct (K _ U2 (fun e J => J) v Iv) as (rs & tasks & d & f & tr & J & It).
    destruct (run_lists env2 accepts argv2 s2 td fs ts g G2 S2 L _ _ _ _ _ _ J) as (_ & T & _ & _ & _ & A).
    destruct (task_list_facts _ _ P _ _ T) as (_ & Bl & _). destruct (Bl v It) as (p & Nv & _). specialize (A v p Nv It).
    exact (asked_listed env1 accepts argv1 s1 td fs ts g G1 S1 L v p Z N Nv (Sub p A)). }
  assert (forall v, ~ invoked dec2 v) as None_.
  { intros v Iv. now apply (proj2 (Cl v (InE v Iv))). }
  split; [intros p (v & _ & Iv); exact (None_ v Iv)|].
  clear - U2 None_. intro q. induction U2; auto.
  rewrite IHU2; [|intros v Iv; apply (None_ v); unfold invoked in *; apply in_or_app; now right].
  eapply nothing_invoked; [eassumption|]. intros v Iv. apply (None_ v). unfold invoked in *. apply in_or_app. now left.
Qed.
