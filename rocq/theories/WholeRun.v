(** A project with two programs that share a generated file, and what the program
    does with it. *)

From Coq Require Import Ascii String Bool ZArith.
From Coq Require Import List.
From Verif Require Import Str Path SMap PathProofs JsonModel DbModel GraphModel DepGraphModel DepGraphSpec FileListModel FileListSpec FileListProofs.
From Verif Require Import LoadModel CfgModel SchedModel SchedSpec TaskListModel TaskListSpec BuildModel BuildSpec BuildProofs.
From Verif Require Import CmdModel CmdSpec CmdProofs MainModel MainSpec MainProofs MainExample WholeSpec WholeProofs.
Import ListNotations.

(** * Any project *)

Definition project_env (fs : file_list) (n : nat) : environment :=
  mk_environment (fun _ => true) (fun _ => None) (fun _ cmd => Some (cmd, System)) (fun _ c => Some c)
    (fun _ _ _ _ _ => ([], Some fs)) (tiny_process n Succeeds).

Definition project_ok (fs : file_list) (n : nat) : bool :=
  match load_project fs with
  | Failed _ => false
  | Loaded (ts, g) =>
      forallb (fun p => negb (path_eqb p empty_path)) (map fst g) &&
      proper_runs n Succeeds g (make_task_list g) &&
      forallb (fun e => proper_runs n Succeeds g (make_target_task_list g (t_source (snd e)))) ts
  end.

Theorem project_genuine fs n accepts argv : scanned fs -> project_ok fs n = true ->
  genuine (project_env fs n) (fst (main (project_env fs n) accepts argv)).
Proof.
  intros Sc H. unfold project_ok in H.
  destruct (load_project fs) as [[ts g]|] eqn:L; [|discriminate].
  apply andb_prop in H. destruct H as [H H3]. apply andb_prop in H. destruct H as [H1 H2].
  assert (Files : forall s t fs', In (Scanned s t fs') (fst (main (project_env fs n) accepts argv)) -> fs' = fs)
    by (intros s t fs' I; exact (scanned_result _ _ _ _ _ fs fs' I (fun _ _ _ _ _ => eq_refl))).
  constructor.
  - intros s t fs' I. rewrite (Files s t fs' I). split; [exact Sc|]. intros ts' g' L'. rewrite L in L'. injection L' as <- <-.
    intros (k & K). unfold numbered in K. apply nth_error_In in K. rewrite forallb_forall in H1. specialize (H1 _ K).
    cbn in H1. discriminate.
  - intros g' rs tasks d f tr I.
    destruct (processed_event _ _ _ _ _ _ _ _ _ I) as (a & fs' & ts' & _ & J & L' & _ & _ & -> & Case & _).
    rewrite (Files _ _ _ J), L in L'. injection L' as <- <-.
    destruct Case as [[_ T] | (names & name & t & _ & _ & F & T)].
    + exact (proper_runs_execution n _ _ _ _ _ _ _ H2 T).
    + apply map_find_in in F; [|exact (proj1 (loaded_targets _ _ _ Sc L))].
      rewrite forallb_forall in H3. exact (proper_runs_execution n _ _ _ _ _ _ _ (H3 _ F) T).
Qed.

(** * Recipes that make their targets at the end, one after the other *)

Definition put (t : Z) (D : disk) (p : path) : disk := fun q => if path_eqb q p then PlainFile t else D q.

Definition decided_to (dec : list (nat * option bool)) (v : nat) (x : option bool) : bool :=
  existsb (fun d => (fst d =? v)%nat && match snd d, x with Some a, Some b => Bool.eqb a b | None, None => true | _, _ => false end) dec.

Definition running (tr : list label) (v : nat) : bool :=
  existsb (fun l => match l with Start u => (u =? v)%nat | _ => false end) tr &&
  forallb (fun l => match l with Finish u _ => negb (u =? v)%nat | _ => true end) tr.

Definition checked (g : file_list) (D : disk) (v : nat) : bool :=
  match nth_error g v with
  | Some (p, info) => match is_up_to_date D p info (task_use_deps g v) with Some true => true | _ => false end
  | None => false
  end.

Definition made (g : file_list) (t : Z) (D : disk) (v : nat) : disk :=
  match nth_error g v with
  | Some (_, info) => fold_left (fun D x => put t D (ti_name x)) (targets info) D
  | None => D
  end.

Fixpoint play (g : file_list) (force : bool) (clock : Z) (past todo : list label) (D : disk) (dec : list (nat * option bool))
  : option (disk * list (nat * option bool)) :=
  match todo with
  | [] => Some (D, dec)
  | Submit v :: todo' => play g force (clock + 1) (past ++ [Submit v]) todo' D dec
  | Start v :: todo' => play g force (clock + 1) (past ++ [Start v]) todo' D ((v, task_needs_run g D force v) :: dec)
  | Finish v o :: todo' =>
      let D' := if decided_to dec v (Some true) then made g clock D v else D in
      if running past v && (negb (decided_to dec v (Some true)) || checked g D' v) && negb (decided_to dec v None)
      then play g force (clock + 1) (past ++ [Finish v o]) todo' D' dec
      else None
  end.

Lemma running_in_progress tr v : running tr v = true -> in_progress tr v.
Proof.
  intro H. apply andb_prop in H. destruct H as [H1 H2]. split.
  - apply existsb_exists in H1. destruct H1 as (l & I & H). destruct l as [u | u | u o]; try discriminate.
    apply Nat.eqb_eq in H. now subst u.
  - intros o I. rewrite forallb_forall in H2. specialize (H2 _ I). cbn in H2. now rewrite Nat.eqb_refl in H2.
Qed.

Lemma decided_iff dec v x : decided_to dec v x = true <-> In (v, x) dec.
Proof.
  unfold decided_to. rewrite existsb_exists. split.
  - intros ([u y] & I & H). cbn [fst snd] in H. apply andb_prop in H. destruct H as [H1 H2]. apply Nat.eqb_eq in H1. subst u.
    destruct y as [a|], x as [b|]; try discriminate; [|exact I]. apply Bool.eqb_prop in H2. now subst b.
  - intro I. exists (v, x). split; [exact I|]. cbn [fst snd]. rewrite Nat.eqb_refl. destruct x as [b|]; [apply Bool.eqb_reflx|reflexivity].
Qed.

Lemma made_other g t D v q : ~ target_of g v q -> made g t D v q = D q.
Proof.
  intro N. unfold made. destruct (nth_error g v) as [[p info]|] eqn:E; [|reflexivity].
  assert (forall l D0, (forall x, In x l -> In x (targets info)) -> fold_left (fun D x => put t D (ti_name x)) l D0 q = D0 q) as K.
  { induction l as [|x l IH]; intros D0 Inc; [reflexivity|]. cbn [fold_left]. rewrite IH by (intros y J; apply Inc; now right).
    unfold put. destruct (path_eqb q (ti_name x)) eqn:Q; [|reflexivity]. apply path_eqb_eq in Q. exfalso. apply N.
    exists p, info, x. split; [exact E|]. split; [apply Inc; now left|now symmetry]. }
  now apply K.
Qed.

Lemma checked_current g D v : checked g D v = true -> current g D v.
Proof.
  unfold checked. destruct (nth_error g v) as [[p info]|] eqn:E; [|discriminate]. intro H.
  exists p, info. split; [exact E|]. pose proof (up_to_date_spec D p info (task_use_deps g v)) as K.
  destruct (is_up_to_date D p info (task_use_deps g v)) as [[]|]; try discriminate. exact K.
Qed.

Lemma play_building g force D0 todo : forall clock past D dec D' dec', building g force D0 past D dec ->
  play g force clock past todo D dec = Some (D', dec') -> building g force D0 (past ++ todo) D' dec'.
Proof.
  induction todo as [|l todo IH]; intros clock past D dec D' dec' B H.
  - cbn in H. injection H as <- <-. now rewrite app_nil_r.
  - destruct l as [v | v | v o]; cbn [play] in H.
    + apply (IH _ _ _ _ _ _ (building_submits g force D0 _ _ _ v B)) in H. now rewrite <- app_assoc in H.
    + apply (IH _ _ _ _ _ _ (building_starts g force D0 _ _ _ v B)) in H. now rewrite <- app_assoc in H.
    + cbv zeta in H. destruct (running past v && _ && _) eqn:C; [|discriminate].
      apply andb_prop in C. destruct C as [C C3]. apply andb_prop in C. destruct C as [C1 C2].
      apply running_in_progress in C1.
      assert (~ In (v, None) dec) as Nn.
      { intro J. apply decided_iff in J. rewrite J in C3. discriminate. }
      replace (past ++ Finish v o :: todo) with ((past ++ [Finish v o]) ++ todo) by now rewrite <- app_assoc.
      apply (IH _ _ _ _ _ _) in H; [exact H|].
      destruct (decided_to dec v (Some true)) eqn:W.
      * apply building_finishes; [|exact C1| |intro J; now destruct Nn].
        -- apply (building_writes g force D0 past D (made g clock D v) dec v B); [now apply decided_iff|exact C1|].
           intros q Nq. now apply made_other.
        -- intros _ _. apply checked_current. exact C2.
      * apply building_finishes; [exact B|exact C1| |intro J; now destruct Nn].
        intros J. apply decided_iff in J. congruence.
Qed.

Fixpoint replay (clock : Z) (events : list event) (D : disk) : option (disk * list (nat * option bool)) :=
  match events with
  | [] => Some (D, [])
  | Processed g rs tasks false force tr :: events' =>
      match play g force clock [] tr D [] with
      | None => None
      | Some (D1, dec1) =>
          match replay (clock + 100) events' D1 with
          | None => None
          | Some (D', dec2) => Some (D', dec1 ++ dec2)
          end
      end
  | _ :: events' => replay clock events' D
  end.

Lemma replay_unfolds events : forall clock D D' dec, replay clock events D = Some (D', dec) -> unfolds events D D' dec.
Proof.
  induction events as [|e events IH]; intros clock D D' dec H.
  - injection H as <- <-. constructor.
  - destruct e as [p | p | s t f | f w | g rs tasks d force tr]; cbn [replay] in H;
      try (apply unfolds_other; [exact (fun B => B)|exact (IH _ _ _ _ H)]).
    destruct d; [apply unfolds_dry; exact (IH _ _ _ _ H)|].
    destruct (play g force clock [] tr D []) as [[D1 dec1]|] eqn:P; [|discriminate].
    destruct (replay (clock + 100) events D1) as [[D2 dec2]|] eqn:R; [|discriminate]. injection H as <- <-.
    apply unfolds_build with D1; [|exact (IH _ _ _ _ R)].
    exact (play_building g force D tr clock [] D [] D1 dec1 (building_begins g force D) P).
Qed.

(** * The project *)

Definition name (s : string) : path := parse_path (lit s).

Definition shared_files (policy : rebuild_policy) : file_list :=
  [(name "a.src", mk_source_file_info [mk_dependency None (name "__targets/x") Generated []] [] []
      [mk_target_info (name "__targets/a") []] None no_compiler Project OnlyIfOutOfDate false);
   (name "b.src", mk_source_file_info [mk_dependency None (name "__targets/x") Generated []] [] []
      [mk_target_info (name "__targets/b") []] None no_compiler Project OnlyIfOutOfDate false);
   (name "x.src", mk_source_file_info [] [] []
      [mk_target_info (name "__targets/x") []] None no_compiler Project policy false)].

Definition shared_graph (policy : rebuild_policy) : file_list :=
  match load_project (shared_files policy) with Loaded (_, g) => g | Failed _ => [] end.

Definition shared_env (policy : rebuild_policy) : environment := project_env (shared_files policy) 80.


(** The source files only *)
Definition sources_only : disk := put 3 (put 2 (put 1 (fun _ => Missing) (name "a.src")) (name "b.src")) (name "x.src").

Lemma shared_scanned policy : scanned (shared_files policy).
Proof.
  split; [repeat constructor|].
  intros p info [H | [H | [H | []]]]; injection H as <- <-; (split; [reflexivity|]); cbn;
    (split; [intros d I; first [destruct I as [<- | []]; reflexivity|destruct I]|]); (split; [intros d []|]); intros t d [<- | []] [].
Qed.

Lemma shared_ok policy : project_ok (shared_files policy) 80 = true.
Proof. destruct policy; vm_compute; reflexivity. Qed.

Lemma shared_loads policy : exists ts, load_project (shared_files policy) = Loaded (ts, shared_graph policy).
Proof. destruct policy; eexists; vm_compute; reflexivity. Qed.

Lemma shared_names policy : proper_names (shared_files policy) (shared_graph policy).
Proof.
  split.
  - intros p (k & K). unfold numbered in K. apply nth_error_In in K.
    assert (forallb (fun p => path_eqb (lexically_normal p) p) (map fst (shared_graph policy)) = true) as A by (destruct policy; vm_compute; reflexivity).
    rewrite forallb_forall in A. apply path_eqb_eq. exact (A _ K).
  - intros p info t [H | [H | [H | []]]]; injection H as <- <-; intros [<- | []];
      (split; [vm_compute; reflexivity|]); right; vm_compute; intuition discriminate.
Qed.

Definition declared_names_external (g : file_list) (q : path) : bool :=
  forallb (fun e => forallb (fun d => negb (path_eqb (dep_name d) q) || negb (is_external (dep_origin d)))
                            (use_deps (snd e) ++ build_deps (snd e))) g.

Lemma internal_test g q : declared_names_external g q = true -> internal g q.
Proof.
  intros H d (p & info & I & J) E. unfold declared_names_external in H. rewrite forallb_forall in H. specialize (H _ I). cbn [snd] in H.
  rewrite forallb_forall in H. specialize (H d (in_or_app _ _ _ J)). apply path_eqb_eq in E. rewrite E in H. cbn in H.
  now destruct (is_external (dep_origin d)).
Qed.

Lemma shared_needs policy : file_needs (shared_graph policy) (name "a.src") (name "__targets/x").
Proof.
  split; [|discriminate].
  assert (exists info d, In (name "a.src", info) (shared_graph policy) /\ In d (use_deps info) /\ dep_name d = name "__targets/x") as (info & d & I & J & E).
  { destruct policy; eexists; eexists; (split; [vm_compute; do 3 right; left; reflexivity|]); (split; [left; reflexivity|reflexivity]). }
  eapply reach_step; [|apply reach_self]. split; [exists 2; destruct policy; vm_compute; reflexivity|].
  exists d. split; [exists info; split; [exact I|left; exact J]|exact E].
Qed.

(** One run, starting with the source files *)
Definition shared_run (policy : rebuild_policy) (argv : list str) : list event * Z := main (shared_env policy) any_text argv.

Definition two_targets : list str := [lit "--config-default"; lit "--targets=a,b"].

Definition lists_target (argv : list str) (p : path) : bool :=
  match command_line (option_table any_text) argv with
  | Some a => match option_given a Targets with Some (PathsValue names) => existsb (path_eqb p) names | _ => false end
  | None => false
  end.

Lemma shared_asked policy argv : lists_target argv (name "a") = true ->
  asked_for any_text argv (shared_files policy) (shared_graph policy) default_target_dir (name "a.src").
Proof.
  intros T.
  assert (builds (shared_files policy) (name "a.src")) as B by (eexists; split; [left; reflexivity|discriminate]).
  split; [exact B|]. intros names V.
  unfold lists_target in T. destruct (command_line (option_table any_text) argv) as [a|] eqn:E; [|discriminate].
  apply (given_value any_text argv a E) in V. rewrite V in T.
  apply existsb_exists in T. destruct T as (x & I & X). apply path_eqb_eq in X. rewrite <- X in I.
  exists (name "a"). split; [exact I|].
  eexists. split; [left; reflexivity|]. split; [exact B|]. apply reach_self.
Qed.

Lemma shared_outdated policy D ta tx : D (name "__targets/a") = PlainFile ta -> D (name "__targets/x") = PlainFile tx -> (ta <= tx)%Z ->
  ~ up_to_date_file (shared_files policy) (shared_graph policy) D (name "a.src").
Proof.
  intros Ea Ex Le U. destruct (U _ (mk_target_info (name "__targets/a") []) (or_introl eq_refl) (or_introl eq_refl)) as [(t & X) | [_ X]]; cbn [ti_name] in X.
  - congruence.
  - destruct (X _ (shared_needs policy)) as (t & St & Lt).
    + apply internal_test. destruct policy; vm_compute; reflexivity.
    + intros (t & Y). congruence.
    + assert (t = ta) by (destruct St; congruence). subst t. specialize (Lt tx (or_introl Ex)). apply (Z.lt_irrefl tx). exact (Z.lt_le_trans _ _ _ Lt Le).
Qed.

Lemma shared_outcome policy argv :
  match replay 10 (fst (shared_run policy argv)) sources_only with
  | Some (D, _) => match D (name "__targets/a"), D (name "__targets/x") with PlainFile ta, PlainFile tx => (ta <=? tx)%Z | _, _ => false end
  | None => false
  end = true ->
  exists D dec, unfolds (fst (shared_run policy argv)) sources_only D dec /\
    ~ up_to_date_file (shared_files policy) (shared_graph policy) D (name "a.src").
Proof.
  destruct (replay 10 (fst (shared_run policy argv)) sources_only) as [[D dec]|] eqn:R; [|discriminate]. intro H.
  exists D, dec. split; [exact (replay_unfolds _ _ _ _ _ R)|].
  destruct (D (name "__targets/a")) as [| |ta|] eqn:Ea; try discriminate.
  destruct (D (name "__targets/x")) as [| |tx|] eqn:Ex; try discriminate.
  apply Z.leb_le in H. exact (shared_outdated policy D ta tx Ea Ex H).
Qed.

Lemma shared_policies q info : In (q, info) (shared_files OnlyIfOutOfDate) -> si_policy info <> Always.
Proof. intros [H | [H | [H | []]]]; injection H as <- <-; discriminate. Qed.

(** What the statement asks for, for a project and a command line *)
Lemma left_outdated policy argv (extra : file_list -> Prop) : extra (shared_files policy) ->
  snd (shared_run policy argv) = 0%Z -> no_query any_text argv -> ~ given any_text argv DryRun ->
  In (Scanned (mk_path false [dot]) default_target_dir (shared_files policy)) (fst (shared_run policy argv)) ->
  lists_target argv (name "a") = true ->
  match replay 10 (fst (shared_run policy argv)) sources_only with
  | Some (D, _) => match D (name "__targets/a"), D (name "__targets/x") with PlainFile ta, PlainFile tx => (ta <=? tx)%Z | _, _ => false end
  | None => false
  end = true ->
  exists env s td fs ts g p D0 D dec, let events := fst (main env any_text argv) in
  genuine env events /\ In (Scanned s td fs) events /\ load_project fs = Loaded (ts, g) /\ proper_names fs g /\ extra fs /\
  snd (main env any_text argv) = 0%Z /\ no_query any_text argv /\ ~ given any_text argv DryRun /\
  unfolds events D0 D dec /\ asked_for any_text argv fs g td p /\ ~ up_to_date_file fs g D p.
Proof.
  intros X Z N Dr Sc T R. destruct (shared_loads policy) as (ts & L). destruct (shared_outcome policy argv R) as (D & dec & U & O).
  exists (shared_env policy), (mk_path false [dot]), default_target_dir, (shared_files policy), ts, (shared_graph policy),
    (name "a.src"), sources_only, D, dec. cbv zeta.
  split; [apply project_genuine; [apply shared_scanned|apply shared_ok]|].
  split; [exact Sc|]. split; [exact L|]. split; [apply shared_names|]. split; [exact X|]. split; [exact Z|].
  split; [exact N|]. split; [exact Dr|]. split; [exact U|]. split; [exact (shared_asked policy argv T)|exact O].
Qed.

Theorem always_outdated : let argv := [lit "--config-default"; lit "--targets=a,b"] in
  exists env s td fs ts g p D0 D dec, let events := fst (main env any_text argv) in
  genuine env events /\ In (Scanned s td fs) events /\ load_project fs = Loaded (ts, g) /\ proper_names fs g /\
  ~ given any_text argv ForceRebuild /\
  snd (main env any_text argv) = 0%Z /\ no_query any_text argv /\ ~ given any_text argv DryRun /\
  unfolds events D0 D dec /\ asked_for any_text argv fs g td p /\ ~ up_to_date_file fs g D p.
Proof.
  intro argv. apply (left_outdated Always argv (fun _ => ~ given any_text argv ForceRebuild)).
  - apply not_given_test. vm_compute. reflexivity.
  - vm_compute. reflexivity.
  - apply no_query_test. vm_compute. reflexivity.
  - apply not_given_test. vm_compute. reflexivity.
  - vm_compute. tauto.
  - vm_compute. reflexivity.
  - vm_compute. reflexivity.
Qed.

Theorem forced_outdated : let argv := [lit "--config-default"; lit "--targets=a,b"; lit "--force-rebuild"] in
  exists env s td fs ts g p D0 D dec, let events := fst (main env any_text argv) in
  genuine env events /\ In (Scanned s td fs) events /\ load_project fs = Loaded (ts, g) /\ proper_names fs g /\
  (forall q info, In (q, info) fs -> si_policy info <> Always) /\
  snd (main env any_text argv) = 0%Z /\ no_query any_text argv /\ ~ given any_text argv DryRun /\
  unfolds events D0 D dec /\ asked_for any_text argv fs g td p /\ ~ up_to_date_file fs g D p.
Proof.
  intro argv. apply (left_outdated OnlyIfOutOfDate argv (fun fs => forall q info, In (q, info) fs -> si_policy info <> Always)).
  - apply shared_policies.
  - vm_compute. reflexivity.
  - apply no_query_test. vm_compute. reflexivity.
  - apply not_given_test. vm_compute. reflexivity.
  - vm_compute. tauto.
  - vm_compute. reflexivity.
  - vm_compute. reflexivity.
Qed.

(** Without these, the project is built as it should, and a second run has nothing to do. *)
Definition good_files : file_list := shared_files OnlyIfOutOfDate.
Definition good_env : environment := shared_env OnlyIfOutOfDate.
Definition good_graph : file_list := shared_graph OnlyIfOutOfDate.

Definition after_first : option (disk * list (nat * option bool)) := replay 10 (fst (main good_env any_text two_targets)) sources_only.
Definition after_second : option (disk * list (nat * option bool)) :=
  match after_first with Some (D, _) => replay 1000 (fst (main good_env any_text two_targets)) D | None => None end.

Lemma shared_first : exists D dec, unfolds (fst (main good_env any_text two_targets)) sources_only D dec /\
  (forall p, In p [name "a.src"; name "b.src"; name "x.src"] -> recipe_run good_graph dec p) /\
  exists D' dec', unfolds (fst (main good_env any_text two_targets)) D D' dec'.
Proof.
  assert (match after_first, after_second with
          | Some (_, dec), Some _ => forallb (fun v => decided_to dec v (Some true)) [3; 4; 5]
          | _, _ => false end = true) as H by (vm_compute; reflexivity).
  unfold after_second in H. destruct after_first as [[D dec]|] eqn:R1; [|discriminate].
  destruct (replay 1000 (fst (main good_env any_text two_targets)) D) as [[D' dec']|] eqn:R2; [|discriminate].
  exists D, dec. split; [exact (replay_unfolds _ _ _ _ _ R1)|]. split.
  - rewrite forallb_forall in H.
    intros p [<- | [<- | [<- | []]]]; [exists 3|exists 4|exists 5]; (split; [vm_compute; reflexivity|]); apply decided_iff; apply H; cbn; tauto.
  - exists D', dec'. exact (replay_unfolds _ _ _ _ _ R2).
Qed.

Lemma good_genuine : genuine good_env (fst (main good_env any_text two_targets)).
Proof. apply project_genuine; [apply shared_scanned|apply shared_ok]. Qed.

Lemma good_needed : only_when_needed any_text two_targets good_files.
Proof. split; [apply not_given_test; vm_compute; reflexivity|exact shared_policies]. Qed.
