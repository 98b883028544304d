(** Proofs about what the program tells: reasons and numbers. *)

From Coq Require Import Ascii String Bool ZArith Arith Lia Sorted.
From Coq Require Import List.
From Verif Require Import Str Path SMap PathProofs JsonModel DbModel GraphModel DepGraphModel DepGraphSpec DepGraphProofs.
From Verif Require Import FileListModel FileListSpec FileListProofs SchedModel SchedSpec SchedProofs.
From Verif Require Import TaskListModel TaskListSpec TaskListProofs LoadModel CfgModel CfgProofs ValueModel.
From Verif Require Import CmdModel CmdSpec CmdProofs MainModel MainSpec MainProofs WhyModel WhySpec WhyProofs.
Import ListNotations.

Section Early.
Variables (env : environment) (msg : messages).

Lemma recipe_notes : forall s c, t_notes (resolve_recipe_told env msg s c) = [].
Proof.
  intros s c. unfold resolve_recipe_told. destruct (env_resolve env s (recipe c)) as [[p o]|]; [|reflexivity].
  destruct (path_eqb p empty_path); [reflexivity|]. now destruct (env_configure env p (comp_config c)).
Qed.

Lemma recipe_thrown : forall s c m, t_result (resolve_recipe_told env msg s c) = Thrown m ->
  (env_resolve env s (recipe c) = None /\ m = lit "Faild to map command `" ++ path_string (recipe c) ++ lit "`") \/
  exists p o, env_resolve env s (recipe c) = Some (p, o) /\ env_configure env p (comp_config c) = None /\
    m = msg_configure msg p (comp_config c) /\ In (RecipeRun p) (t_events (resolve_recipe_told env msg s c)).
Proof.
  intros s c m. unfold resolve_recipe_told. destruct (env_resolve env s (recipe c)) as [[p o]|].
  - destruct (path_eqb p empty_path); [discriminate|]. destruct (env_configure env p (comp_config c)) eqn:E; [discriminate|].
    intro H. injection H as <-. right. exists p, o. repeat split; [exact E|]. now left.
  - intro H. injection H as <-. now left.
Qed.

Lemma recipe_some : forall s c, t_result (resolve_recipe_told env msg s c) <> NoResult.
Proof.
  intros s c. unfold resolve_recipe_told. destruct (env_resolve env s (recipe c)) as [[p o]|]; [|discriminate].
  destruct (path_eqb p empty_path); [discriminate|]. destruct (env_configure env p (comp_config c)); discriminate.
Qed.

Lemma recipes_notes : forall s c, t_notes (resolve_recipes_told env msg s c) = [].
Proof.
  intros s c. unfold resolve_recipes_told. rewrite notes_then, recipe_notes. destruct (t_result _); [|reflexivity..].
  rewrite notes_then, notes_map.
  - destruct (t_result _); reflexivity.
  - intro e. rewrite notes_then, recipe_notes. destruct (t_result _); reflexivity.
Qed.

Lemma recipes_some : forall s c, t_result (resolve_recipes_told env msg s c) <> NoResult.
Proof.
  intros s c H. unfold resolve_recipes_told in H. apply nothing_then in H. destruct H as [H | (d & _ & H)]; [exact (recipe_some s _ H)|].
  apply nothing_then in H. destruct H as [H | (l & _ & H)]; [|discriminate]. revert H. apply nothing_map. intros e H.
  apply nothing_then in H. destruct H as [H | (x & _ & H)]; [exact (recipe_some s _ H)|discriminate].
Qed.

Lemma recipes_thrown : forall s c m, t_result (resolve_recipes_told env msg s c) = Thrown m ->
  configuration_problem env msg s (t_events (resolve_recipes_told env msg s c)) c m.
Proof.
  intros s c m H. unfold resolve_recipes_told in H. apply thrown_then in H. destruct H as [H | (d & E & H)].
  - apply recipe_thrown in H. destruct H as [[R ->] | (p & o & R & C & -> & I)].
    + apply no_recipe; [now left|exact R].
    + apply (recipe_failed _ _ _ _ _ (dir_compiler c) p o); [now left|exact R| |exact C].
      unfold resolve_recipes_told. apply events_then. now left.
  - apply thrown_then in H. destruct H as [H | (l & _ & H)]; [|discriminate].
    apply thrown_map in H. destruct H as ([name [kind x]] & I & H & Ev). cbn [fst snd] in H.
    assert (Cx : configured_compiler c x) by (right; now exists name, kind).
    apply thrown_then in H. destruct H as [H | (y & _ & H)]; [|discriminate].
    apply recipe_thrown in H. destruct H as [[R ->] | (p & o & R & C & -> & J)].
    + now apply no_recipe.
    + apply (recipe_failed _ _ _ _ _ x p o); auto. unfold resolve_recipes_told. apply events_then. right. exists d.
      split; [exact E|]. apply events_then. left. apply Ev. cbn [snd]. apply events_then. left. exact J.
Qed.

Lemma recipes_kept : forall s c c', t_result (resolve_recipes_told env msg s c) = Result c' ->
  tree_loader c' = tree_loader c /\ map fst (info_loaders c') = map fst (info_loaders c).
Proof.
  intros s c c' H. unfold resolve_recipes_told in H. apply result_then in H. destruct H as (d & _ & H).
  apply result_then in H. destruct H as (l & H & E). injection E as <-. cbn [tree_loader info_loaders]. split; [reflexivity|].
  apply result_map in H. induction H as [|e y l1 l2 R H IH]; [reflexivity|]. cbn [map]. f_equal; [|exact IH].
  apply result_then in R. destruct R as (x & _ & R). injection R as <-. reflexivity.
Qed.

Lemma problem_more : forall s evs evs' c m, (forall e, In e evs -> In e evs') ->
  configuration_problem env msg s evs c m -> configuration_problem env msg s evs' c m.
Proof.
  intros s evs evs' c m H P. destruct P as [x C R | x p o C R I F | ext name I N].
  - now apply no_recipe.
  - apply (recipe_failed _ _ _ _ _ x p o); auto.
  - now apply (no_loader _ _ _ _ _ ext).
Qed.

(** Before the files are known *)
Definition early_problem (a : arguments) (evs : list event) (m : str) : Prop :=
  (exists c, snd (read_configuration env a) = Some c /\ configuration_problem env msg (source_directory a) evs c m) \/
  exists t l d, snd (env_scan env t l d (source_directory a) (target_directory a)) = None /\
    m = scan_message (msg_scan msg t l d (source_directory a) (target_directory a)).

Lemma body_told_form : forall a, has_option a Help = false -> has_option a Version = false -> has_option a About = false ->
  has_option a ConfigDump = false ->
  exists evs, plain evs /\
  ((exists m, main_body_told env msg a = (evs, [], Thrown m) /\ early_problem a evs m) \/
   exists fs, let evs' := evs ++ [Scanned (source_directory a) (target_directory a) fs] in
     (exists m, load_told fs = Thrown m /\ main_body_told env msg a = (evs', [], Thrown m)) \/
     (load_told fs = NoResult /\ main_body_told env msg a = (evs', [], NoResult)) \/
     exists ts g, load_told fs = Result (ts, g) /\
       main_body_told env msg a = (evs' ++ t_events (finish_told env msg a ts g),
         LoadedNote (length g) (length ts) :: t_notes (finish_told env msg a ts g), t_result (finish_told env msg a ts g))).
Proof.
  intros a H1 H2 H3 H4. unfold main_body_told. rewrite H1, H2, H3, H4. unfold read_configuration_told.
  pose proof (plain_read env a) as Q1.
  destruct (read_configuration env a) as [e1 r1] eqn:Ec. cbn [fst] in Q1.
  assert (exists cfg, r1 = Some cfg) as (cfg & ->).
  { unfold read_configuration in Ec. destruct (has_option a ConfigDefault); injection Ec as _ <-; eexists; reflexivity. }
  cbn [or_thrown t_then].
  pose proof (plain_resolve_all env (source_directory a) cfg) as Q2. rewrite <- (erase_recipes env msg) in Q2.
  pose proof (recipes_notes (source_directory a) cfg) as N2. pose proof (recipes_some (source_directory a) cfg) as S2.
  pose proof (recipes_thrown (source_directory a) cfg) as T2. pose proof (recipes_kept (source_directory a) cfg) as K2.
  destruct (resolve_recipes_told env msg (source_directory a) cfg) as [[e2 n2] r2]. unfold erase, t_events, t_notes, t_result in *.
  cbn [fst snd] in *. subst n2. assert (Q : plain (e1 ++ e2)) by now apply plain_app.
  destruct r2 as [cfg'|m|]; [| |contradiction].
  2:{ exists (e1 ++ e2). split; [exact Q|]. left. exists m. split; [reflexivity|]. left. exists cfg. rewrite Ec.
      split; [reflexivity|]. apply (problem_more _ e2); [intros e I; apply in_or_app; now right|]. now apply T2. }
  destruct (K2 cfg' eq_refl) as [Kt Kl]. clear T2 K2 S2. cbn [t_then].
  destruct (map_loaders_told cfg') as [ls|m|] eqn:M; cbn [t_lift t_then].
  3:{ unfold map_loaders_told in M. destruct (find _ _); [discriminate|]. destruct (map_loaders cfg'); discriminate. }
  2:{ exists (e1 ++ e2). split; [exact Q|]. left. exists m. split; [cbn; now rewrite app_nil_r|]. left. exists cfg. rewrite Ec.
      split; [reflexivity|]. unfold map_loaders_told in M.
      destruct (find (unconfigured cfg') (file_info_loaders (tree_loader cfg'))) as [[ext name]|] eqn:F.
      - injection M as <-. apply find_unconfigured in F. cbn [snd] in F. rewrite Kt, Kl in F. destruct F as [I N].
        exact (no_loader env msg _ _ cfg ext name I N).
      - destruct (map_loaders cfg') eqn:L; [discriminate|]. apply map_loaders_none in L. destruct L as (e & L). congruence. }
  unfold load_tree_told.
  destruct (env_scan env (tree_loader cfg') ls (dir_compiler cfg') (source_directory a) (target_directory a)) as [runs r] eqn:Sc.
  exists (e1 ++ e2 ++ map RecipeRun runs).
  assert (Q3 : plain (map RecipeRun runs)) by (intros e I; apply in_map_iff in I; destruct I as (p & <- & _); exact Logic.I).
  split; [rewrite app_assoc; now apply plain_app|].
  destruct r as [fs|]; cbn [or_thrown t_then].
  2:{ left. eexists. split; [reflexivity|]. right. eexists _, _, _. split; [rewrite Sc; reflexivity|reflexivity]. }
  right. exists fs. cbv zeta. cbn [t_emit t_then t_lift].
  destruct (load_told fs) as [[ts g]|m|] eqn:L; cbn [t_then t_note t_done fst snd app].
  - right. right. exists ts, g. split; [reflexivity|].
    change (if has_option a ListTargets then _ else _) with (finish_told env msg a ts g).
    destruct (finish_told env msg a ts g) as [[ef nf] rf]. cbn [fst snd app]. rewrite <- !app_assoc. reflexivity.
  - left. exists m. split; [reflexivity|]. cbn. rewrite <- !app_assoc. reflexivity.
  - right. left. split; [reflexivity|]. cbn. rewrite <- !app_assoc. reflexivity.
Qed.

Lemma process_thrown : forall g d f l m, t_result (process_told env msg g d f l) = Thrown m ->
  (l = None /\ m = cycle_message) \/
  exists rs tasks, l = Some (rs, tasks) /\ snd (env_process env g rs tasks d f) = None /\ m = msg_process msg g rs tasks d f /\
    In (Processed g rs tasks d f (fst (env_process env g rs tasks d f))) (t_events (process_told env msg g d f l)).
Proof.
  intros g d f [[rs tasks]|] m H; [|left; injection H as <-; auto]. right. exists rs, tasks. split; [reflexivity|].
  cbn [process_told] in *. destruct (env_process env g rs tasks d f) as [tr [n|]]; [discriminate|].
  injection H as <-. split; [reflexivity|]. split; [reflexivity|]. now left.
Qed.

Lemma process_nothing : forall g d f l, t_result (process_told env msg g d f l) <> NoResult.
Proof.
  intros g d f [[rs tasks]|]; [|discriminate]. cbn [process_told]. destruct (env_process env g rs tasks d f) as [tr [n|]]; discriminate.
Qed.

Lemma process_notes : forall g d f l, t_notes (process_told env msg g d f l) = [].
Proof.
  intros g d f [[rs tasks]|]; [|reflexivity]. cbn [process_told]. destruct (env_process env g rs tasks d f) as [tr [n|]]; reflexivity.
Qed.

Lemma process_result : forall g d f l n, t_result (process_told env msg g d f l) = Result n ->
  exists rs tasks, l = Some (rs, tasks) /\ snd (env_process env g rs tasks d f) = Some n.
Proof.
  intros g d f [[rs tasks]|] n H; [|discriminate]. exists rs, tasks. split; [reflexivity|].
  cbn [process_told] in H. destruct (env_process env g rs tasks d f) as [tr [n'|]]; [|discriminate]. injection H as <-. reflexivity.
Qed.

Lemma target_told_notes : forall ts g td d f name, t_notes (compile_target_told env msg ts g td d f name) = [].
Proof.
  intros. unfold compile_target_told. rewrite notes_then. destruct (find_target ts td name); [|reflexivity].
  cbn [or_thrown t_lift t_notes t_result fst snd app]. apply process_notes.
Qed.

Lemma finish_nothing : forall a ts g, t_result (finish_told env msg a ts g) <> NoResult.
Proof.
  intros a ts g. unfold finish_told. destruct (has_option a ListTargets); [discriminate|].
  destruct (has_option a PrintDepGraph); [discriminate|]. unfold build_told, timed_compile, compile_targets_told.
  destruct (option_given a Targets) as [[p|names|]|]; intro H; apply nothing_then in H;
    destruct H as [H | (n & _ & H)]; try discriminate; try (exact (process_nothing _ _ _ _ H)).
  apply nothing_then in H. destruct H as [H | (ns & _ & H)]; [|discriminate]. revert H. apply nothing_map.
  intros name H. unfold compile_target_told in H. apply nothing_then in H.
  destruct H as [H | (t & _ & H)]; [|exact (process_nothing _ _ _ _ H)].
  destruct (find_target ts (target_directory a) name); discriminate.
Qed.

(** The notes after loading *)
Lemma finish_notes : forall a ts g, t_notes (finish_told env msg a ts g) =
  match t_result (finish_told env msg a ts g) with
  | Result _ =>
      if has_option a ListTargets then [] else if has_option a PrintDepGraph then [] else
      match option_given a Targets with
      | Some (PathsValue names) =>
          match t_result (compile_targets_told env msg ts g (target_directory a) (has_option a DryRun) (has_option a ForceRebuild) names) with
          | Result n => [CompletedNote n]
          | _ => []
          end
      | _ =>
          match t_result (process_told env msg g (has_option a DryRun) (has_option a ForceRebuild) (make_task_list g)) with
          | Result n => [CompletedNote n]
          | _ => []
          end
      end
  | _ => []
  end.
Proof.
  assert (T : forall x : tio nat, t_notes x = [] -> t_notes (timed_compile x) =
    match t_result (timed_compile x) with Result _ => match t_result x with Result n => [CompletedNote n] | _ => [] end | _ => [] end).
  { intros [[es ns] [n|m|]] H; cbn in H; subst; reflexivity. }
  intros a ts g. unfold finish_told. destruct (has_option a ListTargets); [reflexivity|].
  destruct (has_option a PrintDepGraph); [reflexivity|]. unfold build_told.
  destruct (option_given a Targets) as [[p|names|]|]; try (apply T, process_notes).
  apply T. unfold compile_targets_told. rewrite notes_then, notes_map; [destruct (t_result _); reflexivity|].
  intro name. apply target_told_notes.
Qed.
End Early.

Lemma command_line_told_spec : forall accepts argv, (forall s, accepts BuildId s = false -> id_of_string s = None) ->
  match command_line_told accepts argv with
  | Result a => command_line (option_table accepts) argv = Some a
  | Thrown m => command_line (option_table accepts) argv = None /\ argument_problem accepts argv m
  | NoResult => False
  end.
Proof. intros accepts argv H. exact (collect_told_spec accepts H argv []). Qed.

Section Run.
Variables (env : environment) (msg : messages) (accepts : cmd_option -> str -> bool) (argv : list str).
Hypothesis Hid : forall s, accepts BuildId s = false -> id_of_string s = None.
Let events := fst (main env accepts argv).
Hypothesis Hg : genuine env events.

Lemma told_rejected : command_line (option_table accepts) argv = None ->
  exists m, main_told env msg accepts argv = ([], [ErrorNote m], Some 255%Z) /\ argument_problem accepts argv m.
Proof.
  intro E. pose proof (command_line_told_spec accepts argv Hid) as C. unfold main_told.
  destruct (command_line_told accepts argv) as [a|m|]; [congruence| |destruct C].
  exists m. split; [reflexivity|]. apply C.
Qed.

Lemma told_accepted : forall a, command_line (option_table accepts) argv = Some a ->
  main_told env msg accepts argv =
  match main_body_told env msg a with
  | (es, ns, Result _) => (es, ns, Some 0%Z)
  | (es, ns, Thrown m) => (es, ns ++ [ErrorNote m], Some 255%Z)
  | (es, ns, NoResult) => (es, ns, None)
  end.
Proof.
  intros a E. pose proof (command_line_told_spec accepts argv Hid) as C. unfold main_told.
  destruct (command_line_told accepts argv) as [b|m|]; [|destruct C; congruence|destruct C].
  rewrite E in C. injection C as <-. cbn [t_lift t_then]. destruct (main_body_told env msg a) as [[es ns] r]. reflexivity.
Qed.

Lemma body_events : forall a, command_line (option_table accepts) argv = Some a -> events = t_events (main_body_told env msg a).
Proof.
  intros a E. unfold events. rewrite (main_accepted env accepts argv a E). cbn [fst].
  rewrite <- (erase_body env msg a). reflexivity.
Qed.

Lemma early_end : forall a, (has_option a Help = false /\ has_option a Version = false /\ has_option a About = false /\ has_option a ConfigDump = false) \/
  (t_notes (main_body_told env msg a) = [] /\ t_result (main_body_told env msg a) = Result tt /\
   exists o, In o [Help; Version; About; ConfigDump] /\ has_option a o = true).
Proof.
  intro a. unfold main_body_told.
  destruct (has_option a Help) eqn:H1; [right; split; [reflexivity|]; split; [reflexivity|]; exists Help; cbn; auto|].
  destruct (has_option a Version) eqn:H2; [right; split; [reflexivity|]; split; [reflexivity|]; exists Version; cbn; auto|].
  destruct (has_option a About) eqn:H3; [right; split; [reflexivity|]; split; [reflexivity|]; exists About; cbn; auto|].
  destruct (has_option a ConfigDump) eqn:H4; [right|left; auto].
  unfold read_configuration_told, read_configuration.
  split; [destruct (has_option a ConfigDefault); reflexivity|]. split; [destruct (has_option a ConfigDefault); reflexivity|].
  exists ConfigDump. cbn. auto 6.
Qed.

Theorem told_same : exists notes, main_told env msg accepts argv = (events, notes, Some (snd (main env accepts argv))).
Proof.
  destruct (command_line (option_table accepts) argv) as [a|] eqn:E.
  2:{ destruct (told_rejected E) as (m & -> & _). unfold events. rewrite (main_rejected env accepts argv E). now exists [ErrorNote m]. }
  rewrite (told_accepted a E). pose proof (body_events a E) as Ev. unfold events in *. rewrite Ev.
  rewrite (main_accepted env accepts argv a E). cbn [snd]. rewrite <- (erase_body env msg a).
  assert (N : t_result (main_body_told env msg a) <> NoResult).
  { destruct (early_end a) as [(H1 & H2 & H3 & H4) | (_ & R & _)]; [|congruence].
    destruct (body_told_form env msg a H1 H2 H3 H4) as (evs & Q & [(m & B & _) | (fs & [(m & _ & B) | [(L & B) | (ts & g & _ & B)]])]);
      rewrite B; try discriminate.
    - exfalso. pose proof (load_told_spec fs) as S. rewrite L in S. apply S.
      apply (genuine_files _ _ Hg (source_directory a) (target_directory a)). unfold events. rewrite Ev, B. apply in_or_app. right. now left.
    - apply finish_nothing. }
  destruct (main_body_told env msg a) as [[es ns] [x|m|]]; cbn in *; [eexists; reflexivity..|congruence].
Qed.

Definition notes : list note := snd (fst (main_told env msg accepts argv)).

(** No message in case of success *)
Theorem told_silent : snd (main env accepts argv) = 0%Z -> forall n, In n notes -> ~ is_error n.
Proof.
  intros Z n I. unfold notes in I. destruct (command_line (option_table accepts) argv) as [a|] eqn:E.
  2:{ rewrite (main_rejected env accepts argv E) in Z. discriminate. }
  destruct told_same as (ns & S). rewrite Z in S. rewrite (told_accepted a E) in *.
  destruct (early_end a) as [(H1 & H2 & H3 & H4) | (N & _)].
  - destruct (body_told_form env msg a H1 H2 H3 H4) as (evs & Q & [(m & B & _) | (fs & [(m & _ & B) | [(L & B) | (ts & g & _ & B)]])]);
      rewrite B in *; try discriminate.
    rewrite finish_notes in *. destruct (t_result (finish_told env msg a ts g)); [|discriminate..]. cbn [fst snd] in I.
    destruct I as [<- | I]; [exact (fun F => F)|].
    destruct (has_option a ListTargets); [destruct I|]. destruct (has_option a PrintDepGraph); [destruct I|].
    destruct (option_given a Targets) as [[p|names|]|]; destruct (t_result _); try destruct I as [<- | []]; try destruct I; exact (fun F => F).
  - destruct (main_body_told env msg a) as [[es ns'] [x|m|]]; cbn in *; subst ns'; [destruct I|discriminate..].
Qed.

Hypothesis Hx : explained env msg events.

Lemma process_reason : forall g rs tasks d f tr, In (Processed g rs tasks d f tr) events ->
  snd (env_process env g rs tasks d f) = None -> reason env msg accepts argv events (msg_process msg g rs tasks d f).
Proof.
  intros g rs tasks d f tr I N. destruct (Hx _ _ _ _ _ _ I N) as (ws & cs & s & u & o & other & W & Run & Ph & Fi & O & M).
  destruct (processed_list env accepts argv Hg g rs tasks d f tr I) as (s' & t' & fs' & ts' & _ & _ & P' & TL).
  destruct (task_list_facts _ _ P' _ _ TL) as (Setup & Num & _).
  apply run_exec in Run. destruct (threw_failed _ _ _ _ Setup W _ _ u Run Ph) as (Iu & _).
  destruct (Num u Iu) as (p & Np & _). destruct o; [congruence| |].
  - unfold task_message in M. unfold numbered in Np. rewrite Np in M. rewrite M.
    exact (not_compiled env msg accepts argv events g rs tasks d f tr u p I Fi Np).
  - exact (interrupted env msg accepts argv events g rs tasks d f tr u I Fi).
Qed.

Theorem told_reason : snd (main env accepts argv) <> 0%Z ->
  exists l m, notes = l ++ [ErrorNote m] /\ (forall n, In n l -> ~ is_error n) /\ reason env msg accepts argv events m.
Proof.
  intro Z. unfold notes. destruct (command_line (option_table accepts) argv) as [a|] eqn:E.
  2:{ destruct (told_rejected E) as (m & -> & P). exists [], m. split; [reflexivity|]. split; [intros n []|]. now apply wrong_argument. }
  destruct told_same as (ns & S). rewrite S. cbn [fst snd]. rewrite (told_accepted a E) in S.
  set (status := snd (main env accepts argv)) in *. clearbody status. pose proof (body_events a E) as Ev.
  destruct (early_end a) as [(H1 & H2 & H3 & H4) | (_ & R & _)].
  2:{ destruct (main_body_told env msg a) as [[es ns'] [x|m|]]; cbn in R; try discriminate. injection S as _ _ S. congruence. }
  destruct (body_told_form env msg a H1 H2 H3 H4) as (evs & Q & [(m & B & P) | (fs & [(m & L & B) | [(L & B) | (ts & g & L & B)]])]);
    rewrite B in S, Ev; cbn [t_events fst snd] in Ev; cbn [app] in S.
  - injection S as _ <- _. exists [], m. split; [reflexivity|]. split; [intros n []|].
    destruct P as [(c & Rc & P) | (t & l & d & P & ->)].
    + rewrite Ev. exact (wrong_configuration env msg accepts argv evs a c m E Rc P).
    + apply not_loaded; [exact E|exact P|]. intros s td fs I. rewrite Ev in I. exact (Q _ I).
  - injection S as _ <- _. exists [], m. split; [reflexivity|]. split; [intros n []|].
    assert (J : In (Scanned (source_directory a) (target_directory a) fs) events) by (rewrite Ev; apply in_or_app; right; now left).
    apply (no_project _ _ _ _ _ _ _ fs m J). pose proof (load_told_spec fs (proj1 (genuine_files _ _ Hg _ _ _ J))) as P.
    rewrite L in P. apply P.
  - discriminate.
  - assert (J : In (Scanned (source_directory a) (target_directory a) fs) events)
      by (rewrite Ev; apply in_or_app; left; apply in_or_app; right; now left).
    pose proof (load_told_spec fs (proj1 (genuine_files _ _ Hg _ _ _ J))) as Lp. rewrite L in Lp.
    assert (Ef : forall e, In e (t_events (finish_told env msg a ts g)) -> In e events)
      by (intros e I; rewrite Ev; apply in_or_app; now right).
    destruct (t_result (finish_told env msg a ts g)) as [x|m|] eqn:T; [injection S as _ _ S; congruence| |discriminate].
    injection S as _ <- _. exists [LoadedNote (length g) (length ts)], m.
    split; [rewrite finish_notes, T; reflexivity|]. split; [intros n [<- | []]; exact (fun F => F)|].
    pose proof (genuine_loaded env accepts argv Hg _ _ _ _ _ J Lp) as Ld.
    unfold finish_told in T, Ef. destruct (has_option a ListTargets); [discriminate|]. destruct (has_option a PrintDepGraph); [discriminate|].
    unfold build_told, timed_compile in T, Ef.
    assert (All : t_result (t_then (process_told env msg g (has_option a DryRun) (has_option a ForceRebuild) (make_task_list g)) (fun n => t_note (CompletedNote n))) = Thrown m ->
      (forall e, In e (t_events (t_then (process_told env msg g (has_option a DryRun) (has_option a ForceRebuild) (make_task_list g)) (fun n => t_note (CompletedNote n)))) -> In e events) ->
      reason env msg accepts argv events m).
    { clear T Ef. intros T Ef. apply thrown_then in T. destruct T as [T | (n & _ & T)]; [|discriminate].
      apply process_thrown in T. destruct T as [[N ->] | (rs & tasks & M & N & -> & I)].
      - destruct (make_task_list_spec _ _ Ld) as [[[p C] _]|[_ (rs' & tasks' & X & _)]]; [|congruence].
        exact (cyclic_graph env msg accepts argv events _ _ fs ts g p J Lp C).
      - apply (process_reason _ _ _ _ _ (fst (env_process env g rs tasks (has_option a DryRun) (has_option a ForceRebuild)))); [|exact N].
        apply Ef. apply events_then. left. exact I. }
    destruct (option_given a Targets) as [[p|names|]|] eqn:O; try (apply All; assumption). clear All.
    apply thrown_then in T. destruct T as [T | (n & _ & T)]; [|discriminate]. unfold compile_targets_told in T.
    apply thrown_then in T. destruct T as [T | (n & _ & T)]; [|discriminate]. apply thrown_map in T.
    destruct T as (name & In' & T & Et). unfold compile_target_told in T. apply thrown_then in T.
    destruct Ld as (Sc & Ld'). destruct T as [T | (t & T & K)].
    + destruct (find_target ts (target_directory a) name) eqn:F; [discriminate|]. injection T as <-.
      apply (no_target _ _ _ _ _ _ _ _ names name J); [apply (given_value accepts argv a E); exact O|exact In'|].
      intro D. apply in_map_iff in D. destruct D as ([k t] & Ek & D). cbn [fst] in Ek. subst k.
      apply (find_target_iff fs ts g _ _ _ Sc Lp) in D. congruence.
    + destruct (find_target ts (target_directory a) name) as [t'|] eqn:F; [|discriminate]. injection T as <-.
      apply process_thrown in K. destruct K as [[N ->] | (rs & tasks & M & N & -> & I)].
      * apply (find_target_iff fs ts g _ _ _ Sc Lp) in F.
        destruct (make_target_task_list_spec _ _ (conj Sc Ld') (t_source t') (target_source_known _ _ _ _ _ Sc Lp F))
          as [[(q & _ & C) _]|[_ (rs' & tasks' & X & _)]]; [|congruence].
        exact (cyclic_graph env msg accepts argv events _ _ fs ts g q J Lp C).
      * apply (process_reason _ _ _ _ _ (fst (env_process env g rs tasks (has_option a DryRun) (has_option a ForceRebuild)))); [|exact N].
        apply Ef. apply events_then. left. unfold compile_targets_told. apply events_then. left. apply Et.
        unfold compile_target_told. apply events_then. right. exists t'. split; [rewrite F; reflexivity|exact I].
Qed.
End Run.

(** * Numbers *)

Lemma number_list : forall (g : file_list) vs (P : path -> Prop), NoDup (map fst g) -> NoDup vs ->
  (forall v, In v vs -> exists p, numbered g v p) -> (forall v p, numbered g v p -> (In v vs <-> P p)) ->
  (forall p, P p -> exists v, numbered g v p) ->
  exists l, lists P l /\ length l = length vs.
Proof.
  intros g vs P Ng Nv H1 H2 H3.
  assert (X : exists l, length l = length vs /\ NoDup l /\ forall p, In p l <-> exists v, In v vs /\ numbered g v p).
  { clear H2 H3. induction vs as [|v vs IH].
    - exists []. split; [reflexivity|]. split; [constructor|]. intro p. split; [intros []|intros (v & [] & _)].
    - inversion Nv as [|? ? Hv Nv' E]; subst. destruct (IH Nv') as (l & L & N & C); [intros u Hu; apply H1; now right|].
      destruct (H1 v (or_introl eq_refl)) as (p & Hp). exists (p :: l). split; [cbn; now rewrite L|]. split.
      + constructor; [|exact N]. intro I. apply C in I. destruct I as (u & Iu & Hu). apply Hv.
        replace v with u; [exact Iu|]. unfold numbered in *.
        apply (proj1 (NoDup_nth_error (map fst g)) Ng); [|congruence]. apply nth_error_Some. congruence.
      + intro q. split.
        * intros [<- | I]; [exists v; split; [now left|exact Hp]|]. apply C in I. destruct I as (u & Iu & Hu). exists u. split; [now right|exact Hu].
        * intros (u & [<- | Iu] & Hu); [left; unfold numbered in *; congruence|]. right. apply C. now exists u. }
  destruct X as (l & L & N & C). exists l. split; [|exact L]. split; [exact N|]. intro p. rewrite C. split.
  - intros (v & Iv & Hv). now apply (H2 v p Hv).
  - intro Pp. destruct (H3 p Pp) as (v & Hv). exists v. split; [now apply (H2 v p Hv)|exact Hv].
Qed.

Lemma loaded_keys : forall fs ts g, scanned fs -> load_project fs = Loaded (ts, g) -> lists (available fs) (map fst g).
Proof.
  intros fs ts g S L. destruct (loaded_targets fs ts g S L) as (_ & _ & (Sg & Kg & _)). split; [now apply sorted_nodup|].
  intro p. rewrite <- Kg, known_in. reflexivity.
Qed.

Lemma loaded_count : forall fs ts g, scanned fs -> load_project fs = Loaded (ts, g) -> length ts = length (declared_targets fs).
Proof.
  intros fs ts g S L. destruct (loaded_targets fs ts g S L) as (St & Et & _).
  assert (ND : NoDup (map fst (declared_targets fs))).
  { destruct (load_project_graph fs S) as [[_ [n [X _]]]|[H _]]; [congruence|exact H]. }
  assert (ND' : NoDup (map fst ts)) by (apply sorted_nodup; exact St).
  apply Nat.le_antisymm; rewrite <- 2(map_length fst); apply NoDup_incl_length; try assumption;
    intros k J; apply in_map_iff in J; destruct J as (x & <- & J); apply in_map; now apply Et.
Qed.

Lemma builds_numbered : forall fs g p, loaded fs g -> builds fs p -> exists v, numbered g v p.
Proof.
  intros fs g p P B. pose proof (proj2 (builds_sources _ _ P p) B) as (i & Ip & _). exact (in_numbered g p i Ip).
Qed.

Lemma fold_add : forall l k, fold_left Nat.add l k = k + fold_right Nat.add 0 l.
Proof. induction l as [|x l IH]; intro k; cbn; [lia|]. rewrite IH. lia. Qed.

Section Counts.
Variables (env : environment) (msg : messages) (accepts : cmd_option -> str -> bool) (argv : list str).
Hypothesis Hid : forall s, accepts BuildId s = false -> id_of_string s = None.
Let events := fst (main env accepts argv).
Hypothesis Hg : genuine env events.

(** The notes, if the files are known *)
Lemma told_form : forall s td fs, In (Scanned s td fs) events ->
  exists a, command_line (option_table accepts) argv = Some a /\ s = source_directory a /\ td = target_directory a /\
  ((exists m, load_told fs = Thrown m /\ notes env msg accepts argv = [ErrorNote m]) \/
   exists ts g, load_project fs = Loaded (ts, g) /\
     notes env msg accepts argv = LoadedNote (length g) (length ts) :: t_notes (finish_told env msg a ts g) ++
       match t_result (finish_told env msg a ts g) with Thrown m => [ErrorNote m] | _ => [] end /\
     (snd (main env accepts argv) = 0%Z -> exists x, t_result (finish_told env msg a ts g) = Result x) /\
     forall e, In e (t_events (finish_told env msg a ts g)) -> In e events).
Proof.
  intros s td fs I. unfold events in I.
  destruct (command_line (option_table accepts) argv) as [a|] eqn:E.
  2:{ rewrite (main_rejected env accepts argv E) in I. destruct I. }
  exists a. split; [reflexivity|].
  destruct (told_same env msg accepts argv Hid Hg) as (ns & S). unfold notes. rewrite S. cbn [fst snd].
  set (status := snd (main env accepts argv)) in *. clearbody status.
  rewrite (told_accepted env msg accepts argv Hid a E) in S. pose proof (body_events env msg accepts argv a E) as Ev.
  fold events in Ev, I.
  destruct (scanned_event env accepts argv s td fs I) as (a' & evs' & E' & _ & -> & -> & No & _).
  rewrite E in E'. injection E' as <-. split; [reflexivity|]. split; [reflexivity|].
  assert (Only : forall evs l fs', plain evs -> events = (evs ++ [Scanned (source_directory a) (target_directory a) fs']) ++ l ->
    (forall s' t' f', ~ In (Scanned s' t' f') l) -> fs = fs').
  { intros evs l fs' Q Eq N. rewrite Eq in I. exact (proj2 (proj2 (scanned_unique evs _ _ fs' l Q N _ _ _ I))). }
  destruct (body_told_form env msg a) as (evs & Q & [(m & B & P) | (fs' & [(m & L & B) | [(L & B) | (ts & g & L & B)]])]);
    try (apply No; cbn; tauto); rewrite B in S, Ev; cbn [t_events fst snd] in Ev; cbn [app] in S.
  - rewrite Ev in I. destruct (Q _ I).
  - rewrite <- app_nil_r in Ev. rewrite (Only evs [] fs' Q Ev ltac:(intros ? ? ? [])). left. exists m. split; [exact L|].
    injection S as _ <- _. reflexivity.
  - discriminate.
  - assert (Fs : fs = fs').
    { apply (Only evs _ fs' Q Ev). intros s' t' f' J. apply (finish_scanned env a ts g s' t' f').
      unfold finish_phase. unfold finish_told in J.
      destruct (has_option a ListTargets); [exact J|]. destruct (has_option a PrintDepGraph); [exact J|].
      rewrite <- (erase_build env msg a ts g). exact J. }
    subst fs'. right. exists ts, g. pose proof (load_told_spec fs (proj1 (genuine_files _ _ Hg _ _ _ I))) as Lp.
    rewrite L in Lp. split; [exact Lp|].
    assert (Ef : forall e, In e (t_events (finish_told env msg a ts g)) -> In e events)
      by (intros e J; rewrite Ev; apply in_or_app; now right).
    destruct (t_result (finish_told env msg a ts g)) as [x|m|]; [| |discriminate].
    + injection S as _ <- _. split; [rewrite app_nil_r; reflexivity|]. split; [intros _; now exists x|exact Ef].
    + injection S as _ <- S. split; [reflexivity|]. split; [intro Z; congruence|exact Ef].
Qed.

Theorem told_loaded : forall n k, In (LoadedNote n k) (notes env msg accepts argv) ->
  exists s td fs files, In (Scanned s td fs) events /\ lists (available fs) files /\ n = length files /\
    k = length (declared_targets fs).
Proof.
  intros n k I.
  assert (J : exists s td fs, In (Scanned s td fs) events).
  { destruct (command_line (option_table accepts) argv) as [a|] eqn:E.
    2:{ destruct (told_rejected env msg accepts argv Hid E) as (m & T & _). unfold notes in I. rewrite T in I.
        destruct I as [I | []]. discriminate. }
    unfold notes in I. rewrite (told_accepted env msg accepts argv Hid a E) in I.
    pose proof (body_events env msg accepts argv a E) as Ev. fold events in Ev.
    destruct (early_end env msg a) as [(H1 & H2 & H3 & H4) | (N & R & _)].
    2:{ destruct (main_body_told env msg a) as [[es ns'] [x|m|]]; cbn in *; subst ns'; try discriminate. destruct I. }
    destruct (body_told_form env msg a H1 H2 H3 H4) as (evs & Q & [(m & B & P) | (fs & [(m & L & B) | [(L & B) | (ts & g & L & B)]])]);
      rewrite B in I, Ev; cbn [t_events fst snd app] in *; try (destruct I as [I | []]; discriminate); try (destruct I; fail).
    do 3 eexists. rewrite Ev. apply in_or_app. left. apply in_or_app. right. now left. }
  destruct J as (s & td & fs & J). destruct (told_form s td fs J) as (a & _ & _ & _ & [(m & _ & T) | (ts & g & L & T & _)]);
    rewrite T in I; [destruct I as [I | []]; discriminate|].
  exists s, td, fs, (map fst g). split; [exact J|]. pose proof (proj1 (genuine_files _ _ Hg _ _ _ J)) as Sc.
  split; [exact (loaded_keys fs ts g Sc L)|]. rewrite map_length, <- (loaded_count fs ts g Sc L).
  destruct I as [I | I]; [injection I as <- <-; split; reflexivity|]. exfalso. apply in_app_or in I. destruct I as [I | I].
  - rewrite finish_notes in I. destruct (t_result (finish_told env msg a ts g)); [|destruct I..].
    destruct (has_option a ListTargets); [destruct I|]. destruct (has_option a PrintDepGraph); [destruct I|].
    destruct (option_given a Targets) as [[p|names|]|]; destruct (t_result _); cbn in I; intuition discriminate.
  - destruct (t_result (finish_told env msg a ts g)); cbn in I; intuition discriminate.
Qed.

Theorem told_tree : forall s td fs ts g, In (Scanned s td fs) events -> load_project fs = Loaded (ts, g) ->
  exists files rest, lists (available fs) files /\
    notes env msg accepts argv = LoadedNote (length files) (length (declared_targets fs)) :: rest /\
    forall n k, ~ In (LoadedNote n k) rest.
Proof.
  intros s td fs ts g J L. pose proof (proj1 (genuine_files _ _ Hg _ _ _ J)) as Sc.
  destruct (told_form s td fs J) as (a & _ & _ & _ & [(m & Lt & T) | (ts' & g' & L' & T & _)]).
  { pose proof (load_told_spec fs Sc) as Lp. rewrite Lt in Lp. destruct Lp as ((e & Lp) & _). congruence. }
  rewrite L in L'. injection L' as <- <-. exists (map fst g). eexists. split; [exact (loaded_keys fs ts g Sc L)|].
  rewrite map_length, <- (loaded_count fs ts g Sc L). split; [exact T|]. intros n k I. apply in_app_or in I. destruct I as [I | I].
  - rewrite finish_notes in I. destruct (t_result (finish_told env msg a ts g)); [|destruct I..].
    destruct (has_option a ListTargets); [destruct I|]. destruct (has_option a PrintDepGraph); [destruct I|].
    destruct (option_given a Targets) as [[p|names|]|]; destruct (t_result _); cbn in I; intuition discriminate.
  - destruct (t_result (finish_told env msg a ts g)); cbn in I; intuition discriminate.
Qed.

(** How many tasks there are for everything *)
Lemma count_all : forall s td fs ts g d f n, In (Scanned s td fs) events -> load_project fs = Loaded (ts, g) ->
  (forall e, In e (t_events (process_told env msg g d f (make_task_list g))) -> In e events) ->
  t_result (process_told env msg g d f (make_task_list g)) = Result n ->
  exists l, lists (builds fs) l /\ n = length l.
Proof.
  intros s td fs ts g d f n J L Ev R. apply process_result in R. destruct R as (rs & tasks & M & R).
  pose proof (genuine_loaded env accepts argv Hg _ _ _ _ _ J L) as P.
  assert (I : In (Processed g rs tasks d f (fst (env_process env g rs tasks d f))) events).
  { apply Ev. rewrite M. cbn [process_told]. destruct (env_process env g rs tasks d f) as [tr r]. apply events_then. left. now left. }
  destruct (genuine_tasks _ _ Hg _ _ _ _ _ _ I) as (ws & cs & st & W & Run & Ph). rewrite R in Ph.
  destruct (project_built fs g rs tasks ws P M W cs _ st n Run Ph) as (Nd & En & St & _).
  destruct (task_list_facts _ _ P rs tasks (or_introl M)) as (Setup & Num & _). apply run_exec in Run.
  destruct (started_tasks _ _ _ _ Setup W _ _ Run) as [_ Sub].
  destruct (number_list g (started (fst (env_process env g rs tasks d f))) (builds fs)) as (l & Hl & Len).
  - exact (proj1 (loaded_keys fs ts g (proj1 P) L)).
  - exact Nd.
  - intros v Iv. apply Sub in Iv. destruct (Num v Iv) as (p & Np & _). now exists p.
  - exact St.
  - intros p B. exact (builds_numbered fs g p P B).
  - exists l. split; [exact Hl|congruence].
Qed.

(** How many there are for a target *)
Lemma count_target : forall s td fs ts g d f name n, In (Scanned s td fs) events -> load_project fs = Loaded (ts, g) ->
  (forall e, In e (t_events (compile_target_told env msg ts g td d f name)) -> In e events) ->
  t_result (compile_target_told env msg ts g td d f name) = Result n ->
  exists l, lists (part_of_target fs g td name) l /\ n = length l.
Proof.
  intros s td fs ts g d f name n J L Ev R. unfold compile_target_told in R. apply result_then in R. destruct R as (t & F & R).
  destruct (find_target ts td name) as [t'|] eqn:Ft; [|discriminate]. injection F as ->.
  apply process_result in R. destruct R as (rs & tasks & M & R).
  pose proof (genuine_loaded env accepts argv Hg _ _ _ _ _ J L) as P. pose proof (proj1 P) as Sc.
  assert (I : In (Processed g rs tasks d f (fst (env_process env g rs tasks d f))) events).
  { apply Ev. unfold compile_target_told. apply events_then. right. exists t. split; [rewrite Ft; reflexivity|]. rewrite M.
    cbn [process_told]. destruct (env_process env g rs tasks d f) as [tr r]. apply events_then. left. now left. }
  pose proof Ft as Ft0. apply (find_target_iff fs ts g _ name t Sc L) in Ft.
  pose proof (target_source_known fs ts g _ t Sc L Ft) as K.
  destruct (genuine_tasks _ _ Hg _ _ _ _ _ _ I) as (ws & cs & st & W & Run & Ph). rewrite R in Ph.
  destruct (target_built fs g rs tasks ws (t_source t) P K M W cs _ st n Run Ph) as (Nd & En & St & _).
  destruct (task_list_facts _ _ P rs tasks (or_intror (ex_intro _ _ (conj K M)))) as (Setup & Num & _). apply run_exec in Run.
  destruct (started_tasks _ _ _ _ Setup W _ _ Run) as [_ Sub].
  destruct (number_list g (started (fst (env_process env g rs tasks d f))) (part_of_target fs g td name)) as (l & Hl & Len).
  - exact (proj1 (loaded_keys fs ts g Sc L)).
  - exact Nd.
  - intros v Iv. apply Sub in Iv. destruct (Num v Iv) as (p & Np & _). now exists p.
  - intros v p Np. rewrite (St v p Np). split.
    + intros [B Re]. exists t. auto.
    + intros (t' & Ft' & B & Re). apply (find_target_iff fs ts g _ name t' Sc L) in Ft'. rewrite Ft0 in Ft'. injection Ft' as ->. auto.
  - intros p (t' & _ & B & _). exact (builds_numbered fs g p P B).
  - exists l. split; [exact Hl|congruence].
Qed.

Theorem told_counts : snd (main env accepts argv) = 0%Z -> no_query accepts argv ->
  exists s td fs ts g files n, In (Scanned s td fs) events /\ load_project fs = Loaded (ts, g) /\
    lists (available fs) files /\
    notes env msg accepts argv = [LoadedNote (length files) (length (declared_targets fs)); CompletedNote n] /\
    (~ given accepts argv Targets -> exists l, lists (builds fs) l /\ n = length l) /\
    forall names, has_value accepts argv Targets (PathsValue names) ->
      exists ls, Forall2 (fun name l => lists (part_of_target fs g td name) l) names ls /\ n = total ls.
Proof.
  intros Z N. destruct (status_form env accepts argv Z N) as (a0 & fs & _ & _ & E0 & J & _). fold events in J.
  destruct (told_form _ _ _ J) as (a & E & _ & Etd & [(m & L & T) | (ts & g & L & T & Ok & Ef)]).
  { exfalso. apply (told_silent env msg accepts argv Hid Hg Z (ErrorNote m)); [rewrite T; now left|exact Logic.I]. }
  destruct (Ok Z) as (x & R). rewrite R, app_nil_r, finish_notes, R in T.
  assert (Not : forall o, In o implemented_queries -> has_option a o = false)
    by (intros o Ho; apply (has_option_not accepts argv a o E), N, Ho).
  unfold finish_told in R, Ef. rewrite (Not ListTargets), (Not PrintDepGraph) in T, R, Ef by (cbn; tauto).
  pose proof (proj1 (genuine_files _ _ Hg _ _ _ J)) as Sc.
  exists (source_directory a0), (target_directory a0), fs, ts, g, (map fst g).
  rewrite map_length, <- (loaded_count fs ts g Sc L). unfold build_told, timed_compile in R, Ef.
  assert (All : (forall names, option_given a Targets <> Some (PathsValue names)) ->
    t_result (t_then (process_told env msg g (has_option a DryRun) (has_option a ForceRebuild) (make_task_list g)) (fun n => t_note (CompletedNote n))) = Result x ->
    (forall e, In e (t_events (t_then (process_told env msg g (has_option a DryRun) (has_option a ForceRebuild) (make_task_list g)) (fun n => t_note (CompletedNote n)))) -> In e events) ->
    notes env msg accepts argv = LoadedNote (length g) (length ts) ::
      match t_result (process_told env msg g (has_option a DryRun) (has_option a ForceRebuild) (make_task_list g)) with
      | Result n => [CompletedNote n] | _ => [] end ->
    exists n, In (Scanned (source_directory a0) (target_directory a0) fs) events /\ load_project fs = Loaded (ts, g) /\
      lists (available fs) (map fst g) /\
      notes env msg accepts argv = [LoadedNote (length g) (length ts); CompletedNote n] /\
      (~ given accepts argv Targets -> exists l, lists (builds fs) l /\ n = length l) /\
      forall names, has_value accepts argv Targets (PathsValue names) ->
        exists ls, Forall2 (fun name l => lists (part_of_target fs g (target_directory a0) name) l) names ls /\ n = total ls).
  { clear R Ef T. intros O R Ef T. apply result_then in R. destruct R as (n & R & _). rewrite R in T. exists n.
    split; [exact J|]. split; [exact L|]. split; [exact (loaded_keys fs ts g Sc L)|]. split; [exact T|]. split.
    - intros _. apply (count_all _ _ fs ts g _ _ n J L) in R; [exact R|]. intros e I. apply Ef. apply events_then. now left.
    - intros names V. apply (given_value accepts argv a E) in V. destruct (O _ V). }
  destruct (option_given a Targets) as [[p|names|]|] eqn:O; try (apply All; [discriminate|exact R|exact Ef|exact T]). clear All.
  apply result_then in R. destruct R as (n & R & _). rewrite R in T. exists n.
  split; [exact J|]. split; [exact L|]. split; [exact (loaded_keys fs ts g Sc L)|]. split; [exact T|]. split.
  { intro NG. exfalso. apply (has_option_not accepts argv a _ E) in NG. unfold has_option in NG. rewrite O in NG. discriminate. }
  intros names' V. apply (given_value accepts argv a E) in V. rewrite O in V. injection V as <-.
  unfold compile_targets_told in R. apply result_then in R. destruct R as (ns & R & Sum). injection Sum as <-.
  rewrite fold_add. cbn [Nat.add].
  assert (Ev : forall name, In name names -> forall e,
    In e (t_events (compile_target_told env msg ts g (target_directory a) (has_option a DryRun) (has_option a ForceRebuild) name)) -> In e events).
  { intros name In' e I. apply Ef. apply events_then. left. unfold compile_targets_told. apply events_then. left.
    clear T. revert ns R. clear Ef O. induction names as [|y names IH]; intros ns R; [destruct In'|]. cbn [t_map] in *.
    apply result_then in R. destruct R as (v & Rv & R). apply result_then in R. destruct R as (vs & Rs & _).
    apply events_then. destruct In' as [<- | In']; [left; exact I|]. right. exists v. split; [exact Rv|].
    apply events_then. left. exact (IH In' vs Rs). }
  apply result_map in R. clear T O Ef. rewrite Etd in *.
  induction R as [|name v names ns Rv R IH]; [exists []; split; [constructor|reflexivity]|].
  destruct IH as (ls & F & S); [intros name' In'; apply Ev; now right|].
  destruct (count_target _ _ fs ts g _ _ name v J L (Ev name (or_introl eq_refl)) Rv) as (l & Hl & ->).
  exists (l :: ls). split; [now constructor|]. cbn. now rewrite S.
Qed.

(** Nothing has been completed if there is an error. *)
Theorem told_incomplete : snd (main env accepts argv) <> 0%Z -> forall n, ~ In (CompletedNote n) (notes env msg accepts argv).
Proof.
  intros Z n I. destruct (command_line (option_table accepts) argv) as [a|] eqn:E.
  2:{ destruct (told_rejected env msg accepts argv Hid E) as (m & T & _). unfold notes in I. rewrite T in I.
      destruct I as [I | []]. discriminate. }
  destruct (told_same env msg accepts argv Hid Hg) as (ns & S). unfold notes in I. rewrite S in I. cbn [fst snd] in I.
  set (status := snd (main env accepts argv)) in *. clearbody status.
  rewrite (told_accepted env msg accepts argv Hid a E) in S.
  destruct (early_end env msg a) as [(H1 & H2 & H3 & H4) | (_ & R & _)].
  2:{ destruct (main_body_told env msg a) as [[es ns'] [x|m|]]; cbn in R; try discriminate. injection S as _ _ S. congruence. }
  destruct (body_told_form env msg a H1 H2 H3 H4) as (evs & Q & [(m & B & P) | (fs & [(m & L & B) | [(L & B) | (ts & g & L & B)]])]);
    rewrite B in S; cbn [app] in S; try discriminate; try (injection S as _ <- _; destruct I as [I | []]; discriminate).
  destruct (t_result (finish_told env msg a ts g)) as [x|m|] eqn:T; [injection S as _ _ S; congruence| |discriminate].
  injection S as _ <- _. rewrite finish_notes, T in I. destruct I as [I | [I | []]]; discriminate.
Qed.

(** Queries *)
Theorem told_query : snd (main env accepts argv) = 0%Z -> ~ no_query accepts argv -> forall n, ~ In (CompletedNote n) (notes env msg accepts argv).
Proof.
  intros Z N n I. apply N. intros o Ho Go. destruct (command_line (option_table accepts) argv) as [a|] eqn:E.
  2:{ rewrite (main_rejected env accepts argv E) in Z. discriminate. }
  apply (has_option_iff accepts argv a o E) in Go. unfold notes in I. rewrite (told_accepted env msg accepts argv Hid a E) in I.
  destruct (early_end env msg a) as [(H1 & H2 & H3 & H4) | (Nn & R & _)].
  2:{ destruct (main_body_told env msg a) as [[es ns'] [x|m|]]; cbn in *; subst ns'; try discriminate. destruct I. }
  destruct (body_told_form env msg a H1 H2 H3 H4) as (evs & Q & [(m & B & P) | (fs & [(m & L & B) | [(L & B) | (ts & g & L & B)]])]);
    rewrite B in I; cbn [fst snd app] in I; try (destruct I as [I | []]; discriminate); try (destruct I; fail).
  assert (Last : has_option a ListTargets = true \/ has_option a PrintDepGraph = true).
  { destruct Ho as [<- | [<- | [<- | [<- | [<- | [<- | []]]]]]]; auto; congruence. }
  assert (F : t_notes (finish_told env msg a ts g) = []).
  { unfold finish_told. destruct (has_option a ListTargets); [reflexivity|]. destruct (has_option a PrintDepGraph); [reflexivity|].
    destruct Last; discriminate. }
  rewrite F in I. destruct (t_result (finish_told env msg a ts g)); cbn in I; intuition discriminate.
Qed.
End Counts.
