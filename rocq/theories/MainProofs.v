(** Proofs about the program. *)

From Coq Require Import Ascii String Bool ZArith Arith Lia.
From Coq Require Import List.
From Verif Require Import Str Path SMap PathProofs JsonModel DbModel GraphModel DepGraphModel DepGraphSpec FileListModel FileListSpec.
From Verif Require Import LoadModel LoadSpec LocProofs CfgModel.
From Verif Require Import FileListProofs SchedModel SchedSpec SchedProofs TaskListModel TaskListSpec TaskListProofs.
From Verif Require Import CmdModel CmdSpec CmdProofs MainModel MainSpec.
Import ListNotations.

(** * The command line *)

Lemma all_options_complete : forall o, In o all_options.
Proof. destruct o; vm_compute; tauto. Qed.

Lemma option_name_inj : forall o o', option_name o = option_name o' -> o = o'.
Proof. destruct o, o'; intro H; try reflexivity; discriminate H. Qed.

Lemma table_items : forall accepts x, In x (option_table accepts) <-> exists o, x = option_item accepts o.
Proof.
  intros accepts x. unfold option_table. rewrite in_map_iff. split.
  - intros (o & E & _). exists o. now symmetry.
  - intros (o & ->). exists o. split; [reflexivity|apply all_options_complete].
Qed.

Lemma table_names : forall accepts, NoDup (map opt_name (option_table accepts)).
Proof.
  intro accepts. unfold option_table. rewrite map_map. cbn.
  repeat (constructor; [cbn; intuition discriminate|]). constructor.
Qed.

Section Line.
Variable accepts : cmd_option -> str -> bool.

Lemma accepted_valid : forall argv, command_line (option_table accepts) argv <> None <-> valid accepts argv.
Proof.
  intro argv. rewrite (accepted_iff (option_table accepts) argv (table_names accepts)). split.
  - intros H arg I. destruct (H arg I) as [-> | (x & text & v & P & T)]; [now left|]. right.
    assert (IX : In x (option_table accepts)) by (destruct P as (_ & n & _ & _ & (IX & _)); exact IX).
    apply table_items in IX. destruct IX as (o & ->). exists o, text, v. split; assumption.
  - intros H arg I. destruct (H arg I) as [-> | (o & text & v & P & T)]; [now left|]. right.
    exists (option_item accepts o), text, v. split; assumption.
Qed.

Variables (argv : list str) (a : arguments).
Hypothesis Ha : command_line (option_table accepts) argv = Some a.

Lemma given_value : forall o v, option_given a o = Some v <-> has_value accepts argv o v.
Proof.
  intros o v. unfold option_given.
  exact (values_iff (option_table accepts) argv a (option_item accepts o) (table_names accepts) Ha
           (proj2 (table_items accepts (option_item accepts o)) (ex_intro _ o eq_refl)) v).
Qed.

End Line.

Lemma collect_none {V} (options : list (opt_item V)) x : NoDup (map opt_name options) -> In x options -> forall (argv : list str) s r,
  collect_options (sort_options options) argv s = Some r -> setting r (opt_name x) = None ->
  setting s (opt_name x) = None /\ forall a t, In a argv -> ~ picks options a x t.
Proof.
  intros N IX. induction argv as [|a argv IH]; intros s r H E.
  - cbn in H. injection H as <-. split; [exact E|intros ? ? []].
  - destruct a as [|c a].
    + cbn [collect_options] in H. destruct (IH s r H E) as [S M]. split; [exact S|].
      intros b t [<- | I] P; [destruct P as [P _]; now apply P|now apply (M b t)].
    + apply (collect_cons options (c :: a) argv s r N) in H; [|discriminate].
      destruct H as (y & text & v & P & T & C). destruct (IH _ r C E) as [S M]. cbn [setting] in S.
      destruct (str_eqb (opt_name y) (opt_name x)) eqn:Q; [discriminate|]. split; [exact S|].
      intros b t [<- | I] P'; [|now apply (M b t)].
      destruct (picks_unique options (c :: a) x t y text P' P) as [<- _]. rewrite str_eqb_refl in Q. discriminate.
Qed.

Lemma has_option_iff : forall accepts argv a o, command_line (option_table accepts) argv = Some a ->
  has_option a o = true <-> given accepts argv o.
Proof.
  intros accepts argv a o Ha. unfold has_option. destruct (option_given a o) as [v|] eqn:E.
  - split; [intros _|reflexivity]. apply (given_value accepts argv a Ha) in E.
    destruct E as (l1 & arg & text & l2 & -> & P & _). exists arg, text. split; [|exact P]. apply in_or_app. right. now left.
  - split; [discriminate|]. intros (arg & text & I & P).
    destruct (collect_none (option_table accepts) (option_item accepts o) (table_names accepts)
                (proj2 (table_items accepts _) (ex_intro _ o eq_refl)) argv [] a Ha E) as [_ M].
    destruct (M arg text I P).
Qed.

Lemma has_option_not : forall accepts argv a o, command_line (option_table accepts) argv = Some a ->
  has_option a o = false <-> ~ given accepts argv o.
Proof.
  intros accepts argv a o Ha. rewrite <- (has_option_iff accepts argv a o Ha).
  destruct (has_option a o); intuition congruence.
Qed.

(** * Sequences of events *)

Lemma then_done : forall A B es y (f : A -> io B), and_then (es, Some y) f = (es ++ fst (f y), snd (f y)).
Proof. reflexivity. Qed.

Lemma then_thrown : forall A B es (f : A -> io B), and_then (es, None) f = (es, None).
Proof. reflexivity. Qed.

Lemma then_in : forall A B (x : io A) (f : A -> io B) e,
  In e (fst (and_then x f)) <-> In e (fst x) \/ exists y, snd x = Some y /\ In e (fst (f y)).
Proof.
  intros A B [es [y|]] f e; unfold and_then; cbn [fst snd].
  - rewrite in_app_iff. split; (intros [H | H]; [now left|right]).
    + exists y. split; [reflexivity|exact H].
    + destruct H as (z & Q & H). injection Q as <-. exact H.
  - split; [intro H; now left|]. intros [H | (z & Q & _)]; [exact H|discriminate].
Qed.

Lemma then_some : forall A B (x : io A) (f : A -> io B) b,
  snd (and_then x f) = Some b <-> exists y, snd x = Some y /\ snd (f y) = Some b.
Proof.
  intros A B [es [y|]] f b; unfold and_then; cbn [fst snd].
  - split; [intro H; exists y; split; [reflexivity|exact H]|]. intros (z & Q & H). injection Q as <-. exact H.
  - split; [discriminate|]. intros (z & Q & _). discriminate.
Qed.

(** Events without any build *)
Definition quiet (l : list event) : Prop := forall e, In e l -> ~ is_build e.

Lemma quiet_nil : quiet [].
Proof. intros e []. Qed.

Lemma quiet_app : forall l1 l2, quiet l1 -> quiet l2 -> quiet (l1 ++ l2).
Proof. intros l1 l2 H1 H2 e I. apply in_app_or in I. destruct I; auto. Qed.

Lemma quiet_then : forall A B (x : io A) (f : A -> io B), quiet (fst x) ->
  (forall y, snd x = Some y -> quiet (fst (f y))) -> quiet (fst (and_then x f)).
Proof.
  intros A B x f H1 H2 e I. apply then_in in I. destruct I as [I | (y & E & I)]; [now apply H1|]. now apply (H2 y E).
Qed.

Lemma quiet_map : forall A B (f : A -> io B) l, (forall x, quiet (fst (f x))) -> quiet (fst (map_io f l)).
Proof.
  intros A B f l H. induction l as [|x l IH]; [exact quiet_nil|]. cbn [map_io].
  apply quiet_then; [apply H|]. intros y _. apply quiet_then; [exact IH|]. intros ys _. exact quiet_nil.
Qed.

Lemma map_io_in : forall A B (f : A -> io B) l e, In e (fst (map_io f l)) -> exists x, In x l /\ In e (fst (f x)).
Proof.
  intros A B f l e. induction l as [|x l IH]; [intros []|]. cbn [map_io]. intro H.
  apply then_in in H. destruct H as [H | (y & _ & H)]; [exists x; split; [now left|exact H]|].
  apply then_in in H. destruct H as [H | (ys & _ & [])]. destruct (IH H) as (z & I & Z). exists z. split; [now right|exact Z].
Qed.

Lemma map_io_some : forall A B (f : A -> io B) l ys, snd (map_io f l) = Some ys ->
  forall x, In x l -> (exists y, snd (f x) = Some y) /\ forall e, In e (fst (f x)) -> In e (fst (map_io f l)).
Proof.
  intros A B f l. induction l as [|z l IH]; intros ys H x I; [destruct I|]. cbn [map_io] in *.
  apply then_some in H. destruct H as (y & E & H). apply then_some in H. destruct H as (ys' & E' & H).
  destruct I as [<- | I].
  - split; [now exists y|]. intros e Q. apply then_in. now left.
  - destruct (IH ys' E' x I) as [S Q]. split; [exact S|]. intros e J. apply then_in. right. exists y. split; [exact E|].
    apply then_in. left. now apply Q.
Qed.

(** Nothing but reading of configuration files, and recipes run while loading *)
Definition plain (l : list event) : Prop :=
  forall e, In e l -> match e with ConfigRead _ | RecipeRun _ => True | _ => False end.

Lemma plain_nil : plain [].
Proof. intros e []. Qed.

Lemma plain_app : forall l1 l2, plain l1 -> plain l2 -> plain (l1 ++ l2).
Proof. intros l1 l2 H1 H2 e I. apply in_app_or in I. destruct I as [I | I]; [exact (H1 e I)|exact (H2 e I)]. Qed.

Lemma plain_quiet : forall l, plain l -> quiet l.
Proof. intros l H e I. specialize (H e I). destruct e; (exact (fun F => F) || destruct H). Qed.

Lemma plain_then : forall A B (x : io A) (f : A -> io B), plain (fst x) ->
  (forall y, snd x = Some y -> plain (fst (f y))) -> plain (fst (and_then x f)).
Proof.
  intros A B x f H1 H2 e I. apply then_in in I. destruct I as [I | (y & E & I)]; [exact (H1 e I)|exact (H2 y E e I)].
Qed.

Lemma plain_map : forall A B (f : A -> io B) l, (forall x, plain (fst (f x))) -> plain (fst (map_io f l)).
Proof.
  intros A B f l H. induction l as [|x l IH]; [exact plain_nil|]. cbn [map_io].
  apply plain_then; [apply H|]. intros y _. apply plain_then; [exact IH|]. intros ys _. exact plain_nil.
Qed.

(** * The phases of the program *)

Section Body.
Variable env : environment.

(** After loading *)
Definition build_phase (a : arguments) (ts : target_list) (g : file_list) : io unit :=
  match option_given a Targets with
  | Some (PathsValue names) =>
      and_then (compile_targets env ts g (target_directory a) (has_option a DryRun) (has_option a ForceRebuild) names) (fun _ => done tt)
  | _ => and_then (compile_all env g (has_option a DryRun) (has_option a ForceRebuild)) (fun _ => done tt)
  end.

Definition finish_phase (a : arguments) (ts : target_list) (g : file_list) : io unit :=
  if has_option a ListTargets then emit (Shown None (TargetNames (target_names ts (target_directory a))))
  else if has_option a PrintDepGraph then emit (Shown None (GraphEdges (graph_edges g)))
  else build_phase a ts g.

Lemma plain_resolve : forall s c, plain (fst (resolve_recipe_io env s c)).
Proof.
  intros s c. unfold resolve_recipe_io. destruct (env_resolve env s (recipe c)) as [[p o]|]; [|exact plain_nil].
  destruct (path_eqb p empty_path); [exact plain_nil|].
  apply plain_then; [intros e [<- | []]; exact I|]. intros _ _.
  apply plain_then; [exact plain_nil|]. intros cfg _. exact plain_nil.
Qed.

Lemma plain_resolve_all : forall s c, plain (fst (resolve_recipes_io env s c)).
Proof.
  intros s c. unfold resolve_recipes_io. apply plain_then; [apply plain_resolve|]. intros d _.
  apply plain_then; [|intros l _; exact plain_nil]. apply plain_map. intro x.
  apply plain_then; [apply plain_resolve|]. intros y _. exact plain_nil.
Qed.

Lemma plain_read : forall a, plain (fst (read_configuration env a)).
Proof.
  intro a. unfold read_configuration. destruct (has_option a ConfigDefault); [exact plain_nil|].
  cbn [fst]. intros e H. apply in_map_iff in H. destruct H as (p & <- & _). exact I.
Qed.

Lemma load_tree_form : forall a c l, exists runs, plain runs /\
  (load_tree env a c l = (runs, None) \/
   exists fs, load_tree env a c l = (runs ++ [Scanned (source_directory a) (target_directory a) fs],
     match load_project fs with Loaded x => Some x | Failed _ => None end)).
Proof.
  intros a c l. unfold load_tree. destruct (env_scan _ _ _ _ _ _) as [runs r].
  exists (map RecipeRun runs). split; [intros e H; apply in_map_iff in H; destruct H as (p & <- & _); exact I|].
  destruct r as [fs|]; [rewrite then_done|rewrite then_thrown; now left]. right. exists fs.
  unfold emit. rewrite then_done. unfold lift. cbn [fst snd]. reflexivity.
Qed.

(** Everything that is not an early end *)
Lemma body_form : forall a, has_option a Help = false -> has_option a Version = false -> has_option a About = false ->
  has_option a ConfigDump = false ->
  exists evs, plain evs /\
  (main_body env a = (evs, None) \/
   exists fs, let evs' := evs ++ [Scanned (source_directory a) (target_directory a) fs] in
     ((exists e, load_project fs = Failed e) /\ main_body env a = (evs', None)) \/
     exists ts g, load_project fs = Loaded (ts, g) /\
       main_body env a = (evs' ++ fst (finish_phase a ts g), snd (finish_phase a ts g))).
Proof.
  intros a H1 H2 H3 H4. unfold main_body. rewrite H1, H2, H3, H4.
  pose proof (plain_read a) as Q1. destruct (read_configuration env a) as [e1 [cfg|]];
    [rewrite then_done|rewrite then_thrown; exists e1; split; [exact Q1|now left]].
  pose proof (plain_resolve_all (source_directory a) cfg) as Q2. cbn [fst snd] in *.
  destruct (resolve_recipes_io env (source_directory a) cfg) as [e2 [cfg'|]]; cbn [fst] in Q2;
    [rewrite then_done|rewrite then_thrown; exists (e1 ++ e2); split; [now apply plain_app|now left]].
  unfold lift. destruct (map_loaders cfg') as [ls|];
    [rewrite then_done|rewrite then_thrown; exists (e1 ++ e2); split; [now apply plain_app|left; cbn [fst snd]; now rewrite app_nil_r]].
  destruct (load_tree_form a cfg' ls) as (e3 & Q3 & [-> | (fs & ->)]);
    (exists (e1 ++ e2 ++ e3); split; [repeat (apply plain_app; try assumption)|]).
  - rewrite then_thrown. left. cbn [fst snd app]. reflexivity.
  - right. exists fs. cbv zeta. destruct (load_project fs) as [[ts g]|e].
    + right. exists ts, g. split; [reflexivity|]. rewrite then_done. cbn [fst snd app].
      unfold finish_phase, build_phase. rewrite <- !app_assoc. reflexivity.
    + left. split; [now exists e|]. rewrite then_thrown. cbn [fst snd app]. rewrite <- !app_assoc. reflexivity.
Qed.

End Body.

(** * The program *)

Lemma main_rejected : forall env accepts argv, command_line (option_table accepts) argv = None ->
  main env accepts argv = ([], 255%Z).
Proof. intros env accepts argv H. unfold main. rewrite H. reflexivity. Qed.

Lemma main_accepted : forall env accepts argv a, command_line (option_table accepts) argv = Some a ->
  main env accepts argv = (fst (main_body env a), match snd (main_body env a) with Some _ => 0%Z | None => 255%Z end).
Proof. intros env accepts argv a H. unfold main. rewrite H. reflexivity. Qed.

Lemma status_cases : forall env accepts argv, snd (main env accepts argv) = 0%Z \/ snd (main env accepts argv) = 255%Z.
Proof.
  intros env accepts argv. unfold main. cbn [snd].
  destruct (snd (and_then (lift (command_line (option_table accepts) argv)) (main_body env))); auto.
Qed.

Lemma status_zero : forall env accepts argv, snd (main env accepts argv) = 0%Z <->
  exists a, command_line (option_table accepts) argv = Some a /\ snd (main_body env a) = Some tt.
Proof.
  intros env accepts argv. destruct (command_line (option_table accepts) argv) as [a|] eqn:E.
  - rewrite (main_accepted env accepts argv a E). cbn [snd]. destruct (snd (main_body env a)) as [[]|] eqn:Q.
    + split; [intros _; exists a; auto|reflexivity].
    + split; [discriminate|]. intros (b & H & R). injection H as <-. congruence.
  - rewrite (main_rejected env accepts argv E). split; [discriminate|]. intros (b & H & _). discriminate.
Qed.

Lemma quiet_scanned : forall s t fs, quiet [Scanned s t fs].
Proof. intros s t fs e [<- | []] H. exact H. Qed.

Lemma query_events : forall env a o, In o implemented_queries -> has_option a o = true -> quiet (fst (main_body env a)).
Proof.
  intros env a o Ho Hg.
  assert (Single : forall f w, quiet [Shown f w]) by (intros f w e [<- | []] H; exact H).
  destruct (has_option a Help) eqn:H1; [unfold main_body; rewrite H1; apply Single|].
  destruct (has_option a Version) eqn:H2; [unfold main_body; rewrite H1, H2; apply Single|].
  destruct (has_option a About) eqn:H3; [unfold main_body; rewrite H1, H2, H3; apply Single|].
  destruct (has_option a ConfigDump) eqn:H4.
  { unfold main_body. rewrite H1, H2, H3, H4. apply quiet_then; [apply plain_quiet, plain_read|]. intros c _. apply Single. }
  destruct (body_form env a H1 H2 H3 H4) as (evs & Q & [-> | (fs & [[_ ->] | (ts & g & _ & ->)])]); cbn [fst];
    apply plain_quiet in Q; [exact Q|now apply quiet_app; [|apply quiet_scanned]|].
  apply quiet_app; [apply quiet_app; [exact Q|apply quiet_scanned]|]. unfold finish_phase.
  destruct (has_option a ListTargets) eqn:H5; [apply Single|].
  destruct (has_option a PrintDepGraph) eqn:H6; [apply Single|].
  exfalso. destruct Ho as [<- | [<- | [<- | [<- | [<- | [<- | []]]]]]]; congruence.
Qed.

Theorem query_no_build : forall env accepts argv o e, In o implemented_queries -> given accepts argv o ->
  In e (fst (main env accepts argv)) -> ~ is_build e.
Proof.
  intros env accepts argv o e Ho Hg I. destruct (command_line (option_table accepts) argv) as [a|] eqn:E.
  - rewrite (main_accepted env accepts argv a E) in I. cbn [fst] in I.
    apply (has_option_iff accepts argv a o E) in Hg. exact (query_events env a o Ho Hg e I).
  - rewrite (main_rejected env accepts argv E) in I. destruct I.
Qed.

Theorem information : forall env accepts argv, valid accepts argv ->
  (given accepts argv Help -> main env accepts argv = ([Shown None HelpText], 0%Z)) /\
  (~ given accepts argv Help -> given accepts argv Version -> main env accepts argv = ([Shown None VersionText], 0%Z)) /\
  (~ given accepts argv Help -> ~ given accepts argv Version -> given accepts argv About ->
     main env accepts argv = ([Shown None AboutText], 0%Z)).
Proof.
  intros env accepts argv V. apply accepted_valid in V.
  destruct (command_line (option_table accepts) argv) as [a|] eqn:E; [clear V|congruence].
  rewrite (main_accepted env accepts argv a E). unfold main_body.
  repeat split.
  - intro H. apply (has_option_iff accepts argv a _ E) in H. now rewrite H.
  - intros H1 H2. apply (has_option_not accepts argv a _ E) in H1. apply (has_option_iff accepts argv a _ E) in H2.
    now rewrite H1, H2.
  - intros H1 H2 H3. apply (has_option_not accepts argv a _ E) in H1, H2. apply (has_option_iff accepts argv a _ E) in H3.
    now rewrite H1, H2, H3.
Qed.

Theorem dump_no_process : forall env accepts argv e, given accepts argv ConfigDump ->
  In e (fst (main env accepts argv)) -> ~ starts_process e.
Proof.
  intros env accepts argv e Hg I. destruct (command_line (option_table accepts) argv) as [a|] eqn:E.
  2:{ rewrite (main_rejected env accepts argv E) in I. destruct I. }
  rewrite (main_accepted env accepts argv a E) in I. cbn [fst] in I.
  apply (has_option_iff accepts argv a _ E) in Hg. unfold main_body in I. rewrite Hg in I.
  destruct (has_option a Help); [destruct I as [<- | []]; exact (fun H => H)|].
  destruct (has_option a Version); [destruct I as [<- | []]; exact (fun H => H)|].
  destruct (has_option a About); [destruct I as [<- | []]; exact (fun H => H)|].
  apply then_in in I. destruct I as [I | (c & _ & [<- | []])]; [|exact (fun H => H)].
  unfold read_configuration in I. destruct (has_option a ConfigDefault); [destruct I|].
  cbn [fst] in I. apply in_map_iff in I. destruct I as (p & <- & _). exact (fun H => H).
Qed.

(** What happens after loading *)
Lemma targets_value : forall accepts argv a v, command_line (option_table accepts) argv = Some a ->
  option_given a Targets = Some v -> exists names, v = PathsValue names.
Proof.
  intros accepts argv a v E H. apply (given_value accepts argv a E) in H.
  destruct H as (l1 & arg & text & l2 & _ & _ & [_ T] & _). cbn in T.
  destruct (list_of_string (fun t => Some (parse_path t)) text) as [l|]; [|discriminate]. injection T as <-. now exists l.
Qed.

Lemma process_in : forall env g d f l e, In e (fst (process_io env g d f l)) ->
  exists rs tasks, l = Some (rs, tasks) /\ e = Processed g rs tasks d f (fst (env_process env g rs tasks d f)).
Proof.
  intros env g d f [[rs tasks]|] e; [|intros []]. cbn [process_io].
  destruct (env_process env g rs tasks d f) as [tr r] eqn:E. intro H.
  apply then_in in H. destruct H as [[<- | []] | (y & _ & [])]. exists rs, tasks. rewrite E. split; reflexivity.
Qed.

Lemma process_some : forall env g d f l n, snd (process_io env g d f l) = Some n ->
  exists rs tasks, l = Some (rs, tasks) /\ snd (env_process env g rs tasks d f) = Some n /\
    In (Processed g rs tasks d f (fst (env_process env g rs tasks d f))) (fst (process_io env g d f l)).
Proof.
  intros env g d f [[rs tasks]|] n; [|discriminate]. cbn [process_io].
  destruct (env_process env g rs tasks d f) as [tr r] eqn:E. intro H.
  apply then_some in H. destruct H as (y & _ & H). exists rs, tasks. rewrite E. split; [reflexivity|]. split; [exact H|].
  apply then_in. left. now left.
Qed.

(** An event of the last phase, and the request it stems from *)
Lemma build_in : forall env a ts g e, In e (fst (build_phase env a ts g)) ->
  exists rs tasks, e = Processed g rs tasks (has_option a DryRun) (has_option a ForceRebuild)
                         (fst (env_process env g rs tasks (has_option a DryRun) (has_option a ForceRebuild))) /\
    (((forall names, option_given a Targets <> Some (PathsValue names)) /\ make_task_list g = Some (rs, tasks)) \/
     exists names name t, option_given a Targets = Some (PathsValue names) /\ In name names /\
       find_target ts (target_directory a) name = Some t /\ make_target_task_list g (t_source t) = Some (rs, tasks)).
Proof.
  intros env a ts g e. unfold build_phase. set (d := has_option a DryRun). set (f := has_option a ForceRebuild).
  assert (All : In e (fst (and_then (compile_all env g d f) (fun _ => done tt))) ->
    (forall names, option_given a Targets <> Some (PathsValue names)) ->
    exists rs tasks, e = Processed g rs tasks d f (fst (env_process env g rs tasks d f)) /\
    (((forall names, option_given a Targets <> Some (PathsValue names)) /\ make_task_list g = Some (rs, tasks)) \/
     exists names name t, option_given a Targets = Some (PathsValue names) /\ In name names /\
       find_target ts (target_directory a) name = Some t /\ make_target_task_list g (t_source t) = Some (rs, tasks))).
  { intros H N. apply then_in in H. destruct H as [H | (y & _ & [])]. apply process_in in H.
    destruct H as (rs & tasks & L & ->). exists rs, tasks. split; [reflexivity|]. left. split; assumption. }
  destruct (option_given a Targets) as [[p | names |]|] eqn:E; try (intro H; apply All; [exact H|discriminate]).
  intro H. apply then_in in H. destruct H as [H | (y & _ & [])].
  apply map_io_in in H. destruct H as (name & I & H). unfold compile_target in H.
  apply then_in in H. destruct H as [[] | (t & T & H)]. apply process_in in H. destruct H as (rs & tasks & L & ->).
  exists rs, tasks. split; [reflexivity|]. right. exists names, name, t. repeat split; assumption.
Qed.

(** If it comes to an end, everything has been processed. *)
Lemma build_some : forall env a ts g, snd (build_phase env a ts g) = Some tt ->
  let d := has_option a DryRun in
  let f := has_option a ForceRebuild in
  let ok rs tasks := (exists n, snd (env_process env g rs tasks d f) = Some n) /\
    In (Processed g rs tasks d f (fst (env_process env g rs tasks d f))) (fst (build_phase env a ts g)) in
  ((forall names, option_given a Targets <> Some (PathsValue names)) /\
   exists rs tasks, make_task_list g = Some (rs, tasks) /\ ok rs tasks) \/
  exists names, option_given a Targets = Some (PathsValue names) /\
    forall name, In name names -> exists t rs tasks, find_target ts (target_directory a) name = Some t /\
      make_target_task_list g (t_source t) = Some (rs, tasks) /\ ok rs tasks.
Proof.
  intros env a ts g. unfold build_phase. set (d := has_option a DryRun). set (f := has_option a ForceRebuild).
  destruct (option_given a Targets) as [[p | names |]|] eqn:E; intro H; cbv zeta.
  2:{ right. exists names. split; [reflexivity|]. intros name I.
      apply then_some in H. destruct H as (ys & H & _).
      destruct (map_io_some _ _ _ _ _ H name I) as [(n & S) Q]. unfold compile_target in S, Q.
      pose proof S as S0. apply then_some in S. destruct S as (t & T & S). cbn in T.
      apply process_some in S. destruct S as (rs & tasks & L & R & J).
      exists t, rs, tasks. split; [exact T|]. split; [exact L|]. split; [now exists n|].
      apply then_in. left. apply Q. apply then_in. right. exists t. split; [exact T|exact J]. }
  all: left; split; [discriminate|]; apply then_some in H; destruct H as (n & H & _);
    pose proof H as H0; apply process_some in H; destruct H as (rs & tasks & L & R & J);
    exists rs, tasks; split; [exact L|]; split; [now exists n|]; apply then_in; left; exact J.
Qed.

(** If it does not, there is a reason. *)
Lemma map_io_none : forall A B (f : A -> io B) l, snd (map_io f l) = None ->
  exists x, In x l /\ snd (f x) = None /\ forall e, In e (fst (f x)) -> In e (fst (map_io f l)).
Proof.
  intros A B f l. induction l as [|x l IH]; [discriminate|]. cbn [map_io]. intro H.
  destruct (f x) as [es [y|]] eqn:E.
  - rewrite then_done in *. cbn [fst snd] in *. destruct (map_io f l) as [es' [ys|]] eqn:F; [discriminate|].
    destruct (IH eq_refl) as (z & I & N & Q). exists z. split; [now right|]. split; [exact N|].
    intros e J. rewrite then_thrown. cbn [fst]. apply in_or_app. right. now apply Q.
  - exists x. split; [now left|]. rewrite E. split; [reflexivity|]. intros e J. rewrite then_thrown. exact J.
Qed.

Lemma process_none : forall env g d f l, snd (process_io env g d f l) = None ->
  l = None \/ exists rs tasks, l = Some (rs, tasks) /\ snd (env_process env g rs tasks d f) = None /\
    In (Processed g rs tasks d f (fst (env_process env g rs tasks d f))) (fst (process_io env g d f l)).
Proof.
  intros env g d f [[rs tasks]|]; [|now left]. intro H. right. exists rs, tasks. split; [reflexivity|].
  cbn [process_io] in *. destruct (env_process env g rs tasks d f) as [tr [n|]]; [discriminate|].
  split; [reflexivity|]. apply then_in. left. now left.
Qed.

Lemma build_none : forall env a ts g, snd (build_phase env a ts g) = None ->
  let d := has_option a DryRun in
  let f := has_option a ForceRebuild in
  (exists rs tasks, snd (env_process env g rs tasks d f) = None /\
     In (Processed g rs tasks d f (fst (env_process env g rs tasks d f))) (fst (build_phase env a ts g))) \/
  ((forall names, option_given a Targets <> Some (PathsValue names)) /\ make_task_list g = None) \/
  exists names name, option_given a Targets = Some (PathsValue names) /\ In name names /\
    (find_target ts (target_directory a) name = None \/
     exists t, find_target ts (target_directory a) name = Some t /\ make_target_task_list g (t_source t) = None).
Proof.
  intros env a ts g. unfold build_phase. set (d := has_option a DryRun). set (f := has_option a ForceRebuild).
  assert (Inner : forall A (x : io A), snd (and_then x (fun _ => done tt)) = None -> snd x = None).
  { intros A [es [y|]]; [discriminate|reflexivity]. }
  destruct (option_given a Targets) as [[p | names |]|] eqn:E; intro H; apply Inner in H; cbv zeta.
  2:{ apply map_io_none in H. destruct H as (name & I & N & Q). unfold compile_target in N, Q.
      destruct (find_target ts (target_directory a) name) as [t|] eqn:T.
      - unfold lift in N, Q. rewrite then_done in N, Q. cbn [fst snd app] in N, Q.
        apply process_none in N. destruct N as [N | (rs & tasks & L & R & J)].
        + right. right. exists names, name. split; [reflexivity|]. split; [exact I|]. right. now exists t.
        + left. exists rs, tasks. split; [exact R|]. apply then_in. left. now apply Q.
      - right. right. exists names, name. split; [reflexivity|]. split; [exact I|]. now left. }
  all: apply process_none in H; destruct H as [N | (rs & tasks & L & R & J)];
    [right; left; split; [discriminate|exact N]|left; exists rs, tasks; split; [exact R|apply then_in; left; exact J]].
Qed.

(** * Building *)

(** What [Processed] means *)
Lemma processed_event : forall env accepts argv g rs tasks d f tr,
  In (Processed g rs tasks d f tr) (fst (main env accepts argv)) ->
  exists a fs ts, command_line (option_table accepts) argv = Some a /\
    In (Scanned (source_directory a) (target_directory a) fs) (fst (main env accepts argv)) /\
    load_project fs = Loaded (ts, g) /\ d = has_option a DryRun /\ f = has_option a ForceRebuild /\
    tr = fst (env_process env g rs tasks d f) /\
    (((forall names, option_given a Targets <> Some (PathsValue names)) /\ make_task_list g = Some (rs, tasks)) \/
     exists names name t, option_given a Targets = Some (PathsValue names) /\ In name names /\
       find_target ts (target_directory a) name = Some t /\ make_target_task_list g (t_source t) = Some (rs, tasks)) /\
    (snd (main env accepts argv) = 0%Z -> exists n, snd (env_process env g rs tasks d f) = Some n).
Proof.
  intros env accepts argv g rs tasks d f tr I.
  destruct (command_line (option_table accepts) argv) as [a|] eqn:E.
  2:{ rewrite (main_rejected env accepts argv E) in I. destruct I. }
  assert (Not : forall o, In o implemented_queries -> has_option a o = false).
  { intros o Ho. destruct (has_option a o) eqn:Q; [exfalso|reflexivity].
    apply (has_option_iff accepts argv a o E) in Q. exact (query_no_build env accepts argv o _ Ho Q I Logic.I). }
  pose proof (main_accepted env accepts argv a E) as M. rewrite M in *. cbn [fst snd] in *. clear M.
  destruct (body_form env a) as (evs & Q & [B | (fs & [[_ B] | (ts & g' & L & B)])]); try (apply Not; cbn; tauto);
    apply plain_quiet in Q.
  - exfalso. rewrite B in I. exact (Q _ I Logic.I).
  - exfalso. rewrite B in I. apply in_app_or in I. destruct I as [I | I]; [exact (Q _ I Logic.I)|exact (quiet_scanned _ _ _ _ I Logic.I)].
  - assert (F : finish_phase env a ts g' = build_phase env a ts g').
    { unfold finish_phase. rewrite (Not ListTargets), (Not PrintDepGraph) by (cbn; tauto). reflexivity. }
    rewrite F in B. rewrite B in *. cbn [fst snd] in *.
    apply in_app_or in I. destruct I as [I | I].
    { exfalso. apply in_app_or in I. destruct I as [I | I]; [exact (Q _ I Logic.I)|exact (quiet_scanned _ _ _ _ I Logic.I)]. }
    apply build_in in I. destruct I as (rs' & tasks' & P & Case). injection P as <- <- <- -> -> ->.
    exists a, fs, ts. split; [reflexivity|]. split; [apply in_or_app; left; apply in_or_app; right; now left|]. split; [exact L|].
    split; [reflexivity|]. split; [reflexivity|]. split; [reflexivity|]. split; [exact Case|].
    intro Z. destruct (snd (build_phase env a ts g)) as [[]|] eqn:R; [|discriminate].
    apply build_some in R. cbv zeta in R.
    destruct Case as [[N T] | (names & name & t & O & In' & Ft & T)];
      destruct R as [[N' (rs2 & tasks2 & T2 & [S _])] | (names2 & O2 & R)].
    + rewrite T in T2. injection T2 as <- <-. exact S.
    + exfalso. exact (N _ O2).
    + exfalso. exact (N' _ O).
    + rewrite O in O2. injection O2 as <-. destruct (R name In') as (t2 & rs2 & tasks2 & Ft2 & T2 & [S _]).
      rewrite Ft in Ft2. injection Ft2 as <-. rewrite T in T2. injection T2 as <- <-. exact S.
Qed.

Lemma scanned_unique : forall evs s t fs l, plain evs -> (forall s' t' fs', ~ In (Scanned s' t' fs') l) ->
  forall s' t' fs', In (Scanned s' t' fs') ((evs ++ [Scanned s t fs]) ++ l) -> s' = s /\ t' = t /\ fs' = fs.
Proof.
  intros evs s t fs l P N s' t' fs' I. apply in_app_or in I. destruct I as [I | I]; [|now apply N in I].
  apply in_app_or in I. destruct I as [I | [I | []]]; [destruct (P _ I)|]. injection I as <- <- <-. repeat split.
Qed.

Lemma finish_scanned : forall env a ts g s t fs, ~ In (Scanned s t fs) (fst (finish_phase env a ts g)).
Proof.
  intros env a ts g s t fs. unfold finish_phase.
  destruct (has_option a ListTargets); [intros [H | []]; discriminate|].
  destruct (has_option a PrintDepGraph); [intros [H | []]; discriminate|].
  intro H. apply build_in in H. destruct H as (rs & tasks & H & _). discriminate.
Qed.

(** The directory is scanned once. *)
Lemma scanned_event : forall env accepts argv s t fs, In (Scanned s t fs) (fst (main env accepts argv)) ->
  exists a evs, command_line (option_table accepts) argv = Some a /\ plain evs /\ s = source_directory a /\ t = target_directory a /\
    (forall o, In o [Help; Version; About; ConfigDump] -> has_option a o = false) /\
    (((exists e, load_project fs = Failed e) /\ main env accepts argv = (evs ++ [Scanned s t fs], 255%Z)) \/
     exists ts g, load_project fs = Loaded (ts, g) /\
       main env accepts argv = ((evs ++ [Scanned s t fs]) ++ fst (finish_phase env a ts g),
                                match snd (finish_phase env a ts g) with Some _ => 0%Z | None => 255%Z end)).
Proof.
  intros env accepts argv s t fs I.
  destruct (command_line (option_table accepts) argv) as [a|] eqn:E.
  2:{ rewrite (main_rejected env accepts argv E) in I. destruct I. }
  pose proof (main_accepted env accepts argv a E) as M. rewrite M in *. cbn [fst] in I. clear M.
  assert (Not : forall o, In o [Help; Version; About; ConfigDump] -> has_option a o = false).
  { assert (Single : forall f w, ~ In (Scanned s t fs) [Shown f w]) by (intros f w [H | []]; discriminate).
    assert (Or : has_option a Help = false /\ has_option a Version = false /\ has_option a About = false /\ has_option a ConfigDump = false).
    { unfold main_body in I.
      destruct (has_option a Help); [now apply Single in I|]. destruct (has_option a Version); [now apply Single in I|].
      destruct (has_option a About); [now apply Single in I|]. destruct (has_option a ConfigDump); [exfalso|now repeat split].
      apply then_in in I. destruct I as [I | (c & _ & I)]; [exact (plain_read env a _ I)|now apply Single in I]. }
    destruct Or as (O1 & O2 & O3 & O4). intros o [<- | [<- | [<- | [<- | []]]]]; assumption. }
  destruct (body_form env a) as (evs & Q & B); try (apply Not; cbn; tauto).
  exists a, evs. split; [reflexivity|]. split; [exact Q|].
  destruct B as [B | (fs' & [[X B] | (ts & g & L & B)])]; rewrite B in *; cbn [fst snd] in *.
  - destruct (Q _ I).
  - rewrite <- app_nil_r in I. apply (scanned_unique evs _ _ _ [] Q) in I; [|intros ? ? ? []].
    destruct I as (-> & -> & ->). repeat split; try assumption. left. split; [exact X|reflexivity].
  - apply (scanned_unique evs _ _ _ _ Q) in I; [|intros; apply finish_scanned].
    destruct I as (-> & -> & ->). repeat split; try assumption. right. exists ts, g. split; [exact L|reflexivity].
Qed.

Lemma scanned_once : forall env accepts argv s1 t1 f1 s2 t2 f2, In (Scanned s1 t1 f1) (fst (main env accepts argv)) ->
  In (Scanned s2 t2 f2) (fst (main env accepts argv)) -> s1 = s2 /\ t1 = t2 /\ f1 = f2.
Proof.
  intros env accepts argv s1 t1 f1 s2 t2 f2 I1 I2.
  destruct (scanned_event _ _ _ _ _ _ I1) as (a & evs & _ & Q & _ & _ & _ & [[_ M] | (ts & g & _ & M)]);
    rewrite M in I2; cbn [fst] in I2.
  - rewrite <- app_nil_r in I2. apply (scanned_unique evs _ _ _ [] Q) in I2; [|intros ? ? ? []]. intuition congruence.
  - apply (scanned_unique evs _ _ _ _ Q) in I2; [|intros; apply finish_scanned]. intuition congruence.
Qed.

Lemma loaded_targets : forall fs ts g, scanned fs -> load_project fs = Loaded (ts, g) ->
  sorted_map ts /\ (forall e, In e ts <-> In e (declared_targets fs)) /\ project_graph fs g.
Proof.
  intros fs ts g S L. destruct (load_project_graph fs S) as [[_ [n [X _]]]|[_ [[_ X]|[_ [[_ X]|[_ X]]]]]]; try congruence.
  destruct X as (ts' & g' & E & X). rewrite L in E. injection E as <- <-. exact X.
Qed.

Lemma find_target_iff : forall fs ts g td name t, scanned fs -> load_project fs = Loaded (ts, g) ->
  (find_target ts td name = Some t <-> In (append td name, t) (declared_targets fs)).
Proof.
  intros fs ts g td name t S L. destruct (loaded_targets fs ts g S L) as (St & Et & _).
  unfold find_target. rewrite map_find_in by exact St. apply Et.
Qed.

Lemma in_numbered : forall (g : file_list) p i, In (p, i) g -> exists v, numbered g v p.
Proof.
  intros g p i I. apply In_nth_error in I. destruct I as (v & I). exists v. unfold numbered. rewrite nth_error_map, I. reflexivity.
Qed.

Lemma target_source_known : forall fs ts g name t, scanned fs -> load_project fs = Loaded (ts, g) ->
  In (name, t) (declared_targets fs) -> known g (t_source t).
Proof.
  intros fs ts g name t S L I. destruct (loaded_targets fs ts g S L) as (_ & _ & (_ & _ & _ & Src & _)).
  apply generated_source_known in I. apply in_map_iff in I. destruct I as ([p i] & <- & I). cbn [fst].
  destruct (Src p i I) as (i' & I' & _). exact (in_numbered g p i' I').
Qed.

Section Genuine.
Variable env : environment.
Variable accepts : cmd_option -> str -> bool.
Variable argv : list str.
Let events := fst (main env accepts argv).
Let status := snd (main env accepts argv).
Hypothesis Hg : genuine env events.

Lemma genuine_loaded : forall s t fs ts g, In (Scanned s t fs) events -> load_project fs = Loaded (ts, g) -> loaded fs g.
Proof.
  intros s t fs ts g I L. destruct (genuine_files _ _ Hg _ _ _ I) as [S K]. split; [exact S|]. split; [now exists ts|].
  exact (K ts g L).
Qed.

(** The list of tasks is one that has been made for the project. *)
Lemma processed_list : forall g rs tasks d f tr, In (Processed g rs tasks d f tr) events ->
  exists s t fs ts, In (Scanned s t fs) events /\ load_project fs = Loaded (ts, g) /\ loaded fs g /\ task_list g rs tasks.
Proof.
  intros g rs tasks d f tr I. destruct (processed_event env accepts argv g rs tasks d f tr I)
    as (a & fs & ts & E & J & L & _ & _ & _ & Case & _).
  exists (source_directory a), (target_directory a), fs, ts.
  pose proof (genuine_loaded _ _ _ _ _ J L) as P. split; [exact J|]. split; [exact L|]. split; [exact P|].
  destruct Case as [[_ T] | (names & name & t & _ & _ & F & T)]; [now left|]. right. exists (t_source t). split; [|exact T].
  destruct P as (S & _). apply (find_target_iff fs ts g _ name t S L) in F. exact (target_source_known fs ts g _ t S L F).
Qed.

(** A failure is reported. *)
Theorem failure_status : forall g rs tasks d f tr v o, In (Processed g rs tasks d f tr) events ->
  In (Finish v o) tr -> o <> Succeeds -> status <> 0%Z.
Proof.
  intros g rs tasks d f tr v o I F O Z.
  destruct (processed_event env accepts argv g rs tasks d f tr I) as (a & fs & ts & E & J & L & _ & _ & _ & _ & Ok).
  destruct (Ok Z) as (n & R).
  destruct (processed_list g rs tasks d f tr I) as (s' & t' & fs' & ts' & _ & _ & P & TL).
  destruct (genuine_tasks _ _ Hg _ _ _ _ _ _ I) as (ws & cs & s & W & Run & Ph). rewrite R in Ph.
  destruct (task_list_facts _ _ P _ _ TL) as (Setup & _).
  apply run_exec in Run.
  destruct (failure_reported _ _ _ _ Setup W _ _ v o Run) as (u & U); [rewrite Ph; exact Logic.I|exact F|exact O|congruence].
Qed.

Lemma status_form : status = 0%Z -> no_query accepts argv ->
  exists a fs ts g, command_line (option_table accepts) argv = Some a /\
    In (Scanned (source_directory a) (target_directory a) fs) events /\ load_project fs = Loaded (ts, g) /\
    snd (build_phase env a ts g) = Some tt /\ forall e, In e (fst (build_phase env a ts g)) -> In e events.
Proof.
  intros Z N. unfold status in Z. apply status_zero in Z. destruct Z as (a & E & B).
  assert (Not : forall o, In o implemented_queries -> has_option a o = false)
    by (intros o Ho; apply (has_option_not accepts argv a o E), N, Ho).
  pose proof (main_accepted env accepts argv a E) as M. unfold events. rewrite M. cbn [fst].
  destruct (body_form env a) as (evs & Q & [F | (fs & [[_ F] | (ts & g & L & F)])]); try (apply Not; cbn; tauto);
    [rewrite F in B; discriminate|rewrite F in B; discriminate|].
  assert (P : finish_phase env a ts g = build_phase env a ts g).
  { unfold finish_phase. rewrite (Not ListTargets), (Not PrintDepGraph) by (cbn; tauto). reflexivity. }
  rewrite P in F. rewrite F in *. cbn [fst snd] in *.
  exists a, fs, ts, g. repeat split; try assumption; [apply in_or_app; left; apply in_or_app; right; now left|].
  intros e I. apply in_or_app. now right.
Qed.

(** Everything has been built if the status is zero, and no targets were given. *)
Theorem success_all : status = 0%Z -> no_query accepts argv -> ~ given accepts argv Targets ->
  exists s t fs ts g rs tasks d f tr, In (Scanned s t fs) events /\ load_project fs = Loaded (ts, g) /\
    In (Processed g rs tasks d f tr) events /\
    (forall p, builds fs p -> completed g tr p) /\
    (forall v p, numbered g v p -> In (Start v) tr -> builds fs p).
Proof.
  intros Z N T. destruct (status_form Z N) as (a & fs & ts & g & E & J & L & B & Ev).
  apply (has_option_not accepts argv a _ E) in T. unfold has_option in T.
  apply build_some in B. cbv zeta in B. set (d := has_option a DryRun) in *. set (f := has_option a ForceRebuild) in *.
  destruct B as [(_ & rs & tasks & M & (n & R) & I) | (names & O & _)].
  2:{ rewrite O in T. discriminate. }
  apply Ev in I. pose proof (genuine_loaded _ _ _ _ _ J L) as P.
  destruct (genuine_tasks _ _ Hg _ _ _ _ _ _ I) as (ws & cs & s & W & Run & Ph). rewrite R in Ph.
  destruct (project_built fs g rs tasks ws P M W cs _ s n Run Ph) as (_ & _ & St & Fin).
  do 9 eexists. exists (fst (env_process env g rs tasks d f)). split; [exact J|]. split; [exact L|]. split; [exact I|]. split.
  - intros p Bp. pose proof (proj2 (builds_sources _ _ P p) Bp) as (i & Ip & _).
    destruct (in_numbered g p i Ip) as (v & Nv).
    exists v. split; [exact Nv|]. pose proof (proj2 (St v p Nv) Bp) as S. split; [apply started_in; exact S|now apply Fin].
  - intros v p Nv S. apply (St v p Nv). apply started_in. exact S.
Qed.

Theorem success_targets : status = 0%Z -> no_query accepts argv ->
  forall names, has_value accepts argv Targets (PathsValue names) ->
  exists s td fs ts g, In (Scanned s td fs) events /\ load_project fs = Loaded (ts, g) /\
    forall name, In name names ->
      In (append td name) (map fst (declared_targets fs)) /\
      exists rs tasks d f tr, In (Processed g rs tasks d f tr) events /\
        forall p, part_of_target fs g td name p -> completed g tr p.
Proof.
  intros Z N names T. destruct (status_form Z N) as (a & fs & ts & g & E & J & L & B & Ev).
  apply (given_value accepts argv a E) in T.
  apply build_some in B. cbv zeta in B. set (d := has_option a DryRun) in *. set (f := has_option a ForceRebuild) in *.
  destruct B as [(Not & _) | (names' & O & B)]; [exfalso; exact (Not _ T)|].
  rewrite T in O. injection O as <-.
  exists (source_directory a), (target_directory a), fs, ts, g. split; [exact J|]. split; [exact L|].
  pose proof (genuine_loaded _ _ _ _ _ J L) as P. pose proof P as (Sc & _).
  intros name In'. destruct (B name In') as (t & rs & tasks & F & M & (n & R) & I).
  apply (find_target_iff fs ts g _ name t Sc L) in F.
  split; [apply in_map_iff; exists (append (target_directory a) name, t); split; [reflexivity|exact F]|].
  apply Ev in I.
  destruct (genuine_tasks _ _ Hg _ _ _ _ _ _ I) as (ws & cs & s & W & Run & Ph). rewrite R in Ph.
  destruct (target_built fs g rs tasks ws (t_source t) P (target_source_known fs ts g _ t Sc L F) M W cs _ s n Run Ph)
    as (_ & _ & St & Fin).
  do 4 eexists. exists (fst (env_process env g rs tasks d f)). split; [exact I|].
  intros p (t' & F' & Bp & Re).
  assert (t' = t).
  { destruct (loaded_targets fs ts g Sc L) as (Sts & Ets & _). apply Ets in F, F'.
    apply (map_find_in _ ts _ _ Sts) in F, F'. congruence. }
  subst t'.
  pose proof (proj2 (builds_sources _ _ P p) Bp) as (i & Ip & _).
  destruct (in_numbered g p i Ip) as (v & Nv).
  exists v. split; [exact Nv|]. pose proof (proj2 (St v p Nv) (conj Bp Re)) as S. split; [apply started_in; exact S|now apply Fin].
Qed.

(** Nothing but parts of the given targets is started. *)
Theorem targets_only : forall names, has_value accepts argv Targets (PathsValue names) ->
  forall g rs tasks d f tr v p, In (Processed g rs tasks d f tr) events -> In (Start v) tr -> numbered g v p ->
  exists s td fs name, In (Scanned s td fs) events /\ In name names /\ part_of_target fs g td name p.
Proof.
  intros names T g rs tasks d f tr v p I S Nv.
  destruct (processed_event env accepts argv g rs tasks d f tr I) as (a & fs & ts & E & J & L & _ & _ & _ & Case & _).
  apply (given_value accepts argv a E) in T.
  destruct Case as [[Not _] | (names' & name & t & O & In' & F & M)]; [exfalso; exact (Not _ T)|].
  rewrite T in O. injection O as <-.
  pose proof (genuine_loaded _ _ _ _ _ J L) as P. pose proof P as (Sc & _).
  apply (find_target_iff fs ts g _ name t Sc L) in F.
  destruct (genuine_tasks _ _ Hg _ _ _ _ _ _ I) as (ws & cs & s & W & Run & _).
  exists (source_directory a), (target_directory a), fs, name. split; [exact J|]. split; [exact In'|].
  exists t. split; [exact F|].
  exact (target_only fs g rs tasks ws (t_source t) P (target_source_known fs ts g _ t Sc L F) M W cs tr s Run v p S Nv).
Qed.

(** A target that does not exist *)
Theorem unknown_target : no_query accepts argv ->
  forall names, has_value accepts argv Targets (PathsValue names) ->
  forall s td fs name, In (Scanned s td fs) events -> In name names ->
    ~ In (append td name) (map fst (declared_targets fs)) -> status <> 0%Z.
Proof.
  intros N names T s td fs name J In' U Z. destruct (status_form Z N) as (a & fs' & ts & g & E & J' & L & B & Ev).
  pose proof T as T0. destruct (success_targets Z N names T) as (s2 & td2 & fs2 & ts2 & g2 & J2 & L2 & A).
  assert (Same : forall s1 t1 f1 s2 t2 f2, In (Scanned s1 t1 f1) events -> In (Scanned s2 t2 f2) events -> t1 = t2 /\ f1 = f2)
    by (intros s1 t1 f1 s3 t3 f3 I1 I3; exact (proj2 (scanned_once env accepts argv _ _ _ _ _ _ I1 I3))).
  destruct (Same _ _ _ _ _ _ J J2) as [-> ->]. apply U. exact (proj1 (A name In')).
Qed.

End Genuine.

(** * Failures *)

Theorem status_reasons : forall env accepts argv, genuine env (fst (main env accepts argv)) -> valid accepts argv ->
  no_query accepts argv -> snd (main env accepts argv) <> 0%Z ->
  let events := fst (main env accepts argv) in
  (forall s td fs, ~ In (Scanned s td fs) events) \/
  exists s td fs, In (Scanned s td fs) events /\
    ((exists e, load_project fs = Failed e) \/
     exists ts g, load_project fs = Loaded (ts, g) /\
       ((exists p, file_on_cycle g p) \/
        (exists names name, has_value accepts argv Targets (PathsValue names) /\ In name names /\
           ~ In (append td name) (map fst (declared_targets fs))) \/
        exists rs tasks d f tr v o, In (Processed g rs tasks d f tr) events /\ In (Finish v o) tr /\ o <> Succeeds)).
Proof.
  intros env accepts argv G V N Z. cbv zeta. apply accepted_valid in V.
  destruct (command_line (option_table accepts) argv) as [a|] eqn:E; [clear V|congruence].
  assert (Not : forall o, In o implemented_queries -> has_option a o = false)
    by (intros o Ho; apply (has_option_not accepts argv a o E), N, Ho).
  pose proof (main_accepted env accepts argv a E) as M. rewrite M in Z. cbn [snd] in Z.
  destruct (body_form env a) as (evs & Q & [F | (fs & [[X F] | (ts & g & L & F)])]); try (apply Not; cbn; tauto).
  - left. intros s td fs I. rewrite M, F in I. exact (Q _ I).
  - right. exists (source_directory a), (target_directory a), fs. split; [|left; exact X].
    rewrite M, F. cbn [fst]. apply in_or_app. right. now left.
  - right. exists (source_directory a), (target_directory a), fs.
    assert (P : finish_phase env a ts g = build_phase env a ts g).
    { unfold finish_phase. rewrite (Not ListTargets), (Not PrintDepGraph) by (cbn; tauto). reflexivity. }
    rewrite P in F. rewrite F in Z. cbn [fst snd] in *.
    assert (J : In (Scanned (source_directory a) (target_directory a) fs) (fst (main env accepts argv))).
    { rewrite M, F. cbn [fst]. apply in_or_app. left. apply in_or_app. right. now left. }
    assert (Ev : forall e, In e (fst (build_phase env a ts g)) -> In e (fst (main env accepts argv))).
    { intros e I. rewrite M, F. cbn [fst]. apply in_or_app. now right. }
    pose proof (genuine_loaded env accepts argv G _ _ _ _ _ J L) as Ld.
    split; [exact J|]. right. exists ts, g. split; [exact L|].
    assert (B : snd (build_phase env a ts g) = None) by (destruct (snd (build_phase env a ts g)); congruence).
    apply build_none in B. cbv zeta in B. destruct B as [(rs & tasks & R & I) | [[_ T] | (names & name & O & I & T)]].
    + right. right. apply Ev in I. set (d := has_option a DryRun) in *. set (f := has_option a ForceRebuild) in *.
      destruct (genuine_tasks _ _ G _ _ _ _ _ _ I) as (ws & cs & s & W & Run & Ph). rewrite R in Ph. destruct Ph as (u & Ph).
      destruct (processed_list env accepts argv G g rs tasks d f _ I) as (s' & t' & fs' & ts' & _ & _ & P' & TL).
      destruct (task_list_facts _ _ P' _ _ TL) as (Setup & _).
      apply run_exec in Run. destruct (threw_failed _ _ _ _ Setup W _ _ u Run Ph) as (_ & [Fi | Fi]);
        do 4 eexists; exists (fst (env_process env g rs tasks d f)), u; eexists; (split; [exact I|]); (split; [exact Fi|discriminate]).
    + left. destruct (make_task_list_spec _ _ Ld) as [[C _]|[_ (rs' & tasks' & X & _)]]; [exact C|congruence].
    + destruct Ld as (Sc & Ld'). destruct T as [T | (t & T & K)].
      * right. left. exists names, name. split; [apply (given_value accepts argv a E); exact O|]. split; [exact I|].
        intro D. apply in_map_iff in D. destruct D as ([k t] & Ek & D). cbn [fst] in Ek. subst k.
        apply (find_target_iff fs ts g _ _ _ Sc L) in D. congruence.
      * left. apply (find_target_iff fs ts g _ _ _ Sc L) in T.
        destruct (make_target_task_list_spec _ _ (conj Sc Ld') (t_source t) (target_source_known _ _ _ _ _ Sc L T))
          as [[(q & _ & C) _]|[_ (rs' & tasks' & X & _)]]; [now exists q|congruence].
Qed.

(** * Dry run *)

Theorem build_flags : forall env accepts argv g rs tasks d f tr,
  In (Processed g rs tasks d f tr) (fst (main env accepts argv)) ->
  (d = true <-> given accepts argv DryRun) /\ (f = true <-> given accepts argv ForceRebuild).
Proof.
  intros env accepts argv g rs tasks d f tr I.
  destruct (processed_event env accepts argv g rs tasks d f tr I) as (a & fs & ts & E & _ & _ & -> & -> & _).
  split; apply (has_option_iff accepts argv a _ E).
Qed.

Theorem dry_run_processes : forall env accepts argv e, given accepts argv DryRun ->
  In e (fst (main env accepts argv)) -> starts_process e -> exists p, e = RecipeRun p.
Proof.
  intros env accepts argv e D I S. destruct e; try (destruct S; fail); [now exists p|].
  apply build_flags in I. destruct I as [[_ H] _]. specialize (H D). cbn in S. congruence.
Qed.

(** * Directories *)

Theorem directories : forall env accepts argv s t fs, In (Scanned s t fs) (fst (main env accepts argv)) ->
  (forall p, has_value accepts argv SourceDir (PathValue p) -> s = p) /\
  (~ given accepts argv SourceDir -> s = mk_path false [dot]) /\
  (forall p, has_value accepts argv TargetDir (PathValue p) -> t = p) /\
  (~ given accepts argv SourceDir -> ~ given accepts argv TargetDir -> t = mk_path false [lit "__targets"]).
Proof.
  intros env accepts argv s t fs I.
  destruct (scanned_event _ _ _ _ _ _ I) as (a & evs & E & _ & -> & -> & _).
  assert (None_ : forall o, ~ given accepts argv o -> option_given a o = None).
  { intros o H. apply (has_option_not accepts argv a o E) in H. unfold has_option in H.
    destruct (option_given a o); [discriminate|reflexivity]. }
  split; [|split; [|split]].
  - intros p H. apply (given_value accepts argv a E) in H. unfold source_directory. now rewrite H.
  - intro H. apply None_ in H. unfold source_directory. now rewrite H.
  - intros p H. apply (given_value accepts argv a E) in H. unfold target_directory. now rewrite H.
  - intros H1 H2. apply None_ in H1, H2. unfold target_directory, source_directory. rewrite H1, H2. reflexivity.
Qed.

(** * The list of targets *)

Theorem listing : forall env accepts argv s td fs ts g, given accepts argv ListTargets ->
  In (Scanned s td fs) (fst (main env accepts argv)) -> scanned fs -> load_project fs = Loaded (ts, g) ->
  snd (main env accepts argv) = 0%Z /\
  exists names, In (Shown None (TargetNames names)) (fst (main env accepts argv)) /\
    (forall n, In n names <-> exists k, In k (map fst (declared_targets fs)) /\ n = lexically_relative k td) /\
    length names = length (declared_targets fs).
Proof.
  intros env accepts argv s td fs ts g G I Sc L.
  destruct (scanned_event _ _ _ _ _ _ I) as (a & evs & E & _ & -> & -> & _ & [[(e & X) _] | (ts' & g' & L' & M)]); [congruence|].
  rewrite L in L'. injection L' as <- <-. apply (has_option_iff accepts argv a _ E) in G.
  unfold finish_phase in M. rewrite G in M. rewrite M. cbn [fst snd]. split; [reflexivity|].
  exists (target_names ts (target_directory a)). split; [apply in_or_app; right; now left|].
  destruct (loaded_targets fs ts g Sc L) as (St & Et & _). unfold target_names. split.
  - intro n. rewrite in_map_iff. split.
    + intros ([k t] & <- & J). exists k. split; [|reflexivity]. apply Et in J. apply in_map_iff. exists (k, t). split; [reflexivity|exact J].
    + intros (k & J & ->). apply in_map_iff in J. destruct J as ([k' t] & <- & J). exists (k', t). split; [reflexivity|]. now apply Et.
  - rewrite map_length.
    assert (ND : NoDup (map fst (declared_targets fs))).
    { destruct (load_project_graph fs Sc) as [[_ [n [X _]]]|[H _]]; [congruence|exact H]. }
    assert (ND' : NoDup (map fst ts)) by (apply sorted_nodup; exact St).
    apply Nat.le_antisymm; rewrite <- 2(map_length fst); apply NoDup_incl_length; try assumption;
      intros k J; apply in_map_iff in J; destruct J as (x & <- & J); apply in_map; now apply Et.
Qed.

(** A target inside of the target directory can be built by its name in the list. *)
Theorem listed_name : forall td l, directory_ok td -> td <> mk_path false [dot] -> Forall ordinary l -> l <> [] ->
  lexically_relative (inside td l) td = mk_path false l /\ append td (mk_path false l) = inside td l.
Proof.
  intros td l D Nd O Ne. split; [now apply relative_inside|].
  destruct (inside_plain td l D Nd) as [-> P]. destruct td as [abs cs]. cbn [absolute comps] in *.
  apply append_names; [|exact Ne]. exact (normalised_proper _ _ P).
Qed.

(** * The dependency graph *)

Lemma pair_order : order pair_compare.
Proof.
  destruct path_order as [Eq_ Opp Trans]. constructor; unfold pair_compare.
  - intros [a b] [c d]. cbn [fst snd]. destruct (path_compare a c) eqn:Q.
    + apply Eq_ in Q. subst c. rewrite Eq_. split; [now intros ->|now intros [= ->]].
    + split; [discriminate|]. intros [= -> ->]. now rewrite path_compare_refl in Q.
    + split; [discriminate|]. intros [= -> ->]. now rewrite path_compare_refl in Q.
  - intros [a b] [c d]. cbn [fst snd]. rewrite (Opp a c). destruct (path_compare c a); cbn [CompOpp]; [apply Opp|reflexivity|reflexivity].
  - intros [a b] [c d] [e f]. cbn [fst snd]. intros H1 H2.
    destruct (path_compare a c) eqn:Q1; [apply Eq_ in Q1; subst c|..|discriminate].
    + destruct (path_compare a e) eqn:Q2; [exact (Trans _ _ _ H1 H2)|reflexivity|discriminate].
    + destruct (path_compare c e) eqn:Q2; [apply Eq_ in Q2; subst e; now rewrite Q1| |discriminate].
      now rewrite (Trans _ _ _ Q1 Q2).
Qed.

Inductive sorted_pairs : list (path * path) -> Prop :=
| sorted_none : sorted_pairs []
| sorted_more : forall x l, (forall y, In y l -> pair_compare x y = Lt) -> sorted_pairs l -> sorted_pairs (x :: l).

Lemma set_insert_in : forall x l y, In y (set_insert x l) <-> y = x \/ In y l.
Proof.
  intros x l y. induction l as [|z l IH]; cbn [set_insert].
  - cbn [In]. intuition.
  - destruct (pair_compare x z) eqn:E.
    + apply (ord_eq _ pair_order) in E. subst z. cbn [In]. intuition.
    + cbn [In]. intuition.
    + cbn [In]. rewrite IH. intuition.
Qed.

Lemma set_insert_sorted : forall x l, sorted_pairs l -> sorted_pairs (set_insert x l).
Proof.
  intros x l S. induction S as [|z l H S IH]; cbn [set_insert].
  - constructor; [intros y []|constructor].
  - destruct (pair_compare x z) eqn:E; [now constructor|..].
    + constructor; [|now constructor]. intros y [<- | J]; [exact E|]. exact (ord_trans _ pair_order _ _ _ E (H y J)).
    + constructor; [|exact IH]. intros y J. apply set_insert_in in J. destruct J as [-> | J]; [|now apply H].
      rewrite (ord_opp _ pair_order), E. reflexivity.
Qed.

Lemma sorted_pairs_nodup : forall l, sorted_pairs l -> NoDup l.
Proof.
  intros l S. induction S as [|x l H S IH]; constructor; [|exact IH].
  intro J. specialize (H x J). rewrite (proj2 (ord_eq _ pair_order x x) eq_refl) in H. discriminate.
Qed.

Theorem edges_exact : forall g, NoDup (graph_edges g) /\
  forall p q, In (p, q) (graph_edges g) <-> exists d, declared_by g p d /\ dep_name d = q.
Proof.
  intro g. unfold graph_edges.
  set (inner := fun p (acc : list (path * path)) ds => fold_left (fun acc d => set_insert (p, dep_name d) acc) ds acc).
  assert (Inner : forall p ds acc, (sorted_pairs acc -> sorted_pairs (inner p acc ds)) /\
    forall x, In x (inner p acc ds) <-> In x acc \/ exists d, In d ds /\ x = (p, dep_name d)).
  { intros p ds. unfold inner. induction ds as [|d ds IH]; intro acc; cbn [fold_left].
    - split; [auto|]. intro x. split; [now left|]. intros [H | (d & [] & _)]. exact H.
    - destruct (IH (set_insert (p, dep_name d) acc)) as [S I]. split; [intro H; apply S, set_insert_sorted, H|].
      intro x. rewrite I, set_insert_in. split.
      + intros [[-> | H] | (e & J & ->)]; [right; exists d; split; [now left|reflexivity]|now left|right; exists e; split; [now right|reflexivity]].
      + intros [H | (e & [<- | J] & ->)]; [left; now right|left; now left|right; now exists e]. }
  assert (Outer : forall l acc,
    (sorted_pairs acc -> sorted_pairs (fold_left (fun acc e => inner (fst e) acc (visit_edges (snd e))) l acc)) /\
    forall x, In x (fold_left (fun acc e => inner (fst e) acc (visit_edges (snd e))) l acc) <->
      In x acc \/ exists p d, declared_by l p d /\ x = (p, dep_name d)).
  { induction l as [|[p i] l IH]; intro acc; cbn [fold_left].
    - split; [auto|]. intro x. split; [now left|]. intros [H | (p & d & (i & [] & _) & _)]. exact H.
    - destruct (IH (inner p acc (visit_edges i))) as [S I]. destruct (Inner p (visit_edges i) acc) as [S' I'].
      cbn [fst snd] in *. split; [intro H; apply S, S', H|]. intro x. rewrite I, I'. unfold visit_edges. split.
      + intros [[H | (d & J & ->)] | (q & d & (j & J & K) & ->)]; [now left|right..].
        * exists p, d. split; [|reflexivity]. exists i. split; [now left|]. now apply in_app_or in J.
        * exists q, d. split; [|reflexivity]. exists j. split; [now right|exact K].
      + intros [H | (q & d & (j & [J | J] & K) & ->)]; [left; now left|..].
        * injection J as <- <-. left. right. exists d. split; [now apply in_or_app|reflexivity].
        * right. exists q, d. split; [|reflexivity]. now exists j. }
  destruct (Outer g []) as [S I]. split; [apply sorted_pairs_nodup, S; constructor|].
  intros p q. unfold inner in I. rewrite I. split.
  - intros [[] | (p' & d & D & E)]. injection E as <- ->. now exists d.
  - intros (d & D & <-). right. now exists p, d.
Qed.

Theorem printed_graph : forall env accepts argv s td fs ts g, given accepts argv PrintDepGraph -> ~ given accepts argv ListTargets ->
  In (Scanned s td fs) (fst (main env accepts argv)) -> load_project fs = Loaded (ts, g) ->
  snd (main env accepts argv) = 0%Z /\
  exists edges, In (Shown None (GraphEdges edges)) (fst (main env accepts argv)) /\
    NoDup edges /\ forall p q, In (p, q) edges <-> exists d, declared_by g p d /\ dep_name d = q.
Proof.
  intros env accepts argv s td fs ts g G N I L.
  destruct (scanned_event _ _ _ _ _ _ I) as (a & evs & E & _ & -> & -> & _ & [[(e & X) _] | (ts' & g' & L' & M)]); [congruence|].
  rewrite L in L'. injection L' as <- <-. apply (has_option_iff accepts argv a _ E) in G. apply (has_option_not accepts argv a _ E) in N.
  unfold finish_phase in M. rewrite G, N in M. rewrite M. cbn [fst snd]. split; [reflexivity|].
  exists (graph_edges g). split; [apply in_or_app; right; now left|]. apply edges_exact.
Qed.

(** The files are those that the scanner has delivered. *)
Lemma scanned_result : forall env accepts argv s t fs0 fs, In (Scanned s t fs) (fst (main env accepts argv)) ->
  (forall c l d s t, snd (env_scan env c l d s t) = Some fs0) -> fs = fs0.
Proof.
  intros env accepts argv s t fs0 fs I H.
  destruct (command_line (option_table accepts) argv) as [a|] eqn:E.
  2:{ rewrite (main_rejected env accepts argv E) in I. destruct I. }
  rewrite (main_accepted env accepts argv a E) in I. cbn [fst] in I.
  assert (Single : forall f w, ~ In (Scanned s t fs) [Shown f w]) by (intros f w [X | []]; discriminate).
  unfold main_body in I.
  destruct (has_option a Help); [now apply Single in I|]. destruct (has_option a Version); [now apply Single in I|].
  destruct (has_option a About); [now apply Single in I|].
  apply then_in in I. destruct I as [I | (c & _ & I)]; [destruct (plain_read env a _ I)|].
  destruct (has_option a ConfigDump); [now apply Single in I|].
  apply then_in in I. destruct I as [I | (c' & _ & I)]; [destruct (plain_resolve_all env _ _ _ I)|].
  apply then_in in I. destruct I as [[] | (ls & _ & I)].
  apply then_in in I. destruct I as [I | ([ts g] & _ & I)].
  - unfold load_tree in I. specialize (H (tree_loader c') ls (dir_compiler c') (source_directory a) (target_directory a)).
    destruct (env_scan env _ _ _ _ _) as [runs r]. cbn [snd] in H. subst r.
    apply then_in in I. destruct I as [I | (fs' & F & I)].
    + cbn [fst] in I. apply in_map_iff in I. destruct I as (p & X & _). discriminate.
    + cbn [snd] in F. injection F as <-. apply then_in in I. destruct I as [[X | []] | (u & _ & [])].
      injection X as _ _ ->. reflexivity.
  - exfalso. exact (finish_scanned env a ts g s t fs I).
Qed.

Theorem shown_standard_output : forall env accepts argv f w, In (Shown f w) (fst (main env accepts argv)) -> f = None.
Proof.
  intros env accepts argv f w I.
  destruct (command_line (option_table accepts) argv) as [a|] eqn:E.
  2:{ rewrite (main_rejected env accepts argv E) in I. destruct I. }
  rewrite (main_accepted env accepts argv a E) in I. cbn [fst] in I.
  assert (Single : forall w', In (Shown f w) [Shown None w'] -> f = None) by (intros w' [X | []]; now injection X as <- _).
  destruct (has_option a Help) eqn:H1; [unfold main_body in I; rewrite H1 in I; exact (Single _ I)|].
  destruct (has_option a Version) eqn:H2; [unfold main_body in I; rewrite H1, H2 in I; exact (Single _ I)|].
  destruct (has_option a About) eqn:H3; [unfold main_body in I; rewrite H1, H2, H3 in I; exact (Single _ I)|].
  destruct (has_option a ConfigDump) eqn:H4.
  { unfold main_body in I. rewrite H1, H2, H3, H4 in I. apply then_in in I.
    destruct I as [I | (c & _ & I)]; [destruct (plain_read env a _ I)|exact (Single _ I)]. }
  assert (No : forall evs s t fs, plain evs -> ~ In (Shown f w) (evs ++ [Scanned s t fs])).
  { intros evs s t fs P J. apply in_app_or in J. destruct J as [J | [J | []]]; [exact (P _ J)|discriminate]. }
  destruct (body_form env a H1 H2 H3 H4) as (evs & Q & [B | (fs & [[_ B] | (ts & g & _ & B)])]); rewrite B in I; cbn [fst] in I.
  - destruct (Q _ I).
  - now apply No in I.
  - apply in_app_or in I. destruct I as [I | I]; [now apply No in I|]. unfold finish_phase in I.
    destruct (has_option a ListTargets); [exact (Single _ I)|]. destruct (has_option a PrintDepGraph); [exact (Single _ I)|].
    apply build_in in I. destruct I as (rs & tasks & X & _). discriminate.
Qed.
