(** A project whose target directory is an ordinary directory of the source tree. Helpers
    for examples and counterexamples. *)

From Coq Require Import Ascii String ZArith Bool.
From Coq Require Import List.
From Verif Require Import Str Path SMap PathProofs DbModel JsonModel LoadModel LoadSpec LocProofs ScanModel ScanSpec ScanProofs.
From Verif Require Import DepGraphModel DepGraphSpec FileListModel FileListSpec SchedModel SchedSpec.
From Verif Require Import TaskListModel TaskListSpec BuildModel BuildSpec TreeModel TreeSpec TreeRun AgainSpec.
Import ListNotations.

Local Open Scope string_scope.
Local Open Scope list_scope.

(** --target-dir=build *)
Definition build_dir : path := parse_path (lit "build").

Definition plain_setting : setting :=
  mk_setting (tree_tags "x.o") (fun _ => None) (fun _ c => Some c) (fun _ _ => None)
             tree_mkdir_compiler [(lit ".rule", tree_loader)] (fun _ => false) (fun _ => false) true.

Definition status_in (l : list (path * file_status)) (p : path) : file_status :=
  match find (fun e => path_eqb p (fst e)) l with Some (_, x) => x | None => Missing end.

Definition files_before : list (path * file_status) :=
  [(root_dir, Directory 0%Z); (build_dir, Directory 0%Z); (parse_path (lit "build/"), Directory 0%Z);
   (parse_path (lit "x.rule"), PlainFile 1%Z)].

Definition files_after : list (path * file_status) :=
  files_before ++ [(parse_path (lit "build/build"), Directory 5%Z); (parse_path (lit "build/x.o"), PlainFile 6%Z)].

Definition entries_before (p : path) : list str * bool :=
  if path_eqb p root_dir then ([lit "build"; lit "x.rule"], false) else ([], false).

Definition entries_after (p : path) : list str * bool :=
  if path_eqb p root_dir then ([lit "build"; lit "x.rule"], false)
  else if path_eqb p build_dir then ([lit "build"; lit "x.o"], false)
  else ([], false).

Definition choices (n : nat) : list scan_choice := repeat (TaskStep 0) n ++ [MainStep].

Definition scan_build (entries : path -> list str * bool) (l : list (path * file_status)) : list scan_choice -> option (scan_state source_file_info) :=
  scan_tree root_dir build_dir (status_in l) entries (fun _ => Some []) (set_parse plain_setting) (set_resolve plain_setting)
    (set_configure plain_setting) (set_script_tags plain_setting) (set_dir_compiler plain_setting) (set_loaders plain_setting)
    (set_filter_name plain_setting) (set_filter_path plain_setting) (set_recursive plain_setting) 2.

Definition scanned_files (entries : path -> list str * bool) (l : list (path * file_status)) (n : nat) : file_list :=
  match scan_build entries l (choices n) with
  | Some st => match scan_owner st with MainReturned fs => fs | _ => [] end
  | None => []
  end.

Definition project_before : file_list := scanned_files entries_before files_before 19.
Definition project_after : file_list := scanned_files entries_after files_after 32.

Definition graph_before : file_list := match load_project project_before with Loaded (_, g) => g | _ => [] end.

Lemma before_files : map fst project_before = [root_dir; build_dir; parse_path (lit "x.rule")].
Proof. vm_compute. reflexivity. Qed.

Lemma after_files : map fst project_after =
  [root_dir; build_dir; parse_path (lit "build/build"); parse_path (lit "build/x.o"); parse_path (lit "x.rule")].
Proof. vm_compute. reflexivity. Qed.

Lemma scans : forall entries l n fs, fs <> [] -> scanned_files entries l n = fs ->
  scan_result plain_setting root_dir build_dir (status_in l) entries (fun _ => Some []) (MainReturned fs).
Proof.
  intros entries l n fs Hne H. unfold scanned_files in H. exists 2, (choices n).
  change (scan_tree root_dir build_dir (status_in l) entries (fun _ => Some []) (set_parse plain_setting) (set_resolve plain_setting)
    (set_configure plain_setting) (set_script_tags plain_setting) (set_dir_compiler plain_setting) (set_loaders plain_setting)
    (set_filter_name plain_setting) (set_filter_path plain_setting) (set_recursive plain_setting) 2 (choices n)) with (scan_build entries l (choices n)).
  destruct (scan_build entries l (choices n)) as [st|]; [|congruence]. exists st. split; [reflexivity|].
  destruct (scan_owner st); congruence.
Qed.

Lemma before_loaded : loaded project_before graph_before.
Proof.
  split; [|split].
  - split; [vm_compute; repeat constructor|]. intros p info H. vm_compute in H.
    destruct H as [H|[H|[H|[]]]]; injection H as <- <-; cbn;
    repeat split; intros; repeat match goal with H : _ \/ _ |- _ => destruct H as [H|H] | H : False |- _ => destruct H end; subst; cbn in *;
    try reflexivity; repeat match goal with H : _ \/ _ |- _ => destruct H as [H|H] | H : False |- _ => destruct H end; subst; reflexivity.
  - eexists. vm_compute. reflexivity.
  - intros [k Hk]. unfold numbered in Hk. vm_compute in Hk.
    do 8 (destruct k as [|k]; [discriminate|]). destruct k; discriminate.
Qed.

Lemma before_names : proper_names project_before graph_before.
Proof.
  split.
  - intros p [k Hk]. unfold numbered in Hk. vm_compute in Hk.
    do 8 (destruct k as [|k]; [injection Hk as <-; vm_compute; reflexivity|]). destruct k; discriminate.
  - intros p info t H Ht. vm_compute in H.
    destruct H as [H|[H|[H|[]]]]; injection H as <- <-; cbn in Ht;
    repeat (destruct Ht as [<-|Ht]; [split; [vm_compute; reflexivity|right; intro X; vm_compute in X; intuition discriminate]|]); destruct Ht.
Qed.

Lemma ordinary_name : forall n : string, n = "build" \/ n = "x.rule" \/ n = "x.o" -> ordinary (lit n).
Proof.
  intros n [-> | [-> | ->]]; (split; [discriminate|]; split; [discriminate|]; split; [discriminate|];
    vm_compute; intuition discriminate).
Qed.

Lemma entries_proper : proper_entries entries_before /\ proper_entries entries_after.
Proof.
  assert (A : Forall ordinary [lit "build"; lit "x.rule"]) by (repeat constructor; apply ordinary_name; auto).
  assert (B : Forall ordinary [lit "build"; lit "x.o"]) by (repeat constructor; apply ordinary_name; auto).
  split; intro p; unfold entries_before, entries_after.
  - destruct (path_eqb p root_dir); cbn [fst]; [|split; constructor].
    split; [exact A|]. repeat constructor; cbn; intuition discriminate.
  - destruct (path_eqb p root_dir); cbn [fst]; [split; [exact A|repeat constructor; cbn; intuition discriminate]|].
    destruct (path_eqb p build_dir); cbn [fst]; [|split; constructor].
    split; [exact B|]. repeat constructor; cbn; intuition discriminate.
Qed.

Lemma status_found : forall l p x, status_in l p = x -> x <> Missing -> In (p, x) l.
Proof.
  intros l p x H N. unfold status_in in H. destruct (find _ l) as [[q y]|] eqn:E; [|congruence].
  apply find_some in E. destruct E as (E1 & E2). cbn [fst] in E2. apply path_eqb_eq in E2. subst. exact E1.
Qed.

(** The names in the directory reached by [d] *)
Lemma listing_of : forall entries l (table : list (list str * list str)),
  (forall d, Forall ordinary d -> directory (status_in l) (inside root_dir d) -> In d (map fst table)) ->
  (forall d names, In (d, names) table -> fst (entries (inside root_dir d)) = names /\
     (forall n, In n names -> status_in l (inside root_dir (d ++ [n])) <> Missing) /\
     (forall p x, In (p, x) l -> forall n, Forall ordinary (d ++ [n]) -> p = inside root_dir (d ++ [n]) -> In n names)) ->
  listing root_dir (status_in l) entries.
Proof.
  intros entries l table H1 H2 d n Ho Hd. assert (Hod : Forall ordinary d) by (apply Forall_app in Ho; tauto).
  specialize (H1 d Hod Hd). apply in_map_iff in H1. destruct H1 as ((d' & names) & <- & Hin). cbn [fst] in *.
  destruct (H2 _ _ Hin) as (E & F & G). rewrite E. split; [apply F|]. intro N.
  eapply G; [eapply status_found; [reflexivity|exact N]|exact Ho|reflexivity].
Qed.

Lemma at_place : forall (q : path) (e d : list str), q = inside root_dir d -> q = inside root_dir e -> Forall ordinary e -> Forall ordinary d -> d = e.
Proof. intros q e d H1 H2 He Hd. subst q. apply (inside_inj root_dir); assumption. Qed.

Lemma no_slash : forall d, parse_path (lit "build/") = inside root_dir d -> Forall ordinary d -> False.
Proof.
  intros d H Hd. assert (E : inside root_dir d = mk_path false (if is_nil d then [dot] else d)) by reflexivity. rewrite E in H. clear E.
  destruct d as [|a [|b [|c d]]]; try discriminate H. vm_compute in H. injection H as <- <-.
  inversion Hd as [|? ? _ Q]. inversion Q as [|? ? (N & _) _]. congruence.
Qed.

Ltac names := repeat constructor; apply ordinary_name; auto.

Ltac where_is H Hd :=
  first
  [ apply no_slash in H; [destruct H|exact Hd]
  | apply (at_place _ [] _) in H; [|reflexivity|constructor|exact Hd]
  | apply (at_place _ [lit "build"] _) in H; [|reflexivity|names|exact Hd]
  | apply (at_place _ [lit "x.rule"] _) in H; [|reflexivity|names|exact Hd]
  | apply (at_place _ [lit "build"; lit "build"] _) in H; [|reflexivity|names|exact Hd]
  | apply (at_place _ [lit "build"; lit "x.o"] _) in H; [|reflexivity|names|exact Hd] ].

Lemma listing_before : listing root_dir (status_in files_before) entries_before.
Proof.
  apply (listing_of _ _ [([], [lit "build"; lit "x.rule"]); ([lit "build"], [])]).
  - intros d Hd (t & H). apply status_found in H; [|discriminate].
    destruct H as [H|[H|[H|[H|[]]]]]; try discriminate H; apply (f_equal fst) in H; cbn [fst] in H; where_is H Hd; subst d; cbn; auto.
  - intros d names [H|[H|[]]]; injection H as <- <-; (split; [vm_compute; reflexivity|]).
    + split; [intros n [<-|[<-|[]]]; vm_compute; discriminate|].
      intros p x H n Hn E. destruct H as [H|[H|[H|[H|[]]]]]; apply (f_equal fst) in H; cbn [fst] in H; subst p; rename E into E';
        where_is E' Hn; try discriminate E'; cbn in E'; injection E' as ->; cbn; auto.
    + split; [intros n []|].
      intros p x H n Hn E. destruct H as [H|[H|[H|[H|[]]]]]; apply (f_equal fst) in H; cbn [fst] in H; subst p; where_is E Hn; discriminate E.
Qed.

Lemma listing_after : listing root_dir (status_in files_after) entries_after.
Proof.
  apply (listing_of _ _ [([], [lit "build"; lit "x.rule"]); ([lit "build"], [lit "build"; lit "x.o"]); ([lit "build"; lit "build"], [])]).
  - intros d Hd (t & H). apply status_found in H; [|discriminate].
    destruct H as [H|[H|[H|[H|[H|[H|[]]]]]]]; try discriminate H; apply (f_equal fst) in H; cbn [fst] in H; where_is H Hd; subst d; cbn; auto.
  - intros d names [H|[H|[H|[]]]]; injection H as <- <-; (split; [vm_compute; reflexivity|]).
    + split; [intros n [<-|[<-|[]]]; vm_compute; discriminate|].
      intros p x H n Hn E. destruct H as [H|[H|[H|[H|[H|[H|[]]]]]]]; apply (f_equal fst) in H; cbn [fst] in H; subst p; where_is E Hn; try discriminate E;
        cbn in E; injection E as ->; cbn; auto.
    + split; [intros n [<-|[<-|[]]]; vm_compute; discriminate|].
      intros p x H n Hn E. destruct H as [H|[H|[H|[H|[H|[H|[]]]]]]]; apply (f_equal fst) in H; cbn [fst] in H; subst p; where_is E Hn; try discriminate E;
        cbn in E; injection E as ->; cbn; auto.
    + split; [intros n []|].
      intros p x H n Hn E. destruct H as [H|[H|[H|[H|[H|[H|[]]]]]]]; apply (f_equal fst) in H; cbn [fst] in H; subst p; where_is E Hn; discriminate E.
Qed.

Definition files_between : list (path * file_status) := files_before ++ [(parse_path (lit "build/build"), Directory 5%Z)].

Definition build_trace : list label :=
  [Submit 0; Start 0; Finish 0 Succeeds; Submit 1; Submit 5; Start 1; Finish 1 Succeeds; Start 5; Finish 5 Succeeds].

Definition build_schedule : list choice :=
  repeat (ByProcess 0) 11 ++ repeat (ByWorker 0 Succeeds) 3 ++ repeat (ByProcess 0) 11 ++ repeat (ByWorker 0 Succeeds) 4 ++
  repeat (ByProcess 0) 3 ++ [ByWorker 0 Succeeds; ByProcess 0] ++ repeat (ByWorker 0 Succeeds) 4 ++ repeat (ByProcess 0) 2.

Lemma status_other : forall l q x p, p <> q -> status_in (l ++ [(q, x)]) p = status_in l p.
Proof.
  intros l q x p N. unfold status_in. induction l as [|[a b] l IH]; cbn [app find fst].
  - rewrite (proj2 (path_eqb_neq _ _) N). reflexivity.
  - destruct (path_eqb p a); [reflexivity|exact IH].
Qed.

Ltac in_progress_now := split; [cbn; tauto|]; let o := fresh in let H := fresh in intros o H; cbn in H;
  repeat (destruct H as [H|H]; [discriminate H|]); destruct H.

Lemma is_not_dir : ~ is_dir (status_in files_before) graph_before 5.
Proof. intros (p & Hp & t & Hd). vm_compute in Hp. injection Hp as <-. vm_compute in Hd. discriminate Hd. Qed.

Lemma build_happens : exists dec made,
  building_tree (status_in files_before) graph_before false (status_in files_before) build_trace (status_in files_after) dec made.
Proof.
  set (D := status_in files_before). set (g := graph_before).
  assert (E0 : task_needs_run g D false 0 = Some false) by (vm_compute; reflexivity).
  assert (E1 : task_needs_run g D false 1 = Some true) by (vm_compute; reflexivity).
  assert (E5 : task_needs_run g (status_in files_between) false 5 = Some true) by (vm_compute; reflexivity).
  assert (B1 : building_tree D g false D [Submit 0; Start 0] D [(0, Some false)] []).
  { rewrite <- E0. apply (tree_starts D g false D [Submit 0] D [] [] 0). apply (tree_submits D g false D [] D [] [] 0). constructor. }
  assert (B2 : building_tree D g false D [Submit 0; Start 0; Finish 0 Succeeds] D [(0, Some false)] []).
  { apply (tree_finishes D g false D _ _ _ _ 0 Succeeds B1); [in_progress_now| |].
    - intros _ [H|[]] _. discriminate H.
    - intros [H|[]]. discriminate H. }
  assert (B3 : building_tree D g false D [Submit 0; Start 0; Finish 0 Succeeds; Submit 1; Submit 5; Start 1] D [(1, Some true); (0, Some false)] []).
  { rewrite <- E1. apply (tree_starts D g false D [Submit 0; Start 0; Finish 0 Succeeds; Submit 1; Submit 5] D _ _ 1).
    apply (tree_submits D g false D [Submit 0; Start 0; Finish 0 Succeeds; Submit 1] D _ _ 5).
    apply (tree_submits D g false D [Submit 0; Start 0; Finish 0 Succeeds] D _ _ 1). exact B2. }
  assert (B4 : building_tree D g false D [Submit 0; Start 0; Finish 0 Succeeds; Submit 1; Submit 5; Start 1] (status_in files_between)
                 [(1, Some true); (0, Some false)] [1]).
  { apply (tree_mkdir D g false D _ _ _ _ _ 1 (parse_path (lit "build/build")) B3); [left; reflexivity|in_progress_now| | |].
    - exists build_dir. split; [vm_compute; reflexivity|exists 0%Z; vm_compute; reflexivity].
    - eexists; eexists; eexists; split; [vm_compute; reflexivity|]; split; [left; reflexivity|vm_compute; reflexivity].
    - apply made; [vm_compute; reflexivity|exists 5%Z; vm_compute; reflexivity|]. intros p N. left. apply status_other, N. }
  assert (B5 : building_tree D g false D [Submit 0; Start 0; Finish 0 Succeeds; Submit 1; Submit 5; Start 1; Finish 1 Succeeds; Start 5] (status_in files_between)
                 [(5, Some true); (1, Some true); (0, Some false)] [1]).
  { rewrite <- E5. apply (tree_starts D g false D [Submit 0; Start 0; Finish 0 Succeeds; Submit 1; Submit 5; Start 1; Finish 1 Succeeds] _ _ _ 5).
    apply (tree_finishes D g false D _ _ _ _ 1 Succeeds B4); [in_progress_now| |].
    - intros _ _ _. left. reflexivity.
    - intros [H|[H|[]]]; discriminate H. }
  assert (B6 : building_tree D g false D [Submit 0; Start 0; Finish 0 Succeeds; Submit 1; Submit 5; Start 1; Finish 1 Succeeds; Start 5] (status_in files_after)
                 [(5, Some true); (1, Some true); (0, Some false)] [1]).
  { apply (tree_writes D g false D _ _ _ _ _ 5 B5); [left; reflexivity|in_progress_now|exact is_not_dir|].
    intros q Hq. left. change files_after with (files_between ++ [(parse_path (lit "build/x.o"), PlainFile 6%Z)]).
    apply status_other. intros ->. apply Hq.
    eexists; eexists; eexists; split; [vm_compute; reflexivity|]; split; [left; reflexivity|vm_compute; reflexivity]. }
  eexists. eexists. apply (tree_finishes D g false D _ _ _ _ 5 Succeeds B6); [in_progress_now| |].
  - intros H. destruct (is_not_dir H).
  - intros [H|[H|[H|[]]]]; discriminate H.
Qed.

Lemma build_returns : exists rs tasks st,
  task_list graph_before rs tasks /\ run (task_reads graph_before) build_schedule (init rs tasks tree_workers) = Some (build_trace, st) /\
  ph st = Returned 3.
Proof. eexists. eexists. eexists. split; [left; vm_compute; reflexivity|]. split; vm_compute; reflexivity. Qed.

Lemma targets_below : forall v q, target_of graph_before v q -> below build_dir q.
Proof.
  intros v q H. apply all_targets in H.
  assert (E : match nth_error graph_before v with Some (_, info) => map ti_name (targets info) | None => [] end =
              nth v [[parse_path (lit "build/")]; [parse_path (lit "build/build")]; []; []; []; [parse_path (lit "build/x.o")]] []).
  { do 8 (destruct v as [|v]; [vm_compute; reflexivity|]). destruct v; vm_compute; reflexivity. }
  assert (H' : In q (nth v [[parse_path (lit "build/")]; [parse_path (lit "build/build")]; []; []; []; [parse_path (lit "build/x.o")]] [])).
  { rewrite <- E. destruct (nth_error graph_before v) as [[p info]|]; exact H. }
  clear E H. destruct v as [|[|[|[|[|[|v]]]]]]; cbn [nth] in H'.
  - destruct H' as [<-|[]]. left. reflexivity.
  - destruct H' as [<-|[]]. right. exists [lit "build"]. split; [names|reflexivity].
  - destruct H'.
  - destruct H'.
  - destruct H'.
  - destruct H' as [<-|[]]. right. exists [lit "x.o"]. split; [names|reflexivity].
  - destruct v; destruct H'.
Qed.

Theorem project_grows :
  exists c s t D entries content fs g force tr D' dec made entries' fs' k,
    directory_ok s /\ directory_ok t /\ proper_entries entries /\ proper_entries entries' /\ listing s D entries /\ listing s D' entries' /\
    scan_result c s t D entries content (MainReturned fs) /\ loaded fs g /\ proper_names fs g /\
    (forall v q, target_of g v q -> below t q) /\
    (exists rs tasks ws cs st n, task_list g rs tasks /\ idle_pool ws /\ run (task_reads g) cs (init rs tasks ws) = Some (tr, st) /\ ph st = Returned n) /\
    building_tree D g force D tr D' dec made /\
    scan_result c s t D' entries' content (MainReturned fs') /\
    In k (map fst fs') /\ ~ In k (map fst fs) /\ below t k.
Proof.
  destruct build_happens as (dec & made & Hb). destruct build_returns as (rs & tasks & st & R1 & R2 & R3).
  exists plain_setting, root_dir, build_dir, (status_in files_before), entries_before, (fun _ => Some []), project_before, graph_before,
    false, build_trace, (status_in files_after), dec, made, entries_after, project_after, (parse_path (lit "build/build")).
  split; [left; reflexivity|]. split.
  { right. split; [exists 0, [lit "build"]; split; [reflexivity|]; split; [names|auto]|right; discriminate]. }
  split; [apply entries_proper|]. split; [apply entries_proper|]. split; [exact listing_before|]. split; [exact listing_after|].
  assert (N1 : project_before <> []) by (intro E; pose proof before_files as Q; rewrite E in Q; discriminate Q).
  assert (N2 : project_after <> []) by (intro E; pose proof after_files as Q; rewrite E in Q; discriminate Q).
  split; [apply (scans _ _ 19); [exact N1|reflexivity]|]. split; [exact before_loaded|]. split; [exact before_names|].
  split; [exact targets_below|]. split.
  { exists rs, tasks, tree_workers, build_schedule, st, 3. split; [exact R1|]. split; [|split; assumption].
    split; [discriminate|]. intros w [<-|[]]. auto. }
  split; [exact Hb|]. split; [apply (scans _ _ 32); [exact N2|reflexivity]|].
  rewrite before_files, after_files. split; [cbn; auto|]. split; [vm_compute; intuition discriminate|].
  right. exists [lit "build"]. split; [names|reflexivity].
Qed.
