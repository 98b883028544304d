(** Property C80: programs are linked with everything they need. *)

From Coq Require Import Ascii String Bool.
From Coq Require Import List.
From Verif Require Import Str Path SMap PathProofs DbModel JsonModel DepGraphModel DepGraphSpec FileListModel FileListSpec.
From Verif Require Import LoadModel LexModel RecipeModel CfgModel CfgSpec KindModel KindSpec.
From Verif Require Import SchedModel SchedSpec TaskListModel TaskListSpec BuildModel BuildSpec LinkSpec LinkProofs LinkRun.
Import ListNotations.

(** C80. The file [p] is linked (see C80_who), and [t] is one of its targets. Whenever the recipe for [p]
    may run, it is told about everything that the target has to be linked with (see C57 for how), and
    whatever is made in the project of this has been made. Missing: files which are linked because of
    their own settings, and projects where two implementations use each other. *)
Theorem C80_linked_partial : forall fs g (p : path) i t rs tasks ws cs tr st tr1 v tr2 (q : path),
    loaded fs g -> proper_names fs g -> In (p, i) fs -> use_target_deps i = true -> In t (targets i) -> ti_name t <> p ->
    task_list g rs tasks -> idle_pool ws -> run (task_reads g) cs (init rs tasks ws) = Some (tr, st) ->
    tr = tr1 ++ Start v :: tr2 -> numbered g v p -> link_needs fs (ti_name t) q ->
    In q (map dep_name (task_use_deps g v)) /\
    forall t' u, generated fs q t' -> numbered g u (t_source t') -> In (Finish u Succeeds) tr1.
Proof. exact linked_started. Qed.
Print Assumptions C80_linked_partial.

(** In addition to what it depends on itself, a file that is linked depends on what its
    targets use, and on nothing else. *)
Theorem C80_exact : forall fs ts g (p : path) i,
    scanned fs -> load_project fs = Loaded (ts, g) -> proper_names fs g -> In (p, i) fs -> use_target_deps i = true ->
    exists i', In (p, i') g /\ forall q, In q (map dep_name (use_deps i')) <->
      In q (map dep_name (use_deps i)) \/ exists t, In t (targets i) /\ ti_name t <> p /\ target_uses fs (ti_name t) q.
Proof. exact linked_deps. Qed.
Print Assumptions C80_exact.

(** The files that are linked are those that belong to a library, and C++ files if that has been
    configured for their extension. *)
Theorem C80_who :
  forall search print parse resolve configure script_tags (cfg : config) m (src s t : path) (text : str) info k c,
    increasing (file_info_loaders (tree_loader cfg)) -> increasing (info_loaders cfg) -> map_loaders cfg = Some m ->
    handled_by cfg (filename src) (k, c) ->
    load_configured search print src s t parse resolve configure script_tags (dir_compiler cfg) m (Some text) = Some info ->
    (use_target_deps info = true <-> k = KLib \/ (exists ps, k = KCxx ps) /\ asks_for_linking (comp_config c)).
Proof. exact who_is_linked. Qed.
Print Assumptions C80_who.

(** ** Refutations *)

Local Open Scope string_scope.
Local Open Scope list_scope.

(** The settings in a file ask for linking, the recipe is told to link, but the file does not
    depend on what its target uses. *)
Theorem C80_own_settings_refuted : exists cfg m parse resolve configure script_tags text info c,
    map_loaders cfg = Some m /\ handled_by cfg (lit "t.cpp") (KCxx [], test_compiler) /\
    load_configured (fun _ _ => false) (fun _ => []) (mk_path false [dot; lit "t.cpp"]) (mk_path false [dot]) (mk_path false [lit "out"])
      parse resolve configure script_tags (dir_compiler cfg) m (Some text) = Some info /\
    map ti_name (targets info) = [mk_path false [lit "out"; lit "t"]] /\
    effective_compiler info = Some c /\ asks_for_linking (comp_config c) /\ use_target_deps info = false.
Proof.
  exists test_config, [(lit ".cpp", (KCxx [], test_compiler))], (fun _ => Some own_tags), (fun p => Some (p, Project)),
    (fun _ c => Some c), (fun _ _ => None), (lit "int main(){}").
  change (load_configured _ _ _ _ _ _ _ _ _ _ _ _) with own_loaded.
  destruct own_loaded as [info|] eqn:E; [|vm_compute in E; discriminate E].
  assert (option_map (fun i => (map ti_name (targets i), effective_compiler i, use_target_deps i)) own_loaded =
    Some ([mk_path false [lit "out"; lit "t"]],
          Some (mk_compiler (mk_path true [lit "usr"; lit "cxx.py"]) (Some Project)
                  [(lit "cflags", JArray []); (lit "actions", JArray [JString (lit "link")])] false), false)) as H
    by (vm_compute; reflexivity).
  rewrite E in H. cbn [option_map] in H. injection H as H1 H2 H3.
  exists info. eexists. split; [reflexivity|]. split.
  { exists (lit ".cpp"). split; [|split].
    - exists (lit "t"), (lit "cpp"). split; [reflexivity|]. split; [reflexivity|]. split; [discriminate|]. split; [discriminate|].
      intros (X & _). discriminate X.
    - exists (lit "cxx"). split; now left.
    - intros e' l' _ (n & I & _). destruct I as [I|[]]. injection I as <- _. apply le_n. }
  split; [reflexivity|]. split; [exact H1|]. split; [exact H2|]. split; [|exact H3].
  exists [JString (lit "link")]. split; [reflexivity|left; reflexivity].
Qed.
Print Assumptions C80_own_settings_refuted.

(** Two implementation files which include the headers of each other are common in C++. The project can be
    loaded, but not built, neither as a whole, nor the program that uses these. *)
Theorem C80_mutual_refuted : exists fs g p i t q,
    loaded fs g /\ proper_names fs g /\ In (p, i) fs /\ use_target_deps i = true /\ In t (targets i) /\
    link_needs fs (ti_name t) q /\ make_task_list g = None /\ make_target_task_list g p = None.
Proof.
  exists (test_project true), (test_graph true), (named "t.cpp"), (src ["a.hpp"] [] ["t"] true), (mk_target_info (named "t") []), (named "b.o").
  split; [apply test_loaded|]. split; [apply test_names|]. split; [cbn; tauto|]. split; [reflexivity|].
  split; [left; reflexivity|]. split; [apply t_needs_b|]. split; vm_compute; reflexivity.
Qed.
Print Assumptions C80_mutual_refuted.

(** * Examples *)

(** The program t uses a.o, and thus needs b.o. *)
Example t_dependencies :
  (loaded (test_project false) (test_graph false) /\ proper_names (test_project false) (test_graph false)) /\
  link_needs (test_project false) (named "t") (named "b.o") /\
  numbered (test_graph false) 7 (named "t.cpp") /\
  map dep_name (task_use_deps (test_graph false) 7) = map named ["b.hpp"; "a.hpp"; "a.cpp"; "b.cpp"; "b.o"; "a.o"].
Proof.
  split; [split; [apply test_loaded|apply test_names]|]. split; [apply t_needs_b|]. split; vm_compute; reflexivity.
Qed.

Definition t_schedule : list choice :=
  let ps n := repeat (ByProcess 0) n in
  let ws n := repeat (ByWorker 0 Succeeds) n in
  ws 1 ++ ps 4 ++ ws 5 ++ ps 3 ++ ws 5 ++ ps 8 ++ ws 5 ++ ps 4.

(** A run in which the program is linked after both files have been compiled *)
Example t_run : exists rs tasks st,
  task_list (test_graph false) rs tasks /\ idle_pool [WChecking] /\
  run (task_reads (test_graph false)) t_schedule (init rs tasks [WChecking]) =
    Some ([Submit 0; Start 0; Finish 0 Succeeds; Submit 3; Start 3; Finish 3 Succeeds] ++ Submit 7 :: Start 7 :: [Finish 7 Succeeds], st).
Proof.
  destruct (make_task_list (test_graph false)) as [[rs tasks]|] eqn:E; [|vm_compute in E; discriminate E].
  exists rs, tasks. pose proof E as E'. vm_compute in E'. injection E' as <- <-. eexists. split; [left; exact E|].
  split; [split; [discriminate|intros w [<- | []]; left; reflexivity]|]. vm_compute. reflexivity.
Qed.

(** The settings for tests, and those for other files *)
Example tests_ask : asks_for_linking [(lit "actions", JArray [JString (lit "run"); JString (lit "link")])] /\
  ~ asks_for_linking [(lit "cflags", JArray [JString (lit "link")])].
Proof.
  split; [eexists; split; [reflexivity|right; left; reflexivity]|]. intros (l & X & _). discriminate X.
Qed.
