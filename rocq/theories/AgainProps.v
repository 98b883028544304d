(** Property C77: what a project consists of does not depend on whether it has been built. *)

From Coq Require Import Ascii String ZArith Bool.
From Coq Require Import List.
From Verif Require Import Str Path SMap PathProofs DbModel LoadModel LoadSpec ScanModel ScanSpec DepGraphSpec FileListModel FileListSpec.
From Verif Require Import SchedModel SchedSpec TaskListModel TaskListSpec BuildModel BuildSpec TreeModel TreeSpec TreeRun AgainSpec AgainProofs AgainRun.
Import ListNotations.

(** C77. The directory [s] is scanned, the project is built (whether or not successfully,
    or completely), and [s] is scanned again. In between, anything may happen in the target directory
    [t], and nothing elsewhere. If the target directory is left out of the
    scan, and has all targets, then the result is the same, and there are no new errors. Missing: target
    directories which are not left out. *)
Theorem C77_same_project_partial :
  forall c s t D entries content fs g scan force tr D1 dec made D' entries' content',
    directory_ok s -> left_out s t (set_filter_name c) (set_filter_path c) ->
    proper_entries entries -> proper_entries entries' -> listing s D entries -> listing s D' entries' ->
    (forall v q, target_of g v q -> below t q) ->
    building_tree scan g force D tr D1 dec made ->
    (forall p, ~ below t p -> untouched D1 D' p) ->
    (forall p, ~ below t (lexically_normal p) -> content' p = content p) ->
    scan_result c s t D entries content (MainReturned fs) ->
    (forall fs', scan_result c s t D' entries' content' (MainReturned fs') -> fs' = fs) /\
    (set_recursive c = true -> (forall p, ~ below t p -> snd (entries' p) = snd (entries p)) ->
     forall errors, ~ scan_result c s t D' entries' content' (MainThrew errors)).
Proof. exact build_and_scan. Qed.
Print Assumptions C77_same_project_partial.

(** The target directory is left out if its name is filtered out. *)
Theorem C77_filtered : forall s d n (filter_name filter_path : str -> bool), directory_ok s -> Forall ordinary (d ++ [n]) ->
    filter_name n = true -> left_out s (inside s (d ++ [n])) filter_name filter_path.
Proof. exact left_out_named. Qed.
Print Assumptions C77_filtered.

(** With --target-dir=build, [k] (which is build/build) becomes part of the project when
    the project is built. *)
Theorem C77_same_project_refuted :
  exists c s t D entries content fs g force tr D' dec made entries' fs' k,
    directory_ok s /\ directory_ok t /\ proper_entries entries /\ proper_entries entries' /\ listing s D entries /\ listing s D' entries' /\
    scan_result c s t D entries content (MainReturned fs) /\ loaded fs g /\ proper_names fs g /\
    (forall v q, target_of g v q -> below t q) /\
    (exists rs tasks ws cs st n, task_list g rs tasks /\ idle_pool ws /\ run (task_reads g) cs (init rs tasks ws) = Some (tr, st) /\ ph st = Returned n) /\
    building_tree D g force D tr D' dec made /\
    scan_result c s t D' entries' content (MainReturned fs') /\
    In k (map fst fs') /\ ~ In k (map fst fs) /\ below t k.
Proof. exact project_grows. Qed.
Print Assumptions C77_same_project_refuted.

(** * Examples *)

Local Open Scope string_scope.
Local Open Scope list_scope.

(** The same files, but the name "build" is filtered out. *)
Definition filtered_setting : setting :=
  mk_setting (tree_tags "x.o") (fun _ => None) (fun _ c => Some c) (fun _ _ => None)
             tree_mkdir_compiler [(lit ".rule", tree_loader)] (fun n => str_eqb n (lit "build")) (fun _ => false) true.

Definition filtered_scan (l : list (path * file_status)) (entries : path -> list str * bool) : list scan_choice -> option (scan_state source_file_info) :=
  scan_tree root_dir build_dir (status_in l) entries (fun _ => Some []) (set_parse filtered_setting) (set_resolve filtered_setting)
    (set_configure filtered_setting) (set_script_tags filtered_setting) (set_dir_compiler filtered_setting) (set_loaders filtered_setting)
    (set_filter_name filtered_setting) (set_filter_path filtered_setting) (set_recursive filtered_setting) 2.

Definition filtered_result (l : list (path * file_status)) (entries : path -> list str * bool) : option (list path) :=
  match filtered_scan l entries (repeat (TaskStep 0) 16 ++ [MainStep]) with
  | Some st => match scan_owner st with MainReturned fs => Some (map fst fs) | _ => None end
  | None => None
  end.

Example filtered_before : filtered_result files_before entries_before = Some [root_dir; parse_path (lit "x.rule")].
Proof. vm_compute. reflexivity. Qed.
Example filtered_after : filtered_result files_after entries_after = Some [root_dir; parse_path (lit "x.rule")].
Proof. vm_compute. reflexivity. Qed.

Example filtered_hypotheses :
  left_out root_dir build_dir (set_filter_name filtered_setting) (set_filter_path filtered_setting) /\
  proper_entries entries_before /\ proper_entries entries_after /\
  listing root_dir (status_in files_before) entries_before /\ listing root_dir (status_in files_after) entries_after /\
  (forall p, ~ below build_dir p -> snd (entries_after p) = snd (entries_before p)).
Proof.
  split; [|split; [apply entries_proper|split; [apply entries_proper|split; [exact listing_before|split; [exact listing_after|]]]]].
  - apply (left_out_named root_dir [] (lit "build")); [left; reflexivity|names|reflexivity].
  - intros p _. unfold entries_after, entries_before. destruct (path_eqb p root_dir); [reflexivity|]. destruct (path_eqb p build_dir); reflexivity.
Qed.
