(** Model of what the program tells about a run on standard error: the numbers of files,
    targets and tasks (the class Logger, core/bin/maike.cpp:255-280), and the message in case
    of an exception (maike.cpp:407-411).

    The functions are those of MainModel.v, FileListModel.v and CmdModel.v, with the text of
    the exception, if there is any. That nothing else is different is stated by
    C114_same_run. Left out are the options that have been given (see ShowModel.v), problems
    with configuration files, and what recipes write to standard error. A path is written in
    the way it is stored; here, without redundant slashes. *)

From Coq Require Import Ascii String Bool ZArith.
From Coq Require Import List.
From Verif Require Import Str Path SMap JsonModel DbModel GraphModel DepGraphModel FileListModel SchedModel TaskListModel.
From Verif Require Import LoadModel CfgModel ValueModel CmdModel RecipeModel MainModel.
Import ListNotations.

(** The result of a function that may throw an exception; [NoResult]: undefined behaviour *)
Inductive told (A : Type) :=
| Result (a : A)
| Thrown (message : str)
| NoResult.
Arguments Result {A} a.
Arguments Thrown {A} message.
Arguments NoResult {A}.

Definition then_told {A B} (r : told A) (f : A -> told B) : told B :=
  match r with Result a => f a | Thrown m => Thrown m | NoResult => NoResult end.

(** * Reading the command line *)

(** to_nibble, core/build/id.cpp:19-28: the first character that is not a digit *)
Definition not_a_digit (c : ascii) : bool := match to_nibble c with None => true | Some _ => false end.

(** what() of the exception thrown by fromString for the type of the option: build/id.cpp:26,
    utils/system_time_stamp.cpp:20, sched/thread_count.cpp:25, db/compilation_log.cpp:120,
    db/log_format.cpp:14, cmd_line_parser/command_line.hpp:77. Paths, and lists of them, are
    always accepted. *)
Definition conversion_error (o : cmd_option) (s : str) : str :=
  match o with
  | ConfigDefault | DryRun | ForceRebuild => lit "Option does not take any value"
  | BuildId =>
      match find not_a_digit (firstn 64 s) with
      | Some c => lit "Invalid BuildId: `" ++ [c] ++ lit "` is not a hexadecimal digit"
      | None => []
      end
  | StartTime => lit "Invalid timestamp " ++ s
  | NumWorkers => lit "ThreadCount must be an integer greater than zero, or auto"
  | LogLevel => lit "Invalid log level format. Valid log levels: `errors`, `source_file_info`, `compilation_command`"
  | LogOutputFormat => lit "Unsupported output format. Supported formats: `plain_text`, `ansi_term`"
  | _ => []
  end.

(** The option with the given name *)
Definition named_option (name : str) : option cmd_option :=
  find (fun o => str_eqb (option_name o) name) all_options.

(** OptItem::converter, command_line.hpp:251-263 *)
Definition converter_told (x : opt_item opt_value) (v : str) : told opt_value :=
  match v, value_required x with
  | [], true => Thrown (lit "Option `" ++ opt_name x ++ lit "` requires a value")
  | _, _ =>
      match opt_convert x v with
      | Some value => Result value
      | None => match named_option (opt_name x) with
                | Some o => Thrown (conversion_error o v)
                | None => NoResult
                end
      end
  end.

(** detail::collect_options, command_line.cpp:60-85 *)
Fixpoint collect_told (l : list (opt_item opt_value)) (argv : list str) (s : arguments) : told arguments :=
  match argv with
  | [] => Result s
  | [] :: argv' => collect_told l argv' s
  | arg :: argv' =>
      let '(n, v) := split_point arg in
      match find_option l arg n with
      | None => Thrown (lit "Invalid command line option " ++ arg)
      | Some x => then_told (converter_told x v) (fun value => collect_told l argv' ((opt_name x, value) :: s))
      end
  end.

Definition command_line_told (accepts : cmd_option -> str -> bool) (argv : list str) : told arguments :=
  collect_told (sort_options (option_table accepts)) argv [].

(** * Making a project from files *)

Definition cycle_message : str := lit "Cyclic dependency detected".

(** insertUnique, source_file_list.cpp:44-62 *)
Definition insert_unique_told (t : target_info) (src : path) (ts : target_list) : told target_list :=
  let name := lexically_normal (ti_name t) in
  match map_find name ts with
  | Some other => Thrown (lit "Target has " ++ path_string name ++ lit " has already been defined in "
                          ++ path_string (t_source other))
  | None => Result (map_insert name (mk_target src t) ts)
  end.

(** collectTargets (one file), source_file_list.cpp:64-75 *)
Fixpoint collect_of_told (src : path) (l : list target_info) (ts : target_list) : told target_list :=
  match l with
  | [] => Result ts
  | t :: l' =>
      if negb (path_eqb src (ti_name t))
      then then_told (insert_unique_told t src ts) (collect_of_told src l')
      else collect_of_told src l' ts
  end.

(** collectTargets, source_file_list.cpp:77-85 *)
Fixpoint collect_from_told (fs : file_list) (ts : target_list) : told target_list :=
  match fs with
  | [] => Result ts
  | (p, info) :: fs' => then_told (collect_of_told p (targets info) ts) (collect_from_told fs')
  end.

(** makeSourceFileInfo, source_file_list.cpp:87-117; graphutils.hpp:63 and 82 *)
Definition source_info_told (name : path) (t : target) (g : file_list) : told source_file_info :=
  match get_node g (t_source t) with
  | None => NoResult
  | Some node =>
      match processGraphNodeRecursive dep_ref (edges_of g) node with
      | Completed cs =>
          Result (generated_info (ti_use_deps (t_info t) ++ inherited_deps g name cs) (t_source t))
      | CycleError _ => Thrown cycle_message
      | VisitUndefined | VisitOutOfFuel => NoResult
      end
  end.

(** makeSourceFileInfos, source_file_list.cpp:119-125, where [g] is the graph *)
Fixpoint insert_infos_told (ts : target_list) (g fs : file_list) : told file_list :=
  match ts with
  | [] => Result fs
  | (name, t) :: ts' =>
      then_told (source_info_told name t g) (fun info => insert_infos_told ts' g (map_insert name info fs))
  end.

(** resolve, dependency_graph.cpp:36-55, without [ignore_errors] *)
Definition resolve_told (ks : list path) (required_by : path) (d : dependency) : told dependency :=
  match find_node ks (dep_name d) with
  | None => Thrown (path_string required_by ++ lit ": error: Failed to resolve " ++ path_string (dep_name d))
  | Some k => Result (mk_dependency (Some k) (dep_name d) (dep_origin d) (dep_props d))
  end.

(** std::for_each over a vector of dependencies, dependency_graph.cpp:78-87 *)
Fixpoint resolve_all_told (ks : list path) (required_by : path) (ds : list dependency) : told (list dependency) :=
  match ds with
  | [] => Result []
  | d :: ds' =>
      then_told (resolve_told ks required_by d) (fun d' =>
      then_told (resolve_all_told ks required_by ds') (fun r => Result (d' :: r)))
  end.

(** dependency_graph.cpp:72-90 *)
Fixpoint resolve_files_told (ks : list path) (fs : file_list) : told file_list :=
  match fs with
  | [] => Result []
  | (p, info) :: fs' =>
      then_told (resolve_all_told ks p (use_deps info)) (fun u =>
      then_told (resolve_all_told ks p (build_deps info)) (fun b =>
      then_told (resolve_files_told ks fs') (fun r =>
      Result ((p, set_build_deps b (set_use_deps u info)) :: r))))
  end.

(** load, source_tree_loader/main.cpp:7-23, after the directory scan *)
Definition load_told (src_files : file_list) : told (target_list * file_list) :=
  then_told (collect_from_told src_files []) (fun ts =>
  match make_graph true src_files with
  | None => NoResult
  | Some g =>
      then_told (insert_infos_told ts g src_files) (fun fs1 =>
      let fs2 := add_target_deps (map_merge fs1 (create_placeholders fs1)) in
      then_told (resolve_files_told (map fst fs2) fs2) (fun g' => Result (ts, g')))
  end).

(** * The program *)

(** What is written to standard error, apart from the time it took: the functions of Logger,
    maike.cpp:258-279, and line 409 *)
Inductive note :=
| LoadedNote (entries targets : nat)
| CompletedNote (tasks : nat)
| ErrorNote (message : str).

(** Events and notes, followed by a result, or an exception *)
Definition tio (A : Type) : Type := (list event * list note * told A)%type.

Definition t_done {A} (a : A) : tio A := ([], [], Result a).
Definition t_emit (e : event) : tio unit := ([e], [], Result tt).
Definition t_note (n : note) : tio unit := ([], [n], Result tt).
Definition t_lift {A} (r : told A) : tio A := ([], [], r).
Definition t_then {A B} (x : tio A) (f : A -> tio B) : tio B :=
  let '(es, ns, r) := x in
  match r with
  | Result a => let '(es', ns', r') := f a in (es ++ es', ns ++ ns', r')
  | Thrown m => (es, ns, Thrown m)
  | NoResult => (es, ns, NoResult)
  end.

Fixpoint t_map {A B} (f : A -> tio B) (l : list A) : tio (list B) :=
  match l with
  | [] => t_done []
  | x :: l' => t_then (f x) (fun y => t_then (t_map f l') (fun ys => t_done (y :: ys)))
  end.

(** What is outside of the program, or modelled elsewhere, in case of an exception *)
Record messages := mk_messages {
  (* Compiler::configRecipe, db/compiler.cpp:57-88 *)
  msg_configure : path -> compound -> str;
  (* DirectoryScanner: the list m_errlog *)
  msg_scan : tree_config -> list (str * (loader_kind * compiler)) -> compiler -> path -> path -> list str;
  (* TaskList::process: the exception that is rethrown, task_list.cpp:124 *)
  msg_process : file_list -> list task_result -> list nat -> bool -> bool -> str
}.

(** The exception thrown by the function for task [u] in task_list.cpp:97-114, where [outcome]
    tells how it has ended: lines 104-107, or another exception with the given text *)
Definition task_message (g : file_list) (outcome : task_outcome) (other : str) (u : nat) : str :=
  match outcome, nth_error (map fst g) u with
  | Fails, Some p => path_string p ++ lit ": Compilation failed"
  | _, _ => other
  end.

(** ScanException, directory_scanner.cpp:28-35 *)
Definition scan_message (errors : list str) : str := flat_map (fun m => m ++ ["010"%char]) errors.

Section Program.
Variable env : environment.
Variable msg : messages.

Definition or_thrown {A} (o : option A) (m : str) : told A :=
  match o with Some a => Result a | None => Thrown m end.

(** Compiler::resolveRecipe, core/db/compiler.hpp:64-72, and CommandDictionary::get,
    source_tree_loader/command_dictionary.cpp:27-32 *)
Definition resolve_recipe_told (source : path) (c : compiler) : tio compiler :=
  match env_resolve env source (recipe c) with
  | None => t_lift (Thrown (lit "Faild to map command `" ++ path_string (recipe c) ++ lit "`"))
  | Some (p, o) =>
      if path_eqb p empty_path then t_done (mk_compiler p (Some o) (comp_config c) (use_get_tags c))
      else t_then (t_emit (RecipeRun p)) (fun _ =>
           t_then (t_lift (or_thrown (env_configure env p (comp_config c)) (msg_configure msg p (comp_config c)))) (fun cfg =>
           t_done (mk_compiler p (Some o) cfg (use_get_tags c))))
  end.

(** resolveRecipes, bin/config.cpp:56-69 *)
Definition resolve_recipes_told (source : path) (c : config) : tio config :=
  t_then (resolve_recipe_told source (dir_compiler c)) (fun d =>
  t_then (t_map (fun e => t_then (resolve_recipe_told source (snd (snd e))) (fun x => t_done (fst e, (fst (snd e), x))))
                (info_loaders c)) (fun l =>
  t_done (mk_config (tree_loader c) l d))).

(** mapSourceFileInfoLoaders, bin/config.cpp:9-29 *)
Definition unconfigured (c : config) (e : str * str) : bool :=
  match lookup (snd e) (info_loaders c) with Some _ => false | None => true end.

Definition map_loaders_told (c : config) : told (list (str * (loader_kind * compiler))) :=
  match find (unconfigured c) (file_info_loaders (tree_loader c)) with
  | Some e => Thrown (lit "No loader of type " ++ snd e ++ lit " has been configured")
  | None => or_thrown (map_loaders c) []
  end.

(** maike.cpp:314-319 *)
Definition read_configuration_told (a : arguments) : tio config :=
  let (es, r) := read_configuration env a in (es, [], or_thrown r []).

(** load, and the message about it, maike.cpp:355-364 and 258-269 *)
Definition load_tree_told (a : arguments) (c : config) (loaders : list (str * (loader_kind * compiler)))
  : tio (target_list * file_list) :=
  let (runs, r) := env_scan env (tree_loader c) loaders (dir_compiler c) (source_directory a) (target_directory a) in
  t_then (map RecipeRun runs, [],
          or_thrown r (scan_message (msg_scan msg (tree_loader c) loaders (dir_compiler c) (source_directory a) (target_directory a))))
    (fun fs =>
  t_then (t_emit (Scanned (source_directory a) (target_directory a) fs)) (fun _ =>
  t_then (t_lift (load_told fs)) (fun tree =>
  t_then (t_note (LoadedNote (length (snd tree)) (length (fst tree)))) (fun _ =>
  t_done tree)))).

(** TaskList::process, where the constructor of the list may have thrown an exception *)
Definition process_told (g : file_list) (dryrun force : bool) (l : option (list task_result * list nat)) : tio nat :=
  match l with
  | None => t_lift (Thrown cycle_message)
  | Some (rs, tasks) =>
      let (tr, r) := env_process env g rs tasks dryrun force in
      t_then (t_emit (Processed g rs tasks dryrun force tr)) (fun _ =>
      t_lift (or_thrown r (msg_process msg g rs tasks dryrun force)))
  end.

(** compile for one target, source_tree.cpp:42-54, with getTarget, lines 15-29 *)
Definition compile_target_told (ts : target_list) (g : file_list) (target_dir : path) (dryrun force : bool) (name : path)
  : tio nat :=
  t_then (t_lift (or_thrown (find_target ts target_dir name) (lit "Unkonwn target `" ++ path_string name ++ lit "`"))) (fun t =>
  process_told g dryrun force (make_target_task_list g (t_source t))).

(** compile for a list of targets, source_tree.cpp:56-75: the sum of the numbers *)
Definition compile_targets_told (ts : target_list) (g : file_list) (target_dir : path) (dryrun force : bool) (names : list path)
  : tio nat :=
  t_then (t_map (compile_target_told ts g target_dir dryrun force) names) (fun ns =>
  t_done (fold_left Nat.add ns 0)).

(** timedCall, utils/callwrappers.hpp:16-31, with Logger, maike.cpp:271-279 *)
Definition timed_compile (x : tio nat) : tio unit := t_then x (fun n => t_note (CompletedNote n)).

(** main, maike.cpp:289-405, after the command line has been parsed *)
Definition main_body_told (a : arguments) : tio unit :=
  if has_option a Help then t_emit (Shown None HelpText)
  else if has_option a Version then t_emit (Shown None VersionText)
  else if has_option a About then t_emit (Shown None AboutText)
  else
    t_then (read_configuration_told a) (fun cfg =>
    if has_option a ConfigDump then t_emit (Shown None (ConfigText (dump_config cfg)))
    else
      t_then (resolve_recipes_told (source_directory a) cfg) (fun cfg =>
      t_then (t_lift (map_loaders_told cfg)) (fun loaders =>
      t_then (load_tree_told a cfg loaders) (fun tree =>
      let (ts, g) := tree in
      if has_option a ListTargets then t_emit (Shown None (TargetNames (target_names ts (target_directory a))))
      else if has_option a PrintDepGraph then t_emit (Shown None (GraphEdges (graph_edges g)))
      else
        let dryrun := has_option a DryRun in
        let force := has_option a ForceRebuild in
        match option_given a Targets with
        | Some (PathsValue names) => timed_compile (compile_targets_told ts g (target_directory a) dryrun force names)
        | _ => timed_compile (process_told g dryrun force (make_task_list g))
        end)))).

(** main, maike.cpp:282-412: what happens, what is written to standard error, and the exit
    status. [None]: undefined behaviour *)
Definition main_told (accepts : cmd_option -> str -> bool) (argv : list str) : list event * list note * option Z :=
  match t_then (t_lift (command_line_told accepts argv)) main_body_told with
  | (es, ns, Result _) => (es, ns, Some 0%Z)
  | (es, ns, Thrown m) => (es, ns ++ [ErrorNote m], Some 255%Z)
  | (es, ns, NoResult) => (es, ns, None)
  end.

End Program.

(** The text of a note. [seconds] and [average] are the times, as written by fprintf. *)
Definition note_text (seconds average : str) (n : note) : str :=
  match n with
  | LoadedNote entries targets =>
      lit "# Loaded source tree with " ++ decimal (Z.of_nat entries) ++ lit " entries (" ++ decimal (Z.of_nat targets)
      ++ lit " targets) in " ++ seconds ++ lit " seconds  (" ++ average ++ lit " seconds/entry)"
  | CompletedNote tasks =>
      lit "# Completed " ++ decimal (Z.of_nat tasks) ++ lit " tasks in " ++ seconds ++ lit " seconds (" ++ average
      ++ lit " seconds/task)"
  | ErrorNote message => message
  end ++ ["010"%char].
