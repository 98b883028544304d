(** Model of the program: core/bin/maike.cpp, core/build/info.{hpp,cpp} (the directories),
    core/db/source_tree.cpp and core/source_tree_loader/main.cpp.

    What the program does is a list of events, together with its exit status. Left
    out are: messages to standard error and lines starting with a hash sign on standard
    output, the start time, the build id, the number of threads, and the log settings. *)

From Coq Require Import Ascii String Bool ZArith.
From Coq Require Import List.
From Verif Require Import Str Path SMap JsonModel DbModel GraphModel DepGraphModel FileListModel SchedModel TaskListModel.
From Verif Require Import LoadModel CfgModel CmdModel.
Import ListNotations.

(** * Options *)

(** CmdLineOption, bin/cmd_line_options.hpp:18-41 *)
Inductive cmd_option :=
| Help | Version | About
| PrintDepGraph | PrintDepGraphInv | DumpDatabase | ListTargets | ListExternalDeps
| Targets | ConfigFiles | ConfigDump | ConfigDefault | SourceDir | TargetDir
| BuildId | StartTime | NumWorkers | DryRun | ForceRebuild | LogLevel | LogOutputFormat.

(** CmdLineOptionTraits::name, cmd_line_options.hpp:51-664 *)
Definition option_name (o : cmd_option) : str :=
  lit match o with
      | Help => "--help"
      | Version => "--version"
      | About => "--about"
      | PrintDepGraph => "--print-dep-graph"
      | PrintDepGraphInv => "--print-dep-graph-inv"
      | DumpDatabase => "--dump-database"
      | ListTargets => "--list-targets"
      | ListExternalDeps => "--list-external-deps"
      | Targets => "--targets"
      | ConfigFiles => "--configfiles"
      | ConfigDump => "--configdump"
      | ConfigDefault => "--config-default"
      | SourceDir => "--source-dir"
      | TargetDir => "--target-dir"
      | BuildId => "--build-id"
      | StartTime => "--start-time"
      | NumWorkers => "--num-workers"
      | DryRun => "--dry-run"
      | ForceRebuild => "--force-rebuild"
      | LogLevel => "--log-level"
      | LogOutputFormat => "--log-output-format"
      end%string.

(** CmdLineOptionTraits::valueRequired, cmd_line_options.hpp:51-664 *)
Definition option_value_required (o : cmd_option) : bool :=
  match o with
  | Targets | ConfigFiles | SourceDir | TargetDir | BuildId | StartTime | NumWorkers | LogLevel | LogOutputFormat => true
  | _ => false
  end.

Inductive opt_value := PathValue (p : path) | PathsValue (l : list path) | OtherValue.

Section Options.

(** The values that are accepted by options with a type other than path, list of paths
    or nothing (see ValueModel.v) *)
Variable accepts : cmd_option -> str -> bool.

(** fromString for the type of the option, utils/fs.hpp and
    cmd_line_parser/command_line.hpp:62-80 *)
Definition option_convert (o : cmd_option) (s : str) : option opt_value :=
  match o with
  | Targets | ConfigFiles => option_map PathsValue (list_of_string (fun t => Some (parse_path t)) s)
  | ConfigDefault | DryRun | ForceRebuild => match s with [] => Some OtherValue | _ => None end
  | BuildId | StartTime | NumWorkers | LogLevel | LogOutputFormat => if accepts o s then Some OtherValue else None
  | _ => Some (PathValue (parse_path s))
  end.

Definition all_options : list cmd_option :=
  [Help; Version; About; PrintDepGraph; PrintDepGraphInv; DumpDatabase; ListTargets; ListExternalDeps; Targets;
   ConfigFiles; ConfigDump; ConfigDefault; SourceDir; TargetDir; BuildId; StartTime; NumWorkers; DryRun; ForceRebuild;
   LogLevel; LogOutputFormat].

Definition option_table : list (opt_item opt_value) :=
  map (fun o => mk_opt_item (option_name o) (option_value_required o) (option_convert o)) all_options.

End Options.

Definition arguments := list (str * opt_value).

(** option, command_line.hpp:436-440, if hasOption *)
Definition option_given (a : arguments) (o : cmd_option) : option opt_value := setting a (option_name o).

(** hasOption, command_line.hpp:442-446 *)
Definition has_option (a : arguments) (o : cmd_option) : bool :=
  match option_given a o with Some _ => true | None => false end.

(** * Directories *)

(** makeBuildInfo, bin/maike.cpp:23-45, and Build::Info(), build/info.cpp:9 *)
Definition source_directory (a : arguments) : path :=
  match option_given a SourceDir with
  | Some (PathValue p) => p
  | _ => mk_path false [dot]
  end.

Definition target_directory (a : arguments) : path :=
  match option_given a TargetDir with
  | Some (PathValue p) => p
  | _ =>
      if str_eqb (filename (source_directory a)) dot then mk_path false [lit "__targets"]
      else parse_path (filename (source_directory a) ++ lit "_targets")
  end.

(** * What the program does *)

Inductive output :=
| HelpText
| VersionText
| AboutText
| ConfigText (j : json)
| TargetNames (l : list path)
| GraphEdges (l : list (path * path)).

Inductive event :=
| ConfigRead (p : path)                                   (* a configuration file is opened *)
| RecipeRun (p : path)                                    (* a recipe is started while loading *)
| Scanned (source target : path) (files : file_list)      (* the source directory has been scanned *)
| Shown (file : option path) (what : output)              (* written to the file, or standard output *)
| Processed (g : file_list) (rs : list task_result) (tasks : list nat) (dryrun force : bool) (tr : list label).
                                                          (* TaskList::process has ended *)

(** Events, followed by a result, or an exception ([None]) *)
Definition io (A : Type) : Type := (list event * option A)%type.

Definition done {A} (a : A) : io A := ([], Some a).
Definition emit (e : event) : io unit := ([e], Some tt).
Definition lift {A} (o : option A) : io A := ([], o).
Definition and_then {A B} (x : io A) (f : A -> io B) : io B :=
  match snd x with
  | None => (fst x, None)
  | Some a => (fst x ++ fst (f a), snd (f a))
  end.

Fixpoint map_io {A B} (f : A -> io B) (l : list A) : io (list B) :=
  match l with
  | [] => done []
  | x :: l' => and_then (f x) (fun y => and_then (map_io f l') (fun ys => done (y :: ys)))
  end.

(** What is outside of the program, or modelled elsewhere *)
Record environment := mk_environment {
  (* std::regex, see CfgModel.v *)
  env_regex_ok : str -> bool;
  (* reading a configuration file, bin/config.cpp:31-46 *)
  env_read_config : path -> option compound;
  (* CommandDictionary::get for the given source directory, see LoadModel.v *)
  env_resolve : path -> path -> option (path * origin);
  (* Compiler::configRecipe, see LoadModel.v *)
  env_configure : path -> compound -> option compound;
  (* DirectoryScanner, see ScanModel.v: the recipes that are run while the files are
     loaded, and the result *)
  env_scan : tree_config -> list (str * (loader_kind * compiler)) -> compiler -> path -> path ->
             list path * option file_list;
  (* TaskList::process, see SchedModel.v: what happens, and the result *)
  env_process : file_list -> list task_result -> list nat -> bool -> bool -> list label * option nat
}.

Section Program.
Variable env : environment.

(** Compiler::resolveRecipe, core/db/compiler.hpp:64-72, as in LoadModel.v *)
Definition resolve_recipe_io (source : path) (c : compiler) : io compiler :=
  match env_resolve env source (recipe c) with
  | None => lift None
  | Some (p, o) =>
      if path_eqb p empty_path then done (mk_compiler p (Some o) (comp_config c) (use_get_tags c))
      else and_then (emit (RecipeRun p)) (fun _ =>
           and_then (lift (env_configure env p (comp_config c))) (fun cfg =>
           done (mk_compiler p (Some o) cfg (use_get_tags c))))
  end.

(** resolveRecipes, bin/config.cpp:56-69, as in CfgModel.v *)
Definition resolve_recipes_io (source : path) (c : config) : io config :=
  and_then (resolve_recipe_io source (dir_compiler c)) (fun d =>
  and_then (map_io (fun e => and_then (resolve_recipe_io source (snd (snd e))) (fun x => done (fst e, (fst (snd e), x))))
                   (info_loaders c)) (fun l =>
  done (mk_config (tree_loader c) l d))).

(** maike.cpp:314-319 *)
Definition read_configuration (a : arguments) : io config :=
  if has_option a ConfigDefault then done default_config
  else
    let files := match option_given a ConfigFiles with
                 | Some (PathsValue l) => l
                 | _ => [append (source_directory a) (mk_path false [lit "maikeconfig.json"])]
                 end in
    (map ConfigRead files, Some (fst (load_configuration (env_regex_ok env) (map (env_read_config env) files)))).

(** DirectoryScanner, called by load (source_tree_loader/main.cpp:7-23), and the rest
    of load, as in FileListModel.v *)
Definition load_tree (a : arguments) (c : config) (loaders : list (str * (loader_kind * compiler)))
  : io (target_list * file_list) :=
  let (runs, r) := env_scan env (tree_loader c) loaders (dir_compiler c) (source_directory a) (target_directory a) in
  and_then (map RecipeRun runs, r) (fun fs =>
  and_then (emit (Scanned (source_directory a) (target_directory a) fs)) (fun _ =>
  lift match load_project fs with Loaded x => Some x | Failed _ => None end)).

(** printTargets, maike.cpp:63-70: the names that are printed *)
Definition target_names (ts : target_list) (target_dir : path) : list path :=
  map (fun t => lexically_relative (fst t) target_dir) ts.

(** std::set<std::pair<path, path>>::insert *)
Definition pair_compare (x y : path * path) : comparison :=
  match path_compare (fst x) (fst y) with
  | Eq => path_compare (snd x) (snd y)
  | c => c
  end.

Fixpoint set_insert (x : path * path) (l : list (path * path)) : list (path * path) :=
  match l with
  | [] => [x]
  | y :: l' =>
      match pair_compare x y with
      | Eq => l
      | Lt => x :: l
      | Gt => y :: set_insert x l'
      end
  end.

(** printDepGraph, maike.cpp:72-94: the edges that are printed *)
Definition graph_edges (g : file_list) : list (path * path) :=
  fold_left (fun acc e => fold_left (fun acc d => set_insert (fst e, dep_name d) acc) (visit_edges (snd e)) acc) g [].

(** TaskList::process *)
Definition process_io (g : file_list) (dryrun force : bool) (l : option (list task_result * list nat)) : io nat :=
  match l with
  | None => lift None
  | Some (rs, tasks) =>
      let (tr, r) := env_process env g rs tasks dryrun force in
      and_then (emit (Processed g rs tasks dryrun force tr)) (fun _ => lift r)
  end.

(** getTarget, db/source_tree.cpp:15-29. [None]: throws *)
Definition find_target (ts : target_list) (target_dir name : path) : option target :=
  map_find (append target_dir name) ts.

(** compile for one target, source_tree.cpp:42-54 *)
Definition compile_target (ts : target_list) (g : file_list) (target_dir : path) (dryrun force : bool) (name : path) : io nat :=
  and_then (lift (find_target ts target_dir name)) (fun t =>
  process_io g dryrun force (make_target_task_list g (t_source t))).

(** compile for a list of targets, source_tree.cpp:56-75 *)
Definition compile_targets (ts : target_list) (g : file_list) (target_dir : path) (dryrun force : bool) (names : list path)
  : io (list nat) := map_io (compile_target ts g target_dir dryrun force) names.

(** compile for everything, source_tree.cpp:31-40 *)
Definition compile_all (g : file_list) (dryrun force : bool) : io nat := process_io g dryrun force (make_task_list g).

(** main, maike.cpp:289-405, after the command line has been parsed. The names of files
    that are given to options are not used (maike.cpp:63-72 and 250). *)
Definition main_body (a : arguments) : io unit :=
  if has_option a Help then emit (Shown None HelpText)
  else if has_option a Version then emit (Shown None VersionText)
  else if has_option a About then emit (Shown None AboutText)
  else
    and_then (read_configuration a) (fun cfg =>
    if has_option a ConfigDump then emit (Shown None (ConfigText (dump_config cfg)))
    else
      and_then (resolve_recipes_io (source_directory a) cfg) (fun cfg =>
      and_then (lift (map_loaders cfg)) (fun loaders =>
      and_then (load_tree a cfg loaders) (fun tree =>
      let (ts, g) := tree in
      if has_option a ListTargets then emit (Shown None (TargetNames (target_names ts (target_directory a))))
      else if has_option a PrintDepGraph then emit (Shown None (GraphEdges (graph_edges g)))
      else
        let dryrun := has_option a DryRun in
        let force := has_option a ForceRebuild in
        match option_given a Targets with
        | Some (PathsValue names) =>
            and_then (compile_targets ts g (target_directory a) dryrun force names) (fun _ => done tt)
        | _ => and_then (compile_all g dryrun force) (fun _ => done tt)
        end)))).

(** main, maike.cpp:282-412: the events, and the exit status *)
Definition main (accepts : cmd_option -> str -> bool) (argv : list str) : list event * Z :=
  let r := and_then (lift (command_line (option_table accepts) argv)) main_body in
  (fst r, match snd r with Some _ => 0%Z | None => 255%Z end).

End Program.
