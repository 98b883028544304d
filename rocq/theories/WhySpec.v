(** Vocabulary for statements about what the program tells. *)

From Coq Require Import Ascii String Bool ZArith.
From Coq Require Import List.
From Verif Require Import Str Path SMap JsonModel DbModel DepGraphSpec FileListModel FileListSpec SchedModel SchedSpec.
From Verif Require Import TaskListModel TaskListSpec CfgModel ValueModel ValueSpec CmdModel CmdSpec MainModel MainSpec WhyModel.
Import ListNotations.

(** * Reasons for a failure *)

(** A task fails to be performed as it should, and that is the first one for which this is
    recorded. *)
Definition failed_execution (g : file_list) (rs : list task_result) (tasks : list nat) (tr : list label) (m : str) : Prop :=
  exists ws cs s u o other, idle_pool ws /\ run (task_reads g) cs (init rs tasks ws) = Some (tr, s) /\
    ph s = Threw u /\ In (Finish u o) tr /\ o <> Succeeds /\ m = task_message g o other u.

(** The messages are those of the exceptions that are thrown in this run. *)
Definition explained (env : environment) (msg : messages) (events : list event) : Prop :=
  forall g rs tasks dryrun force tr, In (Processed g rs tasks dryrun force tr) events ->
    snd (env_process env g rs tasks dryrun force) = None ->
    failed_execution g rs tasks tr (msg_process msg g rs tasks dryrun force).

(** The file [p] has to have [d]: because it says so, because it is a target for which this
    has been declared, or because it takes over what its targets need. *)
Inductive requires (fs : file_list) : path -> dependency -> Prop :=
| requires_used p info d : In (p, info) fs -> In d (use_deps info) -> requires fs p d
| requires_declared p t d : generated fs p t -> In d (ti_use_deps (t_info t)) -> requires fs p d
| requires_contributed p t d : generated fs p t -> contributed fs p (t_source t) d -> requires fs p d
| requires_taken_over p info t d : In (p, info) fs -> use_target_deps info = true -> In t (targets info) ->
    requires fs (ti_name t) d -> requires fs p d.

(** What is wrong with files that do not make up a project, and how this is told *)
Inductive project_problem (fs : file_list) : str -> Prop :=
| declared_twice name t l1 l2 t' l3 : declared_targets fs = l1 ++ (name, t) :: l2 ++ (name, t') :: l3 ->
    project_problem fs (lit "Target has " ++ path_string name ++ lit " has already been defined in " ++ path_string (t_source t))
| needs_itself : reaches_cycle fs -> project_problem fs (lit "Cyclic dependency detected")
| not_found p d : requires fs p d -> ~ available fs (dep_name d) ->
    project_problem fs (path_string p ++ lit ": error: Failed to resolve " ++ path_string (dep_name d)).

(** The value [text] is not good for the option [o]. *)
Inductive bad_value : cmd_option -> str -> str -> Prop :=
| bad_flag o text : In o [ConfigDefault; DryRun; ForceRebuild] -> text <> [] ->
    bad_value o text (lit "Option does not take any value")
| bad_id text1 c text2 : Forall hexadecimal text1 -> length text1 < 64 -> ~ hexadecimal c ->
    bad_value BuildId (text1 ++ c :: text2) (lit "Invalid BuildId: `" ++ [c] ++ lit "` is not a hexadecimal digit")
| bad_time text : bad_value StartTime text (lit "Invalid timestamp " ++ text)
| bad_count text : bad_value NumWorkers text (lit "ThreadCount must be an integer greater than zero, or auto")
| bad_level text : bad_value LogLevel text
    (lit "Invalid log level format. Valid log levels: `errors`, `source_file_info`, `compilation_command`")
| bad_format text : bad_value LogOutputFormat text
    (lit "Unsupported output format. Supported formats: `plain_text`, `ansi_term`").

(** Something is wrong with one of the arguments. *)
Inductive argument_problem (accepts : cmd_option -> str -> bool) (argv : list str) : str -> Prop :=
| no_such_option arg : In arg argv -> arg <> [] ->
    (forall o text, ~ picks (option_table accepts) arg (option_item accepts o) text) ->
    argument_problem accepts argv (lit "Invalid command line option " ++ arg)
| no_value arg o : In arg argv -> picks (option_table accepts) arg (option_item accepts o) [] ->
    option_value_required o = true ->
    argument_problem accepts argv (lit "Option `" ++ option_name o ++ lit "` requires a value")
| not_accepted arg o text m : In arg argv -> picks (option_table accepts) arg (option_item accepts o) text ->
    option_convert accepts o text = None -> bad_value o text m ->
    argument_problem accepts argv m.

(** Those that are used for directories, or for files *)
Definition configured_compiler (c : config) (x : compiler) : Prop :=
  x = dir_compiler c \/ exists name kind, In (name, (kind, x)) (info_loaders c).

(** Something is wrong with the configuration [c], or with what it refers to. *)
Inductive configuration_problem (env : environment) (msg : messages) (source : path) (events : list event) (c : config) : str -> Prop :=
| no_recipe x : configured_compiler c x -> env_resolve env source (recipe x) = None ->
    configuration_problem env msg source events c (lit "Faild to map command `" ++ path_string (recipe x) ++ lit "`")
| recipe_failed x p o : configured_compiler c x -> env_resolve env source (recipe x) = Some (p, o) ->
    In (RecipeRun p) events -> env_configure env p (comp_config x) = None ->
    configuration_problem env msg source events c (msg_configure msg p (comp_config x))
| no_loader ext name : In (ext, name) (file_info_loaders (tree_loader c)) -> ~ In name (map fst (info_loaders c)) ->
    configuration_problem env msg source events c (lit "No loader of type " ++ name ++ lit " has been configured").

(** There is a reason to say [m]. *)
Inductive reason (env : environment) (msg : messages) (accepts : cmd_option -> str -> bool) (argv : list str)
  (events : list event) : str -> Prop :=
| wrong_argument m : argument_problem accepts argv m -> reason env msg accepts argv events m
| wrong_configuration a c m : command_line (option_table accepts) argv = Some a ->
    snd (read_configuration env a) = Some c -> configuration_problem env msg (source_directory a) events c m ->
    reason env msg accepts argv events m
| not_loaded a t l d : command_line (option_table accepts) argv = Some a ->
    snd (env_scan env t l d (source_directory a) (target_directory a)) = None ->
    (forall s td fs, ~ In (Scanned s td fs) events) ->
    reason env msg accepts argv events (scan_message (msg_scan msg t l d (source_directory a) (target_directory a)))
| no_project s td fs m : In (Scanned s td fs) events -> project_problem fs m -> reason env msg accepts argv events m
| cyclic_graph s td fs ts g p : In (Scanned s td fs) events -> load_project fs = Loaded (ts, g) -> file_on_cycle g p ->
    reason env msg accepts argv events (lit "Cyclic dependency detected")
| no_target s td fs names name : In (Scanned s td fs) events -> has_value accepts argv Targets (PathsValue names) ->
    In name names -> ~ In (append td name) (map fst (declared_targets fs)) ->
    reason env msg accepts argv events (lit "Unkonwn target `" ++ path_string name ++ lit "`")
| not_compiled g rs tasks d f tr v p : In (Processed g rs tasks d f tr) events -> In (Finish v Fails) tr -> numbered g v p ->
    reason env msg accepts argv events (path_string p ++ lit ": Compilation failed")
| interrupted g rs tasks d f tr v : In (Processed g rs tasks d f tr) events -> In (Finish v Throws) tr ->
    reason env msg accepts argv events (msg_process msg g rs tasks d f).

Definition is_error (n : note) : Prop := match n with ErrorNote _ => True | _ => False end.

(** * Numbers *)

(** [l] has all the elements described by [P], each of them once. *)
Definition lists {A} (P : A -> Prop) (l : list A) : Prop := NoDup l /\ forall x, In x l <-> P x.

(** The sum of the lengths of lists *)
Fixpoint total {A} (ls : list (list A)) : nat :=
  match ls with [] => 0 | l :: ls' => length l + total ls' end.

(** * Other vocabulary *)

(** Build ids are checked in the way it is done in core/build/id.cpp. *)
Definition checks_ids (accepts : cmd_option -> str -> bool) : Prop :=
  forall s, accepts BuildId s = false -> id_of_string s = None.

(** [part] is somewhere in [s]. *)
Definition occurs (part s : str) : Prop := exists s1 s2, s = s1 ++ part ++ s2.
