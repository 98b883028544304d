(** Vocabulary for statements about the program. *)

From Coq Require Import Ascii String Bool ZArith.
From Coq Require Import List.
From Verif Require Import Str Path SMap JsonModel DbModel DepGraphSpec FileListModel FileListSpec SchedModel SchedSpec.
From Verif Require Import TaskListModel TaskListSpec CmdModel CmdSpec MainModel.
Import ListNotations.

(** * The command line *)

Definition option_item (accepts : cmd_option -> str -> bool) (o : cmd_option) : opt_item opt_value :=
  mk_opt_item (option_name o) (option_value_required o) (option_convert accepts o).

(** The program accepts the arguments: each of them selects an option, and has a value
    that the option takes. *)
Definition valid (accepts : cmd_option -> str -> bool) (argv : list str) : Prop :=
  forall arg, In arg argv -> arg = [] \/
    exists o text value, picks (option_table accepts) arg (option_item accepts o) text /\ takes (option_item accepts o) text value.

(** One of the arguments selects the option [o]. *)
Definition given (accepts : cmd_option -> str -> bool) (argv : list str) (o : cmd_option) : Prop :=
  exists arg text, In arg argv /\ picks (option_table accepts) arg (option_item accepts o) text.

(** [value] is what the last argument that selects [o] stands for. *)
Definition has_value (accepts : cmd_option -> str -> bool) (argv : list str) (o : cmd_option) (value : opt_value) : Prop :=
  exists argv1 arg text argv2, argv = argv1 ++ arg :: argv2 /\
    picks (option_table accepts) arg (option_item accepts o) text /\ takes (option_item accepts o) text value /\
    forall a t, In a argv2 -> ~ picks (option_table accepts) a (option_item accepts o) t.

(** * Events *)

Definition is_build (e : event) : Prop := match e with Processed _ _ _ _ _ _ => True | _ => False end.

(** A process may have been started. *)
Definition starts_process (e : event) : Prop :=
  match e with
  | RecipeRun _ => True
  | Processed _ _ _ dryrun _ _ => dryrun = false
  | _ => False
  end.

(** The options that are there to get information *)
Definition implemented_queries : list cmd_option := [Help; Version; About; ConfigDump; ListTargets; PrintDepGraph].
Definition other_queries : list cmd_option := [PrintDepGraphInv; DumpDatabase; ListExternalDeps].

(** No option that makes the program end before anything is built *)
Definition no_query (accepts : cmd_option -> str -> bool) (argv : list str) : Prop :=
  forall o, In o implemented_queries -> ~ given accepts argv o.

(** The result of [process] is that of an execution, starting with an idle pool. *)
Definition execution (g : file_list) (rs : list task_result) (tasks : list nat) (tr : list label) (r : option nat) : Prop :=
  exists ws cs s, idle_pool ws /\ run (task_reads g) cs (init rs tasks ws) = Some (tr, s) /\
    match r with
    | Some n => ph s = Returned n
    | None => exists u, ph s = Threw u
    end.

(** The parts that are modelled elsewhere behave as they should in this run. *)
Record genuine (env : environment) (events : list event) : Prop := mk_genuine {
  genuine_files : forall s t fs, In (Scanned s t fs) events ->
    scanned fs /\ forall ts g, load_project fs = Loaded (ts, g) -> ~ known g empty_path;
  genuine_tasks : forall g rs tasks dryrun force tr, In (Processed g rs tasks dryrun force tr) events ->
    execution g rs tasks tr (snd (env_process env g rs tasks dryrun force))
}.

(** The task that belongs to [p] has been completed. *)
Definition completed (g : file_list) (tr : list label) (p : path) : Prop :=
  exists v, numbered g v p /\ In (Start v) tr /\ In (Finish v Succeeds) tr.

(** [p] has to be built in order to get the target [name], given relative to the
    target directory. *)
Definition part_of_target (fs g : file_list) (target_dir name p : path) : Prop :=
  exists t, In (append target_dir name, t) (declared_targets fs) /\ builds fs p /\ file_reachable g (t_source t) p.
