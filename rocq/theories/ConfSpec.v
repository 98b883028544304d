(** Vocabulary for where the configuration comes from, and for what it says. *)

From Coq Require Import Ascii String Bool ZArith.
From Coq Require Import List.
From Verif Require Import Str Path JsonModel DbModel ValueModel RecipeModel CfgModel CfgSpec CmdModel CmdSpec MainModel MainSpec JsonSpec.
Import ListNotations.

(** * The options that the program has *)

(** An option may be given without a value, needs one, or takes none. *)
Inductive value_use := Optional | Required | Without.

(** Name and value of each option, as they are documented *)
Definition documented : list (cmd_option * (string * value_use)) :=
  [(Help, ("--help", Optional)); (Version, ("--version", Optional)); (About, ("--about", Optional));
   (PrintDepGraph, ("--print-dep-graph", Optional)); (PrintDepGraphInv, ("--print-dep-graph-inv", Optional));
   (DumpDatabase, ("--dump-database", Optional)); (ListTargets, ("--list-targets", Optional));
   (ListExternalDeps, ("--list-external-deps", Optional)); (ConfigDump, ("--configdump", Optional));
   (Targets, ("--targets", Required)); (ConfigFiles, ("--configfiles", Required));
   (SourceDir, ("--source-dir", Required)); (TargetDir, ("--target-dir", Required));
   (BuildId, ("--build-id", Required)); (StartTime, ("--start-time", Required));
   (NumWorkers, ("--num-workers", Required)); (LogLevel, ("--log-level", Required));
   (LogOutputFormat, ("--log-output-format", Required));
   (ConfigDefault, ("--config-default", Without)); (DryRun, ("--dry-run", Without));
   (ForceRebuild, ("--force-rebuild", Without))]%string.

(** * Where the configuration comes from *)

Section Sources.
  Variable accepts : cmd_option -> str -> bool.
  Variable argv : list str.

  (** The directory with the project *)
  Definition project_directory (s : path) : Prop :=
    has_value accepts argv SourceDir (PathValue s) \/ (~ given accepts argv SourceDir /\ s = mk_path false [lit "."]).

  (** The configuration files that have to be read, in this order *)
  Definition chosen_files (l : list path) : Prop :=
    (given accepts argv ConfigDefault /\ l = []) \/
    (~ given accepts argv ConfigDefault /\ has_value accepts argv ConfigFiles (PathsValue l)) \/
    (~ given accepts argv ConfigDefault /\ ~ given accepts argv ConfigFiles /\
     exists s, project_directory s /\ l = [append s (mk_path false [lit "maikeconfig.json"])]).

  (** The configuration to use *)
  Definition chosen_config (env : environment) (c : config) : Prop :=
    (given accepts argv ConfigDefault /\ c = default_config) \/
    (~ given accepts argv ConfigDefault /\
     exists l, chosen_files l /\ c = fst (load_configuration (env_regex_ok env) (map (env_read_config env) l))).
End Sources.

Definition is_config_read (e : event) : Prop := match e with ConfigRead _ => True | _ => False end.

(** * What the configuration says *)

Section Meaning.
  Variable regex_ok : str -> bool.

  (** The member [k] of [o] is a list of the regular expressions [ps]. *)
  Definition patterns_in (o : compound) (k : string) (ps : list str) : Prop :=
    member o (lit k) (JArray (map JString ps)) /\ Forall (fun p => regex_ok p = true) ps.

  Definition tree_says (o : compound) (t : tree_config) : Prop :=
    patterns_in o "input_filter" (input_filter t) /\
    patterns_in o "fullpath_input_filter" (dir_filter t) /\
    (exists z, member o (lit "recursive") (JInteger z) /\ (recursive t = true <-> z <> 0%Z)) /\
    exists l, member o (lit "file_info_loaders") (JObject l) /\ increasing (file_info_loaders t) /\
      forall ext j, member l ext j <-> exists name, j = JString name /\ In (ext, name) (file_info_loaders t).

  (** The kind of loader, with its settings *)
  Definition kind_says (o : compound) (k : loader_kind) : Prop :=
    match k with
    | KApp => member o (lit "loader") (JString (lit "app"))
    | KLib => member o (lit "loader") (JString (lit "lib"))
    | KExtension => member o (lit "loader") (JString (lit "extension"))
    | KMaikerule => member o (lit "loader") (JString (lit "maikerule"))
    | KCxx ps => member o (lit "loader") (JString (lit "cxx_src_loader")) /\
        ((~ has_member o (lit "config") /\ ps = [lit ".*\.gen\.hpp$"]) \/
         exists s, member o (lit "config") (JObject s) /\
           (patterns_in s "generated_includes" ps \/ (~ has_member s (lit "generated_includes") /\ ps = [])))
    | KGeneric ext mode => member o (lit "loader") (JString (lit "generic")) /\
        ((~ has_member o (lit "config") /\ ext = [] /\ mode = Append) \/
         exists s, member o (lit "config") (JObject s) /\ member s (lit "target_filename_ext") (JString ext) /\
           ((member s (lit "filename_ext_replacement_mode") (JString (lit "append")) /\ mode = Append) \/
            (member s (lit "filename_ext_replacement_mode") (JString (lit "replace")) /\ mode = Replace) \/
            (~ has_member s (lit "filename_ext_replacement_mode") /\ mode = Append)))
    end.

  (** The recipe has not been located yet. *)
  Definition compiler_says (o : compound) (x : compiler) : Prop := described_by o x /\ comp_origin x = None.

  Definition loader_says (j : json) (l : loader_kind * compiler) : Prop :=
    exists o c, j = JObject o /\ kind_says o (fst l) /\ member o (lit "compiler") (JObject c) /\ compiler_says c (snd l).

  Definition config_says (j : json) (c : config) : Prop :=
    exists o t l d, j = JObject o /\
      member o (lit "source_tree_loader") (JObject t) /\ tree_says t (tree_loader c) /\
      member o (lit "source_file_info_loaders") (JObject l) /\ increasing (info_loaders c) /\
      (forall name x, In (name, x) (info_loaders c) -> exists j, member l name j /\ loader_says j x) /\
      (forall name j, member l name j -> exists x, In (name, x) (info_loaders c) /\ loader_says j x) /\
      member o (lit "dir_compiler") (JObject d) /\ compiler_says d (dir_compiler c).
End Meaning.

(** * What is done without a configuration file *)

(** For each extension: the kind of loader, the recipe, and its settings *)
Definition usual : list (string * (loader_kind * (string * compound))) :=
  [(".app.maikerule", (KApp, ("cxx_linker.py", [(lit "cflags", JArray [JString (lit "-g")])])));
   (".cpp", (KCxx [lit ".*\.gen\.hpp$"], ("cxx_compiler.py",
      [(lit "iquote", JArray [JString (lit ".")]); (lit "cflags", JArray [JString (lit "-g"); JString (lit "-Wall")])])));
   (".hpp", (KCxx [lit ".*\.gen\.hpp$"], ("cxx_compiler.py",
      [(lit "iquote", JArray [JString (lit ".")]); (lit "cflags", JArray [JString (lit "-g"); JString (lit "-Wall")])])));
   (".lib.maikerule", (KLib, ("make_lib.py", [])));
   (".py", (KExtension, ("", [])));
   (".sass", (KGeneric (lit ".css") Replace, ("sass2css.py", [])));
   (".test.cpp", (KCxx [lit ".*\.gen\.hpp$"], ("cxx_compiler.py",
      [(lit "iquote", JArray [JString (lit ".")]); (lit "cflags", JArray [JString (lit "-g"); JString (lit "-Wall")]);
       (lit "actions", JArray [JString (lit "link"); JString (lit "run")])])))]%string.
