(** Properties C62, C63 and C64: the configuration. *)

From Coq Require Import Ascii String ZArith Bool.
From Coq Require Import List.
From Verif Require Import Str Path JsonModel JsonSpec DbModel ValueModel LoadModel LoadSpec RecipeSpec CfgModel CfgSpec CfgProofs.
Import ListNotations.

(** C62. [m] is the content of the file written with --configdump. It is loaded without
    any message. *)
Theorem C62_round_trip : forall (regex_ok : str -> bool) (c : config), proper_config regex_ok c ->
    exists m c', dump_config c = JObject m /\ load_configuration regex_ok [Some m] = (c', false) /\ same_config c c'.
Proof. exact dump_and_load. Qed.
Print Assumptions C62_round_trip.

(** Whatever has been loaded can be dumped. *)
Theorem C62_loaded : forall (regex_ok : str -> bool) (files : list (option compound)),
    accepts_defaults regex_ok ->
    (forall m, In (Some m) files -> valid_json (JObject m)) ->
    proper_config regex_ok (fst (load_configuration regex_ok files)).
Proof. intros regex_ok files D V. exact (loaded_proper regex_ok D files V). Qed.
Print Assumptions C62_loaded.

(** C63. If the configuration cannot be used, then the default configuration is used
    instead; a mixture never is. What the files say together ([load_config]) is the
    subject of C31. There is a message unless all of them could be read and merged. *)
Theorem C63_given_or_default_partial : forall (regex_ok : str -> bool) (files : list (option compound)) (c : config) (reported : bool),
    load_configuration regex_ok files = (c, reported) ->
    (exists j, obj_get (lit "maikeconfig") (load_config files) = Some j /\ config_of_json regex_ok j = Some c /\
               (reported = false <-> exists m, combined files m)) \/
    (c = default_config /\ reported = true /\
     forall j, obj_get (lit "maikeconfig") (load_config files) = Some j -> config_of_json regex_ok j = None).
Proof. exact given_or_default. Qed.
Print Assumptions C63_given_or_default_partial.

Theorem C63_stops_refuted : forall regex_ok : str -> bool, exists m : compound,
    valid_json (JObject m) /\
    (exists j, obj_get (lit "maikeconfig") m = Some j /\ config_of_json regex_ok j = None) /\
    load_configuration regex_ok [Some m] = (default_config, true).
Proof. intro regex_ok. exists partial_file. exact (unusable_configuration regex_ok). Qed.
Print Assumptions C63_stops_refuted.

(** C64 *)
Theorem C64_loaders_mapped : forall c : config,
    increasing (file_info_loaders (tree_loader c)) -> increasing (info_loaders c) ->
    match map_loaders c with
    | Some m => ~ loader_missing c /\ NoDup (map fst m) /\ forall e l, In (e, l) m <-> loader_for c e l
    | None => loader_missing c
    end.
Proof. exact map_loaders_spec. Qed.
Print Assumptions C64_loaders_mapped.

Theorem C64_loader_of_file : forall (c : config) (m : list (str * (loader_kind * compiler))) (p : path),
    increasing (file_info_loaders (tree_loader c)) -> increasing (info_loaders c) ->
    map_loaders c = Some m ->
    match match_longest_extension p m with
    | Some l => exists e, extension_of (filename p) e /\ loader_for c e l /\
        (forall e' l', extension_of (filename p) e' -> loader_for c e' l' -> length e' <= length e)
    | None => forall e l, extension_of (filename p) e -> ~ loader_for c e l
    end.
Proof. exact loader_of_file. Qed.
Print Assumptions C64_loader_of_file.

Theorem C64_recipes_resolved : forall resolve configure (c c' : config), resolve_recipes resolve configure c = Some c' ->
    tree_loader c' = tree_loader c /\ looked_up resolve configure (dir_compiler c) (dir_compiler c') /\
    Forall2 (fun x y => fst x = fst y /\ fst (snd x) = fst (snd y) /\
                        looked_up resolve configure (snd (snd x)) (snd (snd y))) (info_loaders c) (info_loaders c').
Proof. exact recipes_looked_up. Qed.
Print Assumptions C64_recipes_resolved.

(** The same is true of a recipe that a file asks for. *)
Theorem C64_own_recipe : forall src s t parse resolve configure script_tags builtin l content tags info,
    load_source_file src s t parse resolve configure script_tags builtin l content = Some info ->
    parse (snd (filter_input l content)) = Some tags ->
    compiler_default info = Some (loader_compiler l) /\
    match obj_get (lit "compiler") tags with
    | None => si_compiler info = no_compiler
    | Some j => exists o x, j = JObject o /\ described_by o x /\ looked_up resolve configure x (si_compiler info)
    end.
Proof. exact own_recipe. Qed.
Print Assumptions C64_own_recipe.

(** ** Examples *)

Local Open Scope string_scope.
Local Open Scope list_scope.

Definition any_regex (s : str) : bool := true.

(** The default configuration meets the conditions. *)
Example default_is_proper : proper_config any_regex default_config.
Proof. apply default_proper. repeat constructor. Qed.

(** So does one with a loader for markdown. *)
Definition markdown_config : config :=
  mk_config (mk_tree_config [lit "^\."] [] [(lit ".md", lit "md")] true)
    [(lit "md", (KGeneric (lit ".html") Replace,
                 mk_compiler (parse_path (lit "tools/md.py")) None [(lit "toc", JTrue); (lit "css", JString (lit "a.css"))] true))]
    (compiler_of "make_directory.py" []).

Example markdown_dumped : dump_config markdown_config =
  JObject [(lit "maikeconfig", JObject
    [(lit "dir_compiler", JObject [(lit "config", JObject []); (lit "recipe", JString (lit "make_directory.py")); (lit "use_get_tags", JInteger 0)]);
     (lit "source_file_info_loaders", JObject
        [(lit "md", JObject
           [(lit "compiler", JObject
               [(lit "config", JObject [(lit "css", JString (lit "a.css")); (lit "toc", JTrue)]);
                (lit "recipe", JString (lit "tools/md.py")); (lit "use_get_tags", JInteger 1)]);
            (lit "config", JObject [(lit "filename_ext_replacement_mode", JString (lit "replace"));
                                    (lit "target_filename_ext", JString (lit ".html"))]);
            (lit "loader", JString (lit "generic"))])]);
     (lit "source_tree_loader", JObject
        [(lit "file_info_loaders", JObject [(lit ".md", JString (lit "md"))]); (lit "fullpath_input_filter", JArray []);
         (lit "input_filter", JArray [JString (lit "^\.")]); (lit "recursive", JInteger 1)])])].
Proof. reflexivity. Qed.

Example markdown_loaded : option_map tree_loader
    (match dump_config markdown_config with JObject m => Some (fst (load_configuration any_regex [Some m])) | _ => None end)
  = Some (tree_loader markdown_config).
Proof. reflexivity. Qed.

(** The extensions of the default configuration *)
Example default_extensions :
  option_map (map (fun e => (fst e, kind_name (fst (snd e))))) (map_loaders default_config) =
  Some [(lit ".app.maikerule", lit "app"); (lit ".cpp", lit "cxx_src_loader"); (lit ".hpp", lit "cxx_src_loader");
        (lit ".lib.maikerule", lit "lib"); (lit ".py", lit "extension"); (lit ".sass", lit "generic");
        (lit ".test.cpp", lit "cxx_src_loader")].
Proof. reflexivity. Qed.

Example missing_loader :
  map_loaders (mk_config (mk_tree_config [] [] [(lit ".md", lit "md")] true) [] no_compiler) = None.
Proof. reflexivity. Qed.

(** A file that asks for another recipe, which changes its settings *)
Definition with_recipe : compound :=
  [(lit "compiler", JObject [(lit "recipe", JString (lit "new.py")); (lit "config", JObject [(lit "a", JInteger 1)])])].

Example own_recipe_case : exists info,
  load_source_file (mk_path false [lit "a.xml"]) (mk_path false []) (mk_path false [lit "out"])
    (fun _ => Some with_recipe) (fun p => Some (p, Project)) (fun _ c => Some ((lit "b", JNull) :: c)) (fun _ _ => None) []
    (mk_loader (fun text => ([], text)) (fun _ => []) (mk_compiler (mk_path true [lit "doc.py"]) (Some System) [] false) false) [] = Some info /\
  si_compiler info = mk_compiler (mk_path false [lit "new.py"]) (Some Project) [(lit "b", JNull); (lit "a", JInteger 1)] false.
Proof. eexists. split; reflexivity. Qed.
