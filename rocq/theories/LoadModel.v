(** Model of core/source_tree_loader: from a path to information about a source file.

    Scanning directories is modelled in ScanModel.v. *)

From Coq Require Import Ascii String NArith ZArith Bool Arith.
From Coq Require Import List.
From Verif Require Import Str Path SMap JsonModel DbModel.
Import ListNotations.

(** * File name extensions *)

(** rfind('.'): what is in front of the last dot, and the rest *)
Fixpoint split_at_last_dot (s : str) : option (str * str) :=
  match s with
  | [] => None
  | c :: s' =>
      match split_at_last_dot s' with
      | Some (a, b) => Some (c :: a, b)
      | None => if Ascii.eqb c "." then Some ([], s) else None
      end
  end.

(** path::stem() and path::extension() of a file name, as in libstdc++. [None]: the
    extension is empty. *)
Definition split_extension (name : str) : option (str * str) :=
  if Nat.leb (length name) 2 && match name with c :: _ => Ascii.eqb c "." | [] => false end then None
  else match split_at_last_dot name with
       | Some ([], _) => None
       | r => r
       end.

(** getFullExtension, core/utils/fs.cpp:68-76. One unit of [fuel] for each character
    is sufficient (see LoadProofs.v). *)
Fixpoint full_extension_loop (fuel : nat) (name : str) : str :=
  match fuel with
  | 0 => []
  | S fuel' =>
      match split_extension name with
      | None => []
      | Some (stem, ext) => full_extension_loop fuel' stem ++ ext
      end
  end.

Definition full_extension (p : path) : str := full_extension_loop (length (filename p)) (filename p).

(** find, for a std::map with strings as keys *)
Fixpoint lookup {V} (k : str) (m : list (str * V)) : option V :=
  match m with
  | [] => None
  | (k', v) :: m' => if str_eqb k k' then Some v else lookup k m'
  end.

(** The loop in matchLongestExtension, core/utils/fs.hpp:28-46 *)
Fixpoint match_suffixes {V} (s : str) (dict : list (str * V)) : option V :=
  match s with
  | [] => None
  | c :: s' =>
      if Ascii.eqb c "." then
        match lookup s dict with
        | Some v => Some v
        | None => match_suffixes s' dict
        end
      else match_suffixes s' dict
  end.

Definition match_longest_extension {V} (p : path) (dict : list (str * V)) : option V :=
  match_suffixes (full_extension p) dict.

(** makeShellExecPath, core/utils/fs.hpp:20-24 *)
Definition make_shell_exec_path (p : path) : path :=
  if path_eqb (parent_path p) empty_path then append (mk_path false [dot]) p else p.

(** * CommandDictionary *)

(** The search in CommandDictionary::get, command_dictionary.cpp:20-37. [regular]
    tells whether there is a regular file with the given name. [None]: an exception
    is thrown. *)
Definition find_command (regular : path -> bool) (project_dir system_dir cmd : path) : option (path * origin) :=
  if regular (append project_dir cmd) then Some (lexically_normal (append project_dir cmd), Project)
  else if regular (append system_dir cmd) then Some (lexically_normal (append system_dir cmd), System)
  else None.

Definition command_cache := smap (path * origin).

(** The first critical section, lines 12-18. *)
Definition cached_command (cache : command_cache) (cmd : path) : option (path * origin) :=
  if path_eqb cmd empty_path then Some (cmd, Project) else map_find cmd cache.

(** m_commands[cmd] = res, line 40 *)
Fixpoint map_assign {V} (k : path) (v : V) (m : smap V) : smap V :=
  match m with
  | [] => [(k, v)]
  | (k', v') :: m' =>
      match path_compare k k' with
      | Eq => (k', v) :: m'
      | Lt => (k, v) :: m
      | Gt => (k', v') :: map_assign k v m'
      end
  end.

(** get, called by one thread at a time, lines 9-42 *)
Definition get_command (regular : path -> bool) (project_dir system_dir : path) (cache : command_cache) (cmd : path)
  : command_cache * option (path * origin) :=
  match cached_command cache cmd with
  | Some r => (cache, Some r)
  | None =>
      match find_command regular project_dir system_dir cmd with
      | Some r => (map_assign cmd r cache, Some r)
      | None => (cache, None)
      end
  end.

(** A query: the state of the file system, and the command *)
Definition query : Type := ((path -> bool) * path)%type.

(** The answers to queries made one after the other, together with the queries *)
Fixpoint answer_all (project_dir system_dir : path) (cache : command_cache) (h : list query)
  : command_cache * list (query * option (path * origin)) :=
  match h with
  | [] => (cache, [])
  | q :: h' =>
      let (cache', a) := get_command (fst q) project_dir system_dir cache (snd q) in
      let (cache'', l) := answer_all project_dir system_dir cache' h' in
      (cache'', (q, a) :: l)
  end.

(** Any number of threads. [Ask cmd]: a thread runs the first critical section, and
    the search, if there is any. [Finish n]: the thread that is number n among
    those waiting to store their result does so. An answer goes with the command. *)
Inductive dict_event := Ask (cmd : path) | Finish (n : nat).

Record dict_state := mk_dict {
  dict_cache : command_cache;
  dict_waiting : list (path * (path * origin));
  dict_answers : list (path * option (path * origin))
}.

Fixpoint remove_nth {X} (n : nat) (l : list X) : list X :=
  match n, l with
  | _, [] => []
  | 0, _ :: l' => l'
  | S n', x :: l' => x :: remove_nth n' l'
  end.

Definition dict_step (regular : path -> bool) (project_dir system_dir : path) (s : dict_state) (e : dict_event)
  : dict_state :=
  match e with
  | Ask cmd =>
      match cached_command (dict_cache s) cmd with
      | Some r => mk_dict (dict_cache s) (dict_waiting s) ((cmd, Some r) :: dict_answers s)
      | None =>
          match find_command regular project_dir system_dir cmd with
          | Some r => mk_dict (dict_cache s) ((cmd, r) :: dict_waiting s) (dict_answers s)
          | None => mk_dict (dict_cache s) (dict_waiting s) ((cmd, None) :: dict_answers s)
          end
      end
  | Finish n =>
      match nth_error (dict_waiting s) n with
      | Some (cmd, r) =>
          mk_dict (map_assign cmd r (dict_cache s)) (remove_nth n (dict_waiting s)) ((cmd, Some r) :: dict_answers s)
      | None => s
      end
  end.

Definition dict_init : dict_state := mk_dict [] [] [].

Definition dict_run (regular : path -> bool) (project_dir system_dir : path) (es : list dict_event) : dict_state :=
  fold_left (dict_step regular project_dir system_dir) es dict_init.

(** * Compiler *)

(** operator|, core/db/compiler.cpp:12-25. [None]: merging the configurations throws. *)
Definition combine (a b : compiler) : option compiler :=
  match compound_or (comp_config a) (comp_config b) with
  | None => None
  | Some cfg =>
      Some (mk_compiler (if path_eqb (recipe b) empty_path then recipe a else recipe b)
              (match comp_origin b with Some o => Some o | None => comp_origin a end)
              cfg (use_get_tags b))
  end.

(** makeDependency(Compiler const&), core/db/compiler.hpp:118-122 *)
Definition compiler_dependency (c : compiler) : dependency :=
  mk_dependency None (recipe c) (match comp_origin c with Some o => o | None => System end) [].

(** Compiler::resolveRecipe, compiler.hpp:64-72. [resolve] is CommandDictionary::get,
    and [configure] runs the recipe with "configure" and loads the result
    (Compiler::configRecipe, compiler.cpp:55-86). Both are [None] if they throw. *)
Definition resolve_recipe (resolve : path -> option (path * origin)) (configure : path -> compound -> option compound)
  (c : compiler) : option compiler :=
  match resolve (recipe c) with
  | None => None
  | Some (p, o) =>
      if path_eqb p empty_path then Some (mk_compiler p (Some o) (comp_config c) (use_get_tags c))
      else match configure p (comp_config c) with
           | None => None
           | Some cfg => Some (mk_compiler p (Some o) cfg (use_get_tags c))
           end
  end.

(** * Tags *)

(** JsonRefConst::as, and getIf and get in core/key_value_store/compound.hpp.
    [None]: an exception is thrown. *)
Definition as_string (j : json) : option str := match j with JString s => Some s | _ => None end.
Definition as_integer (j : json) : option Z := match j with JInteger z => Some z | _ => None end.
Definition as_object (j : json) : option compound := match j with JObject o => Some o | _ => None end.
Definition as_array (j : json) : option (list json) := match j with JArray l => Some l | _ => None end.

Definition get {T} (as_t : json -> option T) (k : str) (o : compound) : option T :=
  match obj_get k o with
  | Some j => as_t j
  | None => None
  end.

Definition get_if {T} (as_t : json -> option T) (k : str) (o : compound) : option (option T) :=
  match obj_get k o with
  | Some j => option_map Some (as_t j)
  | None => Some None
  end.

(** std::transform with a function that may throw *)
Fixpoint map_all {X Y} (f : X -> option Y) (l : list X) : option (list Y) :=
  match l with
  | [] => Some []
  | x :: l' =>
      match f x, map_all f l' with
      | Some y, Some ys => Some (y :: ys)
      | _, _ => None
      end
  end.

(** fromString, core/db/source_file_origin.cpp:9-27 *)
Definition origin_of_string (s : str) : option origin :=
  if str_eqb s (lit "generated") then Some Generated
  else if str_eqb s (lit "project") then Some Project
  else if str_eqb s (lit "system") then Some System
  else if str_eqb s (lit "pkg-config") then Some PkgConfig
  else None.

(** fromString, core/db/rebuild_policy.cpp:9-18 *)
Definition policy_of_string (s : str) : option rebuild_policy :=
  if str_eqb s (lit "always") then Some Always
  else if str_eqb s (lit "only_if_out_of_date") then Some OnlyIfOutOfDate
  else None.

(** fromJson for Compiler, compiler.hpp:94-105 *)
Definition compiler_of_json (j : json) : option compiler :=
  match as_object j with
  | None => None
  | Some o =>
      match get_if as_string (lit "recipe") o, get_if as_integer (lit "use_get_tags") o, get as_object (lit "config") o with
      | Some r, Some t, Some cfg =>
          Some (mk_compiler (match r with Some s => parse_path s | None => empty_path end) None cfg
                  (match t with Some z => negb (Z.eqb z 0) | None => false end))
      | _, _, _ => None
      end
  end.

(** * SourceFileLoadContext *)

Section Context.

(** SourceFileLoadContext, source_file_load_ctxt.hpp:18-57 *)
Variables source_path source_dir target_dir : path.

Definition source_file_dir : path := lexically_normal (parent_path source_path).

(** prependSearchPath, source_file_load_ctxt.cpp:14-35 *)
Definition prepend_search_path (name : path) (o : origin) : path :=
  if match o with Project | Generated => true | _ => false end then
    let local := match path_string name with "."%char :: "/"%char :: _ => true | _ => false end in
    let ret := if local then lexically_normal (append source_file_dir name) else append source_dir name in
    let ret := match o with Generated => append target_dir (lexically_relative ret source_dir) | _ => ret end in
    lexically_normal ret
  else name.

(** Lines 37-45 *)
Definition prepend_to_dependency (d : dependency) : dependency :=
  mk_dependency None (prepend_search_path (dep_name d) (dep_origin d)) (dep_origin d) (dep_props d).

(** getDependency, lines 60-81 *)
Definition get_dependency (default_origin : origin) (dep : compound) : option dependency :=
  match get as_string (lit "ref") dep with
  | None => None
  | Some name =>
      match get_if as_string (lit "origin") dep with
      | None => None
      | Some o =>
          match (match o with None => Some default_origin | Some s => origin_of_string s end) with
          | None => None
          | Some expected_origin =>
              let others := filter (fun m => negb (str_eqb (fst m) (lit "ref")) && negb (str_eqb (fst m) (lit "origin"))) dep in
              match map_all (fun m => option_map (mk_property (fst m)) (as_string (snd m))) others with
              | None => None
              | Some props =>
                  Some (mk_dependency None (prepend_search_path (parse_path name) expected_origin) expected_origin props)
              end
          end
      end
  end.

(** makeTargetName, lines 83-89 *)
Definition make_target_name (name : path) : path :=
  lexically_normal (append target_dir (lexically_relative (append source_file_dir name) source_dir)).

(** The array of dependencies under the given key *)
Definition get_dependencies (key : string) (default_origin : origin) (tags : compound) : option (list dependency) :=
  match get_if as_array (lit key) tags with
  | None => None
  | Some None => Some []
  | Some (Some items) =>
      map_all (fun item => match as_object item with Some o => get_dependency default_origin o | None => None end) items
  end.

(** getTarget, lines 91-123 *)
Definition get_target (target : compound) : option target_info :=
  match get as_string (lit "name") target, get_dependencies "dependencies" System target,
        get_if as_array (lit "pkgconfig_libs") target with
  | Some name, Some deps, Some libs =>
      match map_all as_string (match libs with Some l => l | None => [] end) with
      | None => None
      | Some names =>
          Some (mk_target_info (make_target_name (parse_path name))
                  (deps ++ map (fun n => mk_dependency None (parse_path n) PkgConfig []) names))
      end
  | _, _, _ => None
  end.

(** getTargets, lines 125-142 *)
Definition get_targets (tags : compound) : option (list target_info) :=
  match get_if as_object (lit "target") tags, get_if as_array (lit "targets") tags with
  | Some one, Some several =>
      match map_all get_target (match one with Some t => [t] | None => [] end),
            map_all (fun item => match as_object item with Some t => get_target t | None => None end)
                    (match several with Some l => l | None => [] end) with
      | Some a, Some b => Some (a ++ b)
      | _, _ => None
      end
  | _, _ => None
  end.

(** getUseDeps, lines 161-176, and getChildTargetUseDeps, lines 144-159 *)
Definition get_use_deps : compound -> option (list dependency) := get_dependencies "dependencies" Generated.
Definition get_child_target_use_deps : compound -> option (list dependency) :=
  get_dependencies "dependencies_extra" Generated.

(** * loadSourceFile *)

(** SourceFileInfoLoaders::Loader, core/source_file_info_loaders/loader.hpp:77-183.
    filterInput delivers the source and the tags. *)
Record loader := mk_loader {
  filter_input : str -> str * str;
  find_dependencies : str -> list dependency;
  loader_compiler : compiler;
  loader_use_target_deps : bool
}.

(** What runs outside of maike, or is modelled elsewhere: [parse] loads JSON from a
    text, and [script_tags] runs the recipe of the compiler with "get_tags"
    (Db::getTags, compiler.cpp:88-123). Both are [None] if they throw. *)
Variable parse : str -> option compound.
Variable resolve : path -> option (path * origin).
Variable configure : path -> compound -> option compound.
Variable script_tags : compiler -> path -> option compound.

(** loadSourceFile, source_file_load_ctxt.cpp:178-242, for a file with the given
    content. The streams are those in IoModel.v. *)
Definition load_source_file (builtin_deps : list dependency) (l : loader) (content : str) : option source_file_info :=
  let (source, tag_text) := filter_input l content in
  let includes := map prepend_to_dependency (find_dependencies l source) in
  match parse tag_text with
  | None => None
  | Some tags =>
      match get_targets tags, get_use_deps tags, get_child_target_use_deps tags, get_if compiler_of_json (lit "compiler") tags with
      | Some ts, Some use, Some extra, Some own =>
          match (match own with None => Some None | Some c => option_map Some (resolve_recipe resolve configure c) end) with
          | None => None
          | Some own =>
              let c := match own with Some c => c | None => loader_compiler l end in
              match (if use_get_tags c then
                       match script_tags c source_path with
                       | None => None
                       | Some st =>
                           match get_targets st, get_use_deps st, get_child_target_use_deps st with
                           | Some x, Some y, Some z => Some (x, y, z)
                           | _, _, _ => None
                           end
                       end
                     else Some ([], [], [])) with
              | None => None
              | Some (script_targets, script_use, script_extra) =>
                  let on_recipe := if path_eqb (recipe c) empty_path then [] else [compiler_dependency c] in
                  match get_if (fun j => match as_string j with Some s => policy_of_string s | None => None end) (lit "rebuild") tags with
                  | None => None
                  | Some policy =>
                      Some (mk_source_file_info
                              (builtin_deps ++ includes ++ use ++ script_use ++ on_recipe) []
                              (extra ++ script_extra) (ts ++ script_targets)
                              (Some (loader_compiler l)) (match own with Some c => c | None => no_compiler end) Project
                              (match policy with Some p => p | None => OnlyIfOutOfDate end)
                              (loader_use_target_deps l))
                  end
              end
          end
      | _, _, _, _ => None
      end
  end.

(** * SourceFileLoaderDelegator *)

(** SourceFileLoaderDelegator::load, source_file_loader_delegator.cpp:9-41. [content]
    is [None] for a directory. *)
Definition load (dir_compiler : compiler) (loaders : list (str * loader)) (content : option str) : option source_file_info :=
  let deps := if path_eqb source_dir source_path || path_eqb source_path (recipe dir_compiler) then []
              else [mk_dependency None source_file_dir Project []] in
  match content with
  | None =>
      Some (mk_source_file_info (deps ++ [compiler_dependency dir_compiler]) [] []
              [mk_target_info (make_target_name (parse_path (filename source_path))) []]
              (Some dir_compiler) no_compiler Project OnlyIfOutOfDate false)
  | Some text =>
      match match_longest_extension source_path loaders with
      | None => Some (placeholder_info Project no_compiler)
      | Some l => load_source_file deps l text
      end
  end.

End Context.
