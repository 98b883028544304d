(** Model of the configuration: core/bin/config.{hpp,cpp},
    core/source_tree_loader/config.{hpp,cpp}, core/source_tree_loader/input_filter.{hpp,cpp}
    and core/source_file_info_loaders/config.{hpp,cpp}.

    Strings do not contain NUL characters. *)

From Coq Require Import Ascii String ZArith Bool.
From Coq Require Import List.
From Verif Require Import Str Path SMap JsonModel DbModel ValueModel LoadModel RecipeModel.
Import ListNotations.

(** insert_or_assign, for a std::map with strings as keys: a list of entries in
    increasing order *)
Fixpoint str_assign {V} (k : str) (v : V) (m : list (str * V)) : list (str * V) :=
  match m with
  | [] => [(k, v)]
  | (k', v') :: m' =>
      match str_compare k k' with
      | Eq => (k', v) :: m'
      | Lt => (k, v) :: m
      | Gt => (k', v') :: str_assign k v m'
      end
  end.

(** What is wrapped by a SourceFileInfoLoaders::Loader: the type, which determines
    its name, and the settings of the type.
    cxx/source_file_loader.hpp:16-63, generic/source_file_loader.hpp:18-64 *)
Inductive loader_kind :=
| KApp
| KCxx (generated_includes : list str)
| KExtension
| KMaikerule
| KGeneric (target_filename_ext : str) (mode : ext_mode)
| KLib.

(** name(), app/source_file_loader.hpp:25-28, cxx/source_file_loader.hpp:48-51,
    extension/source_file_loader.hpp:26-29, maikerule/source_file_loader.hpp:31-34,
    generic/source_file_loader.hpp:41-44, lib/source_file_loader.hpp:19-22 *)
Definition kind_name (k : loader_kind) : str :=
  match k with
  | KApp => lit "app"
  | KCxx _ => lit "cxx_src_loader"
  | KExtension => lit "extension"
  | KMaikerule => lit "maikerule"
  | KGeneric _ _ => lit "generic"
  | KLib => lit "lib"
  end.

(** SourceTreeLoader::Config, source_tree_loader/config.hpp:69-74 (members). A filter
    consists of the regular expressions it has been made from, input_filter.hpp:37-38. *)
Record tree_config := mk_tree_config {
  input_filter : list str;
  dir_filter : list str;
  file_info_loaders : list (str * str);
  recursive : bool
}.

(** Config, bin/config.hpp:61-64 (members) *)
Record config := mk_config {
  tree_loader : tree_config;
  info_loaders : list (str * (loader_kind * compiler));
  dir_compiler : compiler
}.

(** * Default values *)

Definition strings (l : list string) : json := JArray (map (fun s => JString (lit s)) l).

Definition compiler_of (recipe : string) (cfg : compound) : compiler :=
  mk_compiler (parse_path (lit recipe)) None cfg false.

(** Cxx::SourceFileLoader(), cxx/source_file_loader.hpp:19 *)
Definition default_cxx : loader_kind := KCxx [lit ".*\.gen\.hpp$"].

(** Generic::SourceFileLoader(), generic/source_file_loader.hpp:21-23 *)
Definition default_generic : loader_kind := KGeneric [] Append.

(** Cxx::SourceFileLoader::defaultCompiler, cxx/source_file_loader.hpp:38-46 *)
Definition cxx_compiler_config : compound :=
  [(lit "iquote", strings ["."%string]); (lit "cflags", strings ["-g"; "-Wall"]%string)].

(** InputFilter(), input_filter.cpp:7-10 *)
Definition default_filter : list str := [lit "^\."; lit "^__"].

(** SourceTreeLoader::Config(), source_tree_loader/config.hpp:17-27; the entries are
    in increasing order. *)
Definition default_tree_config : tree_config :=
  mk_tree_config default_filter default_filter
    (fold_left (fun m e => str_assign (lit (fst e)) (lit (snd e)) m)
       [(".hpp", "cxx"); (".cpp", "cxx"); (".test.cpp", "cxx_test"); (".app.maikerule", "app"); (".py", "extension");
        (".lib.maikerule", "lib"); (".sass", "sass2css")]%string [])
    false.

(** SourceFileInfoLoaders::Config(), source_file_info_loaders/config.cpp:15-42 *)
Definition default_info_loaders : list (str * (loader_kind * compiler)) :=
  fold_left (fun m e => str_assign (lit (fst e)) (snd e) m)
    [("app"%string, (KApp, compiler_of "cxx_linker.py" [(lit "cflags", strings ["-g"%string])]));
     ("cxx"%string, (default_cxx, compiler_of "cxx_compiler.py" cxx_compiler_config));
     ("cxx_test"%string, (default_cxx, compiler_of "cxx_compiler.py"
                                 (obj_set (lit "actions") (strings ["link"; "run"]%string) cxx_compiler_config)));
     ("extension"%string, (KExtension, no_compiler));
     ("lib"%string, (KLib, compiler_of "make_lib.py" []));
     ("identity"%string, (default_generic, compiler_of "copy_file.py" []));
     ("sass2css"%string, (KGeneric (lit ".css") Replace, compiler_of "sass2css.py" []))] [].

(** Config(), bin/config.hpp:17-19 *)
Definition default_config : config :=
  mk_config default_tree_config default_info_loaders (compiler_of "make_directory.py" []).

(** * From JSON. [None]: an exception is thrown. *)

Section Regex.

(** Whether the constructor of std::regex accepts the text (input_filter.cpp:24-37,
    cxx/source_file_loader.hpp:21-30); it throws otherwise. *)
Variable regex_ok : str -> bool.

(** A list of regular expressions, input_filter.cpp:12-37 and
    cxx/source_file_loader.hpp:94-104 *)
Definition patterns_of_json (j : json) : option (list str) :=
  match as_array j with
  | None => None
  | Some l =>
      match map_all as_string l with
      | None => None
      | Some ps => if forallb regex_ok ps then Some ps else None
      end
  end.

(** SourceTreeLoader::Config(CompoundRefConst), source_tree_loader/config.cpp:10-20 *)
Definition tree_config_of_json (j : json) : option tree_config :=
  match as_object j with
  | None => None
  | Some o =>
      match get patterns_of_json (lit "input_filter") o, get patterns_of_json (lit "fullpath_input_filter") o,
            get as_integer (lit "recursive") o, get as_object (lit "file_info_loaders") o with
      | Some f, Some d, Some r, Some l =>
          match map_all (fun e => option_map (pair (fst e)) (as_string (snd e))) l with
          | None => None
          | Some l => Some (mk_tree_config f d (fold_left (fun m e => str_assign (fst e) (snd e) m) l []) (negb (Z.eqb r 0)))
          end
      | _, _, _, _ => None
      end
  end.

(** fromJson for Cxx::SourceFileLoader, cxx/source_file_loader.hpp:90-105 *)
Definition cxx_of_json (j : json) : option loader_kind :=
  match as_object j with
  | None => None
  | Some o =>
      match get_if patterns_of_json (lit "generated_includes") o with
      | None => None
      | Some None => Some (KCxx [])
      | Some (Some ps) => Some (KCxx ps)
      end
  end.

(** fromJson for Generic::SourceFileLoader, generic/source_file_loader.hpp:91-102 *)
Definition generic_of_json (j : json) : option loader_kind :=
  match as_object j with
  | None => None
  | Some o =>
      match get as_string (lit "target_filename_ext") o,
            get_if (fun j => match as_string j with Some s => ext_mode_of_string s | None => None end)
                   (lit "filename_ext_replacement_mode") o with
      | Some ext, Some m => Some (KGeneric ext (match m with Some m => m | None => Append end))
      | _, _ => None
      end
  end.

(** makeInstance, source_file_info_loaders/config.cpp:46-51 *)
Definition make_instance (of_json : json -> option loader_kind) (default : loader_kind) (o : compound) : option loader_kind :=
  match get_if of_json (lit "config") o with
  | None => None
  | Some None => Some default
  | Some (Some k) => Some k
  end.

(** One iteration in source_file_info_loaders/config.cpp:56-99 *)
Definition loader_of_json (j : json) : option (loader_kind * compiler) :=
  match as_object j with
  | None => None
  | Some o =>
      match get as_string (lit "loader") o, get compiler_of_json (lit "compiler") o with
      | Some name, Some c =>
          option_map (fun k => (k, c))
            (if str_eqb name (lit "app") then Some KApp
             else if str_eqb name (lit "cxx_src_loader") then make_instance cxx_of_json default_cxx o
             else if str_eqb name (lit "extension") then Some KExtension
             else if str_eqb name (lit "maikerule") then Some KMaikerule
             else if str_eqb name (lit "generic") then make_instance generic_of_json default_generic o
             else if str_eqb name (lit "lib") then Some KLib
             else None)
      | _, _ => None
      end
  end.

(** SourceFileInfoLoaders::Config(CompoundRefConst),
    source_file_info_loaders/config.cpp:54-100 *)
Definition info_loaders_of_json (j : json) : option (list (str * (loader_kind * compiler))) :=
  match as_object j with
  | None => None
  | Some o =>
      option_map (fun l => fold_left (fun m e => str_assign (fst e) (snd e) m) l [])
        (map_all (fun e => option_map (pair (fst e)) (loader_of_json (snd e))) o)
  end.

(** Config(CompoundRefConst), bin/config.hpp:21-26 *)
Definition config_of_json (j : json) : option config :=
  match as_object j with
  | None => None
  | Some o =>
      match get tree_config_of_json (lit "source_tree_loader") o, get info_loaders_of_json (lit "source_file_info_loaders") o,
            get compiler_of_json (lit "dir_compiler") o with
      | Some t, Some l, Some d => Some (mk_config t l d)
      | _, _, _ => None
      end
  end.

(** loadConfig, bin/config.cpp:31-54, where the files have been read and parsed
    ([None]: not possible). Gives the configuration, and whether something has been
    written to standard error. *)
Definition merge_files (files : list (option compound)) : compound * bool :=
  fold_left (fun st f => match f with
                         | None => (fst st, true)
                         | Some b => let r := merge_members (fst st) b in (fst r, snd st || snd r)
                         end) files ([], false).

Definition load_configuration (files : list (option compound)) : config * bool :=
  let (cfg, reported) := merge_files files in
  match get config_of_json (lit "maikeconfig") cfg with
  | Some c => (c, reported)
  | None => (default_config, true)
  end.

End Regex.

(** * To JSON *)

(** json_object_set_new, where [k] need not be valid UTF-8; the result is ignored *)
Definition set_text (k : str) (v : option json) (o : compound) : compound :=
  match json_string k, v with
  | Some _, Some j => obj_set k j o
  | _, _ => o
  end.

(** KeyValueStore::Array{begin, end}, key_value_store/array.hpp:118-125 *)
Definition string_array (l : list str) : json :=
  JArray (fold_left (fun a s => append_new a (json_string s)) l []).

(** toJson(Compiler const&), core/db/compiler.hpp:107-114 *)
Definition compiler_to_json (c : compiler) : json :=
  JObject
    (set_new "use_get_tags" (Some (JInteger (if use_get_tags c then 1 else 0)))
    (set_new "config" (Some (JObject (comp_config c)))
    (set_new "recipe" (json_string (path_string (recipe c))) []))).

(** toJson of the loaders, cxx/source_file_loader.hpp:78-86,
    generic/source_file_loader.hpp:104-110, and the others *)
Definition kind_to_json (k : loader_kind) : json :=
  match k with
  | KCxx ps => JObject (set_new "generated_includes" (Some (string_array ps)) [])
  | KGeneric ext mode =>
      JObject (set_new "filename_ext_replacement_mode" (json_string (ext_mode_to_string mode))
              (set_new "target_filename_ext" (json_string ext) []))
  | _ => JObject []
  end.

(** toJson(Loader const&), source_file_info_loaders/loader.hpp:185-192 *)
Definition loader_to_json (l : loader_kind * compiler) : json :=
  JObject
    (set_new "config" (Some (kind_to_json (fst l)))
    (set_new "loader" (json_string (kind_name (fst l)))
    (set_new "compiler" (Some (compiler_to_json (snd l))) []))).

(** toJson(SourceFileInfoLoaders::Config const&),
    source_file_info_loaders/config.cpp:102-112 *)
Definition info_loaders_to_json (m : list (str * (loader_kind * compiler))) : json :=
  JObject (fold_left (fun o e => set_text (fst e) (Some (loader_to_json (snd e))) o) m []).

(** toJson(SourceTreeLoader::Config const&), source_tree_loader/config.cpp:22-39 *)
Definition tree_config_to_json (t : tree_config) : json :=
  JObject
    (set_new "fullpath_input_filter" (Some (string_array (dir_filter t)))
    (set_new "input_filter" (Some (string_array (input_filter t)))
    (set_new "recursive" (Some (JInteger (if recursive t then 1 else 0)))
    (set_new "file_info_loaders"
       (Some (JObject (fold_left (fun o e => set_text (fst e) (json_string (snd e)) o) (file_info_loaders t) []))) [])))).

(** toJson(Config const&), bin/config.hpp:72-79 *)
Definition config_to_json (c : config) : json :=
  JObject
    (set_new "dir_compiler" (Some (compiler_to_json (dir_compiler c)))
    (set_new "source_file_info_loaders" (Some (info_loaders_to_json (info_loaders c)))
    (set_new "source_tree_loader" (Some (tree_config_to_json (tree_loader c))) []))).

(** JSON_SORT_KEYS, key_value_store/json_handle.hpp:296-309 *)
Fixpoint insert_member (k : str) (v : json) (o : compound) : compound :=
  match o with
  | [] => [(k, v)]
  | (k', v') :: o' =>
      match str_compare k k' with
      | Gt => (k', v') :: insert_member k v o'
      | _ => (k, v) :: o
      end
  end.

Fixpoint sort_keys (j : json) : json :=
  match j with
  | JObject o =>
      JObject ((fix go (o : compound) : compound :=
                  match o with
                  | [] => []
                  | (k, v) :: o' => insert_member k (sort_keys v) (go o')
                  end) o)
  | JArray l => JArray (map sort_keys l)
  | _ => j
  end.

(** dumpConfig, bin/maike.cpp:250-253: the value that is written. What is read from
    the text is the same, with the members in sorted order. *)
Definition dump_config (c : config) : json := sort_keys (JObject (set_new "maikeconfig" (Some (config_to_json c)) [])).

(** * The loaders for the file name extensions *)

(** mapSourceFileInfoLoaders, bin/config.cpp:9-29. [None]: an exception is thrown. *)
Definition map_loaders (c : config) : option (list (str * (loader_kind * compiler))) :=
  option_map (fun l => fold_left (fun m e => str_assign (fst e) (snd e) m) l [])
    (map_all (fun e => option_map (pair (fst e)) (lookup (snd e) (info_loaders c))) (file_info_loaders (tree_loader c))).

(** resolveRecipes, bin/config.cpp:56-69. The recipes are resolved one after the other;
    [resolve] and [configure] as in LoadModel.v. *)
Definition resolve_recipes (resolve : path -> option (path * origin)) (configure : path -> compound -> option compound)
  (c : config) : option config :=
  match resolve_recipe resolve configure (dir_compiler c),
        map_all (fun e => option_map (fun x => (fst e, (fst (snd e), x))) (resolve_recipe resolve configure (snd (snd e))))
                (info_loaders c) with
  | Some d, Some l => Some (mk_config (tree_loader c) l d)
  | _, _ => None
  end.
