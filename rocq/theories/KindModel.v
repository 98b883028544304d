(** Model of the loaders that a configuration refers to: core/source_file_info_loaders/.
    LexModel.v has what C++ files and scripts are split into; this file has the other
    loaders, and puts them together. *)

From Coq Require Import Ascii String Bool.
From Coq Require Import List.
From Verif Require Import Str Path JsonModel DbModel ValueModel LoadModel LexModel RecipeModel JLoadModel CfgModel.
Import ListNotations.

(** path::replace_extension, as in libstdc++, for a path that is a file name *)
Definition replace_extension (name ext : str) : str :=
  match split_extension name with
  | Some (stem, _) => stem
  | None => name
  end ++
  match ext with
  | [] => []
  | c :: _ => if Ascii.eqb c "." then ext else "."%char :: ext
  end.

(** Generic::makeTargetName, generic/source_file_loader.cpp:33-44 *)
Definition generic_target_name (name ext : str) (mode : ext_mode) : str :=
  match mode with
  | Append => name ++ ext
  | Replace => replace_extension name ext
  end.

(** The JSON object made by Generic::SourceFileLoader::filterInput,
    generic/source_file_loader.cpp:51-56. The path is stored as a string. *)
Definition generic_tags (name ext : str) (mode : ext_mode) : compound :=
  set_new "target"
    (Some (JObject (set_new "name" (json_string (path_string (parse_path (generic_target_name name ext mode)))) []))) [].

(** Cxx::useTargetDeps, cxx/source_file_loader.cpp:442-454. std::any_of stops at the
    first match. [None]: an exception is thrown. *)
Fixpoint any_link (l : list json) : option bool :=
  match l with
  | [] => Some false
  | j :: l' =>
      match as_string j with
      | None => None
      | Some s => if str_eqb s (lit "link") then Some true else any_link l'
      end
  end.

Definition cxx_use_target_deps (c : compiler) : option bool :=
  match get_if as_array (lit "actions") (comp_config c) with
  | None => None
  | Some None => Some false
  | Some (Some l) => any_link l
  end.

(** Compound{reader, name}, core/key_value_store/compound.hpp:132-140, where jansson is
    given by a decoder, and the size of its buffer (see JLoadModel.v). [None]: an
    exception is thrown. *)
Definition load_compound {S : Type} (d : decoder S json) (buffer_size : nat) (text : str) : option compound :=
  match json_load d buffer_size text with
  | Value (JObject o) _ => Some o
  | Value _ _ => None
  | NoValue => Some []
  | DecodeError => None
  | OutOfFuel => None
  end.

Section Loaders.

(** [search pattern text]: std::regex_search. [print]: the text written by store,
    core/key_value_store/json_handle.hpp:297-309, without white space. *)
Variable search : str -> str -> bool.
Variable print : compound -> str.

(** filterInput, cxx/source_file_loader.cpp:230-438, extension/source_file_loader.cpp:10-89,
    maikerule/source_file_loader.cpp:10-26 (also for app and lib), and
    generic/source_file_loader.cpp:46-59, for a file with the given name *)
Definition kind_filter_input (k : loader_kind) (name : str) : str -> str * str :=
  match k with
  | KCxx _ => cxx_filter_input
  | KExtension => ext_filter_input
  | KApp | KLib | KMaikerule => fun text => ([], text)
  | KGeneric ext mode => fun _ => ([], print (generic_tags name ext mode))
  end.

(** getDependencies, cxx/source_file_loader.cpp:24-228; the other loaders find none *)
Definition kind_find_dependencies (k : loader_kind) : str -> list dependency :=
  match k with
  | KCxx ps => cxx_get_dependencies (fun name => existsb (fun p => search p name) ps)
  | _ => fun _ => []
  end.

(** useTargetDeps, app (inherited from maikerule), cxx, extension/source_file_loader.hpp:55-58,
    generic/source_file_loader.hpp:116-119, lib/source_file_loader.hpp:30-33,
    maikerule/source_file_loader.hpp:50-53 *)
Definition kind_use_target_deps (k : loader_kind) (c : compiler) : option bool :=
  match k with
  | KCxx _ => cxx_use_target_deps c
  | KLib => Some true
  | _ => Some false
  end.

(** A Loader, loader.hpp:77-183, for a file with the given name. [None]: useTargetDeps
    throws, which loadSourceFile calls last (source_file_load_ctxt.cpp:241). *)
Definition configured_loader (name : str) (kc : loader_kind * compiler) : option loader :=
  let (k, c) := kc in
  option_map (mk_loader (kind_filter_input k name) (kind_find_dependencies k) c) (kind_use_target_deps k c).

(** SourceFileLoaderDelegator::load, source_file_loader_delegator.cpp:9-41, with the
    loaders of a configuration. *)
Definition load_configured (src s t : path) (parse : str -> option compound)
  (resolve : path -> option (path * origin)) (configure : path -> compound -> option compound)
  (script_tags : compiler -> path -> option compound)
  (dir_compiler : compiler) (loaders : list (str * (loader_kind * compiler))) (content : option str)
  : option source_file_info :=
  match content with
  | None => load src s t parse resolve configure script_tags dir_compiler [] None
  | Some text =>
      match match_longest_extension src loaders with
      | None => Some (placeholder_info Project no_compiler)
      | Some kc =>
          match configured_loader (filename src) kc with
          | None => None
          | Some l =>
              load_source_file src s t parse resolve configure script_tags
                (if path_eqb s src || path_eqb src (recipe dir_compiler) then []
                 else [mk_dependency None (source_file_dir src) Project []]) l text
          end
      end
  end.

End Loaders.
