(** Model of how the configuration determines which files are loaded:
    core/source_tree_loader/input_filter.cpp, and the call of
    SourceTreeLoader::load in core/bin/maike.cpp. *)

From Coq Require Import List.
From Verif Require Import Str Path CfgModel ScanModel.
Import ListNotations.

(** InputFilter::match, input_filter.cpp:39-44. [search r s] is
    regex_search(s, std::regex{r, std::regex_constants::basic}). *)
Definition filter_matches (search : str -> str -> bool) (patterns : list str) (s : str) : bool :=
  existsb (fun r => search r s) patterns.

(** SourceTreeLoader::load, as called from maike.cpp:355-364: scanning the source directory
    with the filters of the configuration [c] *)
Definition scan_with (search : str -> str -> bool) (c : config) (Info : Type) (is_directory : path -> option bool)
  (entries : path -> list str * bool) (loads : path -> option Info) (root : path) (workers : nat) (cs : list scan_choice)
  : option (scan_state Info) :=
  scan_run Info is_directory entries loads (filter_matches search (input_filter (tree_loader c)))
    (filter_matches search (dir_filter (tree_loader c))) (recursive (tree_loader c)) root workers cs (scan_init Info root).
