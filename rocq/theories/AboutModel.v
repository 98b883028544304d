(** Model of core/bin/about.py, and of printVersion and printAbout in
    core/bin/maike.cpp. *)

From Coq Require Import Ascii String ZArith.
From Coq Require Import List.
From Verif Require Import Str ValueModel.
Import ListNotations.

Local Open Scope string_scope.
Local Open Scope list_scope.

(** An element of 'copyright' in projinfo.json *)
Record holder := mk_holder { years : list Z; author : str }.

(** What is read by about.py: the build information given on the command line,
    maike.vcslog, and projinfo.json (lines 43-49 and 61-73). Members that are not
    there (the script raises KeyError and writes nothing), and members that are not
    texts, are left out. [build_host] is the name of the host unless given. *)
Record about := mk_about {
  about_id : str;
  start_time : Z;
  build_host : str;
  commit : str;
  tag : str;
  copyright : list holder;
  description_short : str;
  license_short : str
}.

(** sorted, used at line 55 *)
Fixpoint insert_year (y : Z) (l : list Z) : list Z :=
  match l with
  | [] => [y]
  | x :: l' => if (y <=? x)%Z then y :: l else x :: insert_year y l'
  end.
Definition sorted (l : list Z) : list Z := fold_right insert_year [] l.

(** str.join *)
Fixpoint join (sep : str) (l : list str) : str :=
  match l with
  | [] => []
  | [s] => s
  | s :: l' => s ++ sep ++ join sep l'
  end.

(** get_copyright, lines 51-58 *)
Definition get_copyright (l : list holder) : list str :=
  map (fun h => lit "© " ++ join (lit ", ") (map decimal (sorted (years h))) ++ lit " : " ++ author h) l.

(** strftime('%Y-%m-%d %H:%M:%S UTC'), line 66, for years 1000 to 9999 *)
Definition format_start (t : Z) : str :=
  let d := gmtime t in
  padded 4 (year d) ++ lit "-" ++ padded 2 (month d) ++ lit "-" ++ padded 2 (day d) ++ lit " " ++
  padded 2 (hour d) ++ lit ":" ++ padded 2 (minute d) ++ lit ":" ++ padded 2 (second d) ++ lit " UTC".

Definition nl : str := ["010"%char].
Definition quote : str := ["034"%char].

(** A line of the templates *)
Definition definition (name value : str) : str :=
  lit "char const* Maike::Self::" ++ name ++ lit " = " ++ quote ++ value ++ quote ++ lit ";" ++ nl.

(** Template.substitute with buildinfo, vcsinfo and file_content, lines 15-41, and
    compile, lines 60-77: what is written to the target. *)
Definition build_info_text (a : about) : str :=
  definition (lit "BuildId") (about_id a) ++ nl ++
  definition (lit "BuildStartTime") (format_start (start_time a)) ++ nl ++
  definition (lit "BuildHost") (build_host a).

Definition vcs_info_text (a : about) : str :=
  definition (lit "VcsRevisionId") (commit a) ++ nl ++
  definition (lit "VcsTag") (tag a).

Definition about_file (a : about) : str :=
  lit "#ifndef MAIKE_BIN_ABOUTIMPL_HPP" ++ nl ++
  lit "#define MAIKE_BIN_ABOUTIMPL_HPP" ++ nl ++ nl ++
  build_info_text a ++ nl ++ nl ++
  vcs_info_text a ++ nl ++ nl ++
  definition (lit "Copyright") (join (lit "\n") (get_copyright (copyright a))) ++ nl ++
  definition (lit "DescriptionShort") (description_short a) ++ nl ++
  definition (lit "LegalBrief") (license_short a) ++ nl ++
  lit "#endif" ++ nl.

(** The variables declared in core/bin/about.hpp:11-18 *)
Definition variables := str -> str.

(** printVersion, maike.cpp:140-156. No value has a NUL. *)
Definition print_version (v : variables) : str :=
  lit "# Maike " ++ v (lit "VcsTag") ++ lit " (" ++ v (lit "VcsRevisionId") ++ lit ")" ++ nl ++ nl ++
  lit "Build start time: " ++ v (lit "BuildStartTime") ++ nl ++ nl ++
  lit "Build id: " ++ v (lit "BuildId") ++ nl ++ nl ++
  lit "Build host: " ++ v (lit "BuildHost") ++ nl ++ nl.

(** printAbout, maike.cpp:158-184 *)
Definition print_about (v : variables) : str :=
  lit "# Maike " ++ v (lit "VcsTag") ++ lit " (" ++ v (lit "VcsRevisionId") ++ lit ")" ++ nl ++ nl ++
  v (lit "DescriptionShort") ++ nl ++ nl ++
  v (lit "Copyright") ++ nl ++ nl ++
  v (lit "LegalBrief") ++ nl ++ nl ++
  lit "## Build info" ++ nl ++ nl ++
  lit "Start time: " ++ v (lit "BuildStartTime") ++ nl ++ nl ++
  lit "Id: " ++ v (lit "BuildId") ++ nl ++ nl ++
  lit "Build host: " ++ v (lit "BuildHost") ++ nl ++ nl.
