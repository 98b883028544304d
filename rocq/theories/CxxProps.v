(** Properties C105-C107: the command that compiles a C++ source file. *)

From Coq Require Import Ascii String ZArith NArith Bool.
From Coq Require Import List.
From Verif Require Import Str Path JsonModel DbModel ValueModel ValueSpec RecipeModel RecipeSpec RecipeProofs CxxModel CxxSpec CxxProofs.
Import ListNotations.

(** ** A source file *)

Lemma plain (s : str) : forallb (fun c => N.ltb (N_of_ascii c) 128) s = true -> is_text s.
Proof.
  intro H. apply ascii_text. rewrite Forall_forall. rewrite forallb_forall in H. intros c I. apply N.ltb_lt. now apply H.
Qed.

Definition an_utc (z : Z) : option str := Some (lit "1970-01-01 00:00:16 UTC").

Definition a_compilation (sd td : string) : compilation :=
  mk_compilation 3 (parse_path (lit "lib/a.cpp"))
    (mk_source_file_info [] [] [] [mk_target_info (parse_path (lit "t/lib/a")) []] None no_compiler Project OnlyIfOutOfDate false)
    [(lit "actions", JArray [JString (lit "link")]); (lit "backend", JString (lit "g++"));
     (lit "cflags", JArray [JString (lit "-O3")]); (lit "iquote", JArray [JString (lit "."); JString (lit "/opt/include")]);
     (lit "std_revision", JObject [(lit "selected", JString (lit "c++17"))])]
    (mk_build_info 16 (lit "ab") (parse_path (lit sd)) (parse_path (lit td)) (lit "host"))
    [mk_dependency None (parse_path (lit "t/lib/b.o")) Generated [mk_property (lit "rel") (lit "implementation")];
     mk_dependency None (parse_path (lit "m")) System [mk_property (lit "rel") (lit "external")]]
    PlainText (mk_settings (lit "g++") [lit "-O3"] [lit "."; lit "/opt/include"] [lit "-std=c++17"] [lit "link"])
    (mk_target_info (parse_path (lit "t/lib/a")) []).

Lemma a_proper sd td : is_text (path_string (parse_path (lit sd))) -> is_text (path_string (parse_path (lit td))) ->
  proper_compilation (a_compilation sd td).
Proof.
  intros T1 T2. split; [apply plain; reflexivity|]. split; [constructor; [apply plain; reflexivity|constructor]|].
  split; [exists []; reflexivity|]. split.
  - repeat constructor; try (apply plain; reflexivity); intros H; repeat (destruct H as [H|H]; [discriminate|]); exact H.
  - split; [split; [apply plain; reflexivity|split; assumption]|].
    repeat (split; [reflexivity|]). split; [|reflexivity]. eexists. split; [reflexivity|]. eexists. split; reflexivity.
Qed.

(** ** C105. The compiler is told to make the target from the source file. *)

(** The command names the configured compiler, its flags (those of the configuration
    before those of the dependencies, in the given order), the revision of the
    language, the source file, the objects and libraries to link with if the action
    "link" has been given, and at last the target. *)
Theorem C105_command : forall get_cflags get_libs get_libdirs cwd utc c args, proper_compilation c ->
    compile_args get_cflags get_libs get_libdirs cwd utc (options_of c) = Some args ->
    exists flags quotes dep_flags defs objs,
      args = [backend (with_settings c)] ++ flags ++ std (with_settings c) ++ [color_of (format c)] ++ defs
             ++ (if links (with_settings c) then [] else [lit "-c"])
             ++ [path_string (source c)] ++ objs ++ [lit "-o"; path_string (ti_name (first_target c))] /\
      without_repetitions (cflags (with_settings c) ++ quotes ++ concat dep_flags) flags /\
      Forall (fun w => exists d, w = lit "-iquote" ++ d) quotes /\
      Forall2 (flags_for get_cflags) (deps c) dep_flags /\
      Forall (fun w => exists t, w = lit "-DMAIKE_" ++ t) defs /\
      (if links (with_settings c)
       then exists words, Forall2 (fun d l => forall w, In w l <-> needed_for (pkg_words get_libs get_libdirs) d w) (deps c) words /\
                     without_repetitions (concat words) (rev objs)
       else objs = []).
Proof. exact command_parts_of. Qed.
Print Assumptions C105_command.

(** Nothing but pkg-config keeps it from being started. *)
Theorem C105_started : forall get_cflags get_libs get_libdirs cwd utc c, proper_compilation c ->
    utc (start_time (build c)) <> None ->
    (forall d, In d (deps c) -> dep_origin d = PkgConfig ->
       get_cflags (path_string (dep_name d)) <> None /\
       get_libs (path_string (dep_name d)) <> None /\ get_libdirs (path_string (dep_name d)) <> None) ->
    exists args, compile_args get_cflags get_libs get_libdirs cwd utc (options_of c) = Some args.
Proof. exact command_made_of. Qed.
Print Assumptions C105_started.

(** Nothing is compiled for a header, and only for a header. *)
Theorem C105_headers : forall s, is_header s = true <-> header_name s.
Proof. exact is_header_spec. Qed.
Print Assumptions C105_headers.

(** ** C106. Headers are looked for next to the source file and where generated files are put. *)

(** The directory of the source file *)
Theorem C106_own_directory : forall get_cflags get_libs get_libdirs cwd utc c args dir name, proper_compilation c ->
    compile_args get_cflags get_libs get_libdirs cwd utc (options_of c) = Some args ->
    path_string (bi_source_dir (build c)) <> [] ->
    path_string (source c) = dir ++ lit "/" ++ name -> ~ In "/"%char name ->
    searched args cwd (place cwd (dir ++ lit "/")).
Proof. exact own_directory_searched. Qed.
Print Assumptions C106_own_directory.

(** The directory for what is generated from files in the directory of the source file,
    if the target directory is given relative to the working directory. *)
Theorem C106_generated_partial : forall get_cflags get_libs get_libdirs cwd utc c args dir name below, proper_compilation c ->
    compile_args get_cflags get_libs get_libdirs cwd utc (options_of c) = Some args ->
    is_absolute cwd = true -> is_absolute (path_string (bi_target_dir (build c))) = false ->
    path_string (source c) = dir ++ lit "/" ++ name -> ~ In "/"%char name ->
    place cwd (dir ++ lit "/") = place cwd (path_string (bi_source_dir (build c))) ++ below ->
    searched args cwd (place cwd (path_string (bi_target_dir (build c))) ++ below).
Proof. exact target_directory_searched. Qed.
Print Assumptions C106_generated_partial.

(** The directories of the configuration, below the source directory and below the target directory. *)
Theorem C106_configured_partial : forall get_cflags get_libs get_libdirs cwd utc c args d, proper_compilation c ->
    compile_args get_cflags get_libs get_libdirs cwd utc (options_of c) = Some args ->
    path_string (bi_source_dir (build c)) <> [] -> is_absolute cwd = true ->
    is_absolute (path_string (bi_target_dir (build c))) = false ->
    In d (iquote (with_settings c)) -> is_absolute d = false ->
    searched args cwd (walk (place cwd (path_string (bi_source_dir (build c)))) (names d)) /\
    searched args cwd (walk (place cwd (path_string (bi_target_dir (build c)))) (names d)).
Proof. exact configured_searched. Qed.
Print Assumptions C106_configured_partial.

(** They are searched in this order: the directory of the source file, the directory for
    what is generated from files there, other directories. *)
Theorem C106_order_partial : forall get_cflags get_libs get_libdirs cwd utc c args dir name below, proper_compilation c ->
    compile_args get_cflags get_libs get_libdirs cwd utc (options_of c) = Some args ->
    path_string (bi_source_dir (build c)) <> [] -> is_absolute cwd = true ->
    is_absolute (path_string (bi_target_dir (build c))) = false ->
    (forall w, In w (backend (with_settings c) :: cflags (with_settings c)) -> forall d, w <> lit "-iquote" ++ d) ->
    path_string (source c) = dir ++ lit "/" ++ name -> ~ In "/"%char name ->
    place cwd (dir ++ lit "/") = place cwd (path_string (bi_source_dir (build c))) ++ below ->
    (exists l1 q l2, args = l1 ++ (lit "-iquote" ++ q) :: l2 /\ place cwd q = place cwd (dir ++ lit "/") /\
       forall d, ~ In (lit "-iquote" ++ d) l1) /\
    (exists l1 q l2, args = l1 ++ (lit "-iquote" ++ q) :: l2 /\
       place cwd q = place cwd (path_string (bi_target_dir (build c))) ++ below /\
       forall d, In (lit "-iquote" ++ d) l1 -> place cwd d = place cwd (dir ++ lit "/")).
Proof. exact directories_in_order. Qed.
Print Assumptions C106_order_partial.

(** If the target directory is given as an absolute path, what is generated is not found. *)
Theorem C106_generated_refuted : exists get_cflags get_libs get_libdirs cwd utc c args dir name below,
    proper_compilation c /\ compile_args get_cflags get_libs get_libdirs cwd utc (options_of c) = Some args /\
    is_absolute cwd = true /\ is_absolute (path_string (bi_target_dir (build c))) = true /\
    path_string (source c) = dir ++ lit "/" ++ name /\ ~ In "/"%char name /\
    place cwd (dir ++ lit "/") = place cwd (path_string (bi_source_dir (build c))) ++ below /\
    ~ searched args cwd (place cwd (path_string (bi_target_dir (build c))) ++ below).
Proof.
  exists (fun _ => None), (fun _ => None), (fun _ => None), (lit "/home/u"), an_utc, (a_compilation "." "/tmp/t").
  eexists _, (lit "lib"), (lit "a.cpp"), [lit "lib"].
  split; [apply a_proper; apply plain; reflexivity|]. split; [reflexivity|]. split; [reflexivity|]. split; [reflexivity|].
  split; [reflexivity|]. split; [intros H; repeat (destruct H as [H|H]; [discriminate|]); exact H|]. split; [reflexivity|].
  intros (q & I & E). cbn [In app] in I.
  repeat (destruct I as [I|I]; [|]); try contradiction; try discriminate I;
    (injection I as I; rewrite <- I in E; discriminate E).
Qed.
Print Assumptions C106_generated_refuted.

(** A directory of the configuration that is given as an absolute path is looked up
    below the source directory, unless that is the working directory. *)
Theorem C106_configured_refuted : exists get_cflags get_libs get_libdirs cwd utc c args d,
    proper_compilation c /\ compile_args get_cflags get_libs get_libdirs cwd utc (options_of c) = Some args /\
    is_absolute cwd = true /\ In d (iquote (with_settings c)) /\ is_absolute d = true /\ ~ searched args cwd (place cwd d).
Proof.
  exists (fun _ => None), (fun _ => None), (fun _ => None), (lit "/home/u"), an_utc, (a_compilation "src" "t").
  eexists _, (lit "/opt/include").
  split; [apply a_proper; apply plain; reflexivity|]. split; [reflexivity|]. split; [reflexivity|]. split; [right; now left|].
  split; [reflexivity|].
  intros (q & I & E). cbn [In app] in I.
  repeat (destruct I as [I|I]; [|]); try contradiction; try discriminate I;
    (injection I as I; rewrite <- I in E; discriminate E).
Qed.
Print Assumptions C106_configured_refuted.

(** ** C107. A program can find out about the build that made it. *)

(** Numbers *)
Theorem C107_numbers : forall get_cflags get_libs get_libdirs cwd utc c args name z, proper_compilation c ->
    compile_args get_cflags get_libs get_libdirs cwd utc (options_of c) = Some args ->
    In (name, z) [("MAIKE_TASKID"%string, task_id c); ("MAIKE_BUILDINFO_STARTTIME"%string, start_time (build c))] ->
    exists t, defined_as args name (t ++ lit "L") /\ with_sign c_constant t z.
Proof. exact integers_defined. Qed.
Print Assumptions C107_numbers.

(** Texts: the definition is a string literal with the right value if and only if there
    are no quotation marks, backslashes or ends of lines in the text. *)
Theorem C107_texts_partial : forall get_cflags get_libs get_libdirs cwd utc c args name s, proper_compilation c ->
    compile_args get_cflags get_libs get_libdirs cwd utc (options_of c) = Some args ->
    build_string utc c name s ->
    exists t, defined_as args name t /\ (literal_value t = Some s <-> plain_text s).
Proof. exact strings_defined. Qed.
Print Assumptions C107_texts_partial.

(** Build ids have none. *)
Theorem C107_build_id : forall get_cflags get_libs get_libdirs cwd utc c args, proper_compilation c ->
    compile_args get_cflags get_libs get_libdirs cwd utc (options_of c) = Some args ->
    Forall hexadecimal (RecipeModel.build_id (build c)) ->
    exists t, defined_as args "MAIKE_BUILDINFO_BUILDID" t /\ literal_value t = Some (RecipeModel.build_id (build c)).
Proof.
  intros g1 g2 g3 cwd utc c args P H F.
  destruct (strings_defined g1 g2 g3 cwd utc c args "MAIKE_BUILDINFO_BUILDID" (RecipeModel.build_id (build c)) P H) as (t & D & L).
  { right. left. split; reflexivity. }
  exists t. split; [exact D|]. apply L, hexadecimal_plain, F.
Qed.
Print Assumptions C107_build_id.

(** The name of a directory may have some. *)
Theorem C107_texts_refuted : exists get_cflags get_libs get_libdirs cwd utc c args,
    proper_compilation c /\ compile_args get_cflags get_libs get_libdirs cwd utc (options_of c) = Some args /\
    forall t, defined_as args "MAIKE_BUILDINFO_SOURCEDIR" t -> literal_value t = None.
Proof.
  exists (fun _ => None), (fun _ => None), (fun _ => None), (lit "/home/u"), an_utc, (a_compilation "a""b" "t"). eexists.
  split; [apply a_proper; apply plain; reflexivity|]. split; [reflexivity|].
  intros t I. unfold defined_as in I. cbn [In app] in I.
  repeat (destruct I as [I|I]; [|]); try contradiction; try discriminate I;
    (injection I as I; rewrite <- I; reflexivity).
Qed.
Print Assumptions C107_texts_refuted.

(** ** Examples *)

Example a_command : compile_args (fun _ => None) (fun _ => None) (fun _ => None) (lit "/home/u") an_utc (options_of (a_compilation "." "t"))
  = Some (map lit ["g++"; "-O3"; "-iquotelib"; "-iquote/home/u/t/lib"; "-iquote."; "-iquote/home/u/t/."; "-iquote/opt/include";
      "-iquote/home/u/t//opt/include"; "-std=c++17"; "-fdiagnostics-color=never"; "-DMAIKE_TASKID=3L"; "-DMAIKE_BUILDINFO_STARTTIME=16L";
      "-DMAIKE_BUILDINFO_STARTTIME_STR=""1970-01-01 00:00:16 UTC"""; "-DMAIKE_BUILDINFO_BUILDID=""ab""";
      "-DMAIKE_BUILDINFO_TARGETDIR=""t"""; "-DMAIKE_BUILDINFO_SOURCEDIR="".""";
      "lib/a.cpp"; "-lm"; "t/lib/b.o"; "-o"; "t/lib/a"]%string).
Proof. reflexivity. Qed.

Example a_situation : let c := a_compilation "." "t" in
  proper_compilation c /\ links (with_settings c) = true /\ path_string (bi_source_dir (build c)) <> [] /\
  path_string (source c) = lit "lib" ++ lit "/" ++ lit "a.cpp" /\
  place (lit "/home/u") (lit "lib/") = place (lit "/home/u") (path_string (bi_source_dir (build c))) ++ [lit "lib"] /\
  place (lit "/home/u") (lit "t/lib") = place (lit "/home/u") (path_string (bi_target_dir (build c))) ++ [lit "lib"] /\
  Forall hexadecimal (RecipeModel.build_id (build c)).
Proof.
  split; [apply a_proper; apply plain; reflexivity|]. repeat (split; [reflexivity || discriminate|]).
  constructor; [exists 10; left; reflexivity|]. constructor; [exists 11; left; reflexivity|]. constructor.
Qed.

Example headers : header_name (lit "core/db/x.HPP") /\ ~ header_name (lit "core/x.cpp") /\ ~ header_name (lit "core/.h").
Proof.
  rewrite <- !is_header_spec. split; [reflexivity|]. split; discriminate.
Qed.

Example literals : literal_value (lit """a\""b""") = Some (lit "a""b") /\ literal_value (lit """a""b""") = None.
Proof. split; reflexivity. Qed.
