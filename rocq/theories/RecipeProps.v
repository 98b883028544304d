(** Properties C41 and C57 to C60: what recipes are told, and what they do. *)

From Coq Require Import Ascii String ZArith NArith Bool.
From Coq Require Import List.
From Verif Require Import Str Path SMap PathProofs JsonModel DbModel GraphModel GraphSpec ValueModel LoadModel.
From Verif Require Import DepGraphModel DepGraphSpec LogModel RecipeModel RecipeSpec RecipeProofs.
Import ListNotations.

(** C57. The recipe is told everything. *)
Theorem C57_told : forall (dump : json -> str) id p info bi deps format cmd,
  is_text (path_string p) -> Forall (fun t => is_text (path_string (ti_name t))) (targets info) ->
  Forall proper_dependency deps ->
  make_build_command dump id p info bi deps format = Some cmd ->
  exists c m ds,
    (compiler_default info = None -> c = si_compiler info) /\
    (forall d, compiler_default info = Some d -> combine d (si_compiler info) = Some c) /\
    executable cmd = path_string (if path_eqb (recipe c) empty_path then make_shell_exec_path p else recipe c) /\
    cmd_args cmd = [lit "compile"; dump (JObject m)] /\
    obj_get (lit "source_file") m = Some (JString (path_string p)) /\
    obj_get (lit "targets") m = Some (JArray (map (fun t => JString (path_string (ti_name t))) (targets info))) /\
    obj_get (lit "dependencies") m = Some (JArray ds) /\ Forall2 describes deps ds /\
    obj_get (lit "compiler_cfg") m = Some (JObject (comp_config c)) /\
    obj_get (lit "task_id") m = Some (JInteger id) /\
    obj_get (lit "build_info") m = Some (build_info_to_json bi) /\
    obj_get (lit "log_format") m = Some (JString (log_format_to_string format)).
Proof. exact build_command_told. Qed.
Print Assumptions C57_told.

(** A source file that is run by itself is not looked up in the search path. *)
Theorem C57_self : forall p, comps p <> [] ->
  make_shell_exec_path p = (if absolute p then p else match comps p with [name] => mk_path false [lit "."; name] | _ => p end).
Proof. exact shell_exec_path. Qed.
Print Assumptions C57_self.

(** C57, without the assumption that names are text: a recipe may not even be
    told which file to compile. *)
Theorem C57_name_refuted : exists p, forall id info cfg bi deps format,
  obj_get (lit "source_file") (command_options id p info cfg bi deps format) = None.
Proof. exact name_lost. Qed.
Print Assumptions C57_name_refuted.

(** C41. Every word needed for linking is passed exactly once, and nothing else. *)
Theorem C41_once : forall get_libs get_libdirs compiler id p info cfg cflags bi deps format target others args,
  Forall proper_dependency deps ->
  Forall (fun t => is_text (path_string (ti_name t))) (targets info) -> targets info = target :: others ->
  obj_get (lit "cflags") cfg = Some (JArray (map JString cflags)) ->
  linker_args get_libs get_libdirs compiler (command_options id p info cfg bi deps format) = Some args ->
  exists color words,
    args = [compiler] ++ cflags ++ [color] ++ words ++ [lit "-o"; path_string (ti_name target)] /\
    NoDup words /\
    forall x, In x words <-> exists d, In d deps /\ needed_for (pkg_words get_libs get_libdirs) d x.
Proof. exact link_once. Qed.
Print Assumptions C41_once.

(** They are passed in the reverse of the order in which they come first in the list of dependencies. *)
Theorem C41_order : forall get_libs get_libdirs compiler id p info cfg cflags bi deps format target others args,
  Forall proper_dependency deps ->
  Forall (fun t => is_text (path_string (ti_name t))) (targets info) -> targets info = target :: others ->
  obj_get (lit "cflags") cfg = Some (JArray (map JString cflags)) ->
  linker_args get_libs get_libdirs compiler (command_options id p info cfg bi deps format) = Some args ->
  exists words dep_words,
    args = [compiler] ++ cflags ++ [lit "-fdiagnostics-color=" ++ lit (match format with AnsiTerm => "always" | PlainText => "never" end)]
           ++ words ++ [lit "-o"; path_string (ti_name target)] /\
    Forall2 (fun d l => forall w, In w l <-> needed_for (pkg_words get_libs get_libdirs) d w) deps dep_words /\
    without_repetitions (concat dep_words) (rev words).
Proof. exact link_in_order. Qed.
Print Assumptions C41_order.

(** The linker is started, unless pkg-config fails. *)
Theorem C41_started : forall get_libs get_libdirs compiler id p info cfg cflags bi deps format,
  Forall proper_dependency deps ->
  Forall (fun t => is_text (path_string (ti_name t))) (targets info) -> targets info <> [] ->
  obj_get (lit "cflags") cfg = Some (JArray (map JString cflags)) ->
  (forall d, In d deps -> dep_origin d = PkgConfig ->
     get_libs (path_string (dep_name d)) <> None /\ get_libdirs (path_string (dep_name d)) <> None) ->
  exists args, linker_args get_libs get_libdirs compiler (command_options id p info cfg bi deps format) = Some args.
Proof. exact link_succeeds. Qed.
Print Assumptions C41_started.

Theorem C41_library : forall archiver id p info cfg bi deps format target others,
  Forall proper_dependency deps ->
  Forall (fun t => is_text (path_string (ti_name t))) (targets info) -> targets info = target :: others ->
  exists words,
    archiver_args archiver (command_options id p info cfg bi deps format)
    = Some ([archiver; lit "rcs"; path_string (ti_name target)] ++ words) /\
    NoDup words /\
    forall x, In x words <-> exists d, In d deps /\ is_object d /\ x = path_string (dep_name d).
Proof. exact archive_once. Qed.
Print Assumptions C41_library.

(** In general: what is used comes after all of its users. *)
Theorem C41_reversed : forall (uses : str -> str -> Prop) items, dependencies_first uses items ->
  forall x y, In x items -> In y items -> uses x y -> precedes x y (filter_deps items).
Proof. exact filter_deps_order. Qed.
Print Assumptions C41_reversed.

(** In a project: an object precedes every object it needs, directly or not. *)
Theorem C41_project : forall get_libs get_libdirs compiler id p info cfg cflags bi format target others args
    ign fs g root name ds a b,
  sorted_map fs -> unresolved fs -> make_graph ign fs = Some g -> numbered fs root name ->
  get_use_deps_recursive g root = DepsFound ds ->
  ~ known fs empty_path -> names_distinct fs -> Forall proper_dependency ds ->
  Forall (fun t => is_text (path_string (ti_name t))) (targets info) -> targets info = target :: others ->
  obj_get (lit "cflags") cfg = Some (JArray (map JString cflags)) ->
  linker_args get_libs get_libdirs compiler (command_options id p info cfg bi ds format) = Some args ->
  file_reachable fs a b -> a <> b ->
  (exists d, In d ds /\ dep_name d = a /\ is_object d) -> (exists d, In d ds /\ dep_name d = b /\ is_object d) ->
  (forall d, In d ds -> ~ is_object d -> ~ needed_for (pkg_words get_libs get_libdirs) d (path_string a)) ->
  exists color words,
    args = [compiler] ++ cflags ++ [color] ++ words ++ [lit "-o"; path_string (ti_name target)] /\
    precedes (path_string a) (path_string b) words.
Proof. exact link_order. Qed.
Print Assumptions C41_project.

(** The same does not hold of what has been declared: an object that a file needs
    is not passed to the linker, if another file needs it in some other way. *)
Theorem C41_missing_refuted : exists fs g root name ds q d,
  sorted_map fs /\ unresolved fs /\ make_graph false fs = Some g /\ numbered fs root name /\
  get_use_deps_recursive g root = DepsFound ds /\ Forall proper_dependency ds /\
  file_reachable fs name q /\ declared_by fs q d /\ is_object d /\
  forall get_libs get_libdirs, exists items,
    collect_deps get_libs get_libdirs (map dep_compound ds) = Some items /\ ~ In (path_string (dep_name d)) (filter_deps items).
Proof. exact object_lost. Qed.
Print Assumptions C41_missing_refuted.

(** C58. The recipes for linking, archiving and compiling succeed iff all tools
    they run do. *)
Theorem C58_run : forall run args, ordinary run ->
  (run_and_exit run args = 0%Z <-> exists a, args = Some a /\ run a = Some 0%Z).
Proof. exact run_and_exit_zero. Qed.
Print Assumptions C58_run.

Theorem C58_compile : forall run header args source targets copy link execute sanitize, ordinary run ->
  (py_exit (cxx_compile run header args source targets copy link execute sanitize) = 0%Z <->
   header = true \/
   (run args = Some 0%Z /\ (forall t, In t (tl targets) -> copy t = true) /\
    (execute = true -> link = true /\ exists t ts, targets = t :: ts /\ run [t] = Some 0%Z) /\
    (sanitize = true ->
     run ([lit "clang-tidy"; source; lit "--"; lit "-Wno-unknown-warning-option"] ++ args) = Some 0%Z))).
Proof. exact cxx_compile_zero. Qed.
Print Assumptions C58_compile.

(** The generic recipe succeeds though its tool fails. *)
Theorem C58_generic_refuted : forall run args r, run args = Some r -> generic_main run (Some args) = 0%Z.
Proof. exact generic_succeeds. Qed.
Print Assumptions C58_generic_refuted.

(** C59. *)
Theorem C59_flags_partial : forall get_cflags cwd src target dir cflags iquote deps l,
  collect_cflags get_cflags cwd src target dir cflags iquote deps = Some l ->
  NoDup l /\ (forall x, In x cflags -> In x l) /\ (NoDup cflags -> exists rest, l = cflags ++ rest).
Proof. exact collect_cflags_words. Qed.
Print Assumptions C59_flags_partial.

(** A flag that consists of two words, and is used twice. *)
Theorem C59_flags_refuted : exists cflags : list str, forall get_cflags cwd src target,
  collect_cflags get_cflags cwd src target None cflags [] [] = Some [lit "-isystem"; lit "a"; lit "b"] /\
  cflags = [lit "-isystem"; lit "a"; lit "-isystem"; lit "b"].
Proof. exact flag_lost. Qed.
Print Assumptions C59_flags_refuted.

(** C60. *)
Theorem C60_within_partial : forall revision_tag rev_min rev_max compilers c rev cfg,
  select_compiler revision_tag compilers rev_min rev_max = Some (c, rev, cfg) ->
  In c compilers /\
  ((rev = [] /\ forall n, revision_tag c None = Some n -> within rev_min rev_max n) \/
   (rev <> [] /\ revision_tag c (Some rev) = Some cfg /\ exists n, published rev n /\ within rev_min rev_max n)).
Proof. exact select_compiler_ok. Qed.
Print Assumptions C60_within_partial.

(** Giving the latest revision alone never works. *)
Theorem C60_max_refuted : forall revision_tag c compilers rev_max,
  select_compiler revision_tag (c :: compilers) None (Some rev_max) = None.
Proof. exact max_fails. Qed.
Print Assumptions C60_max_refuted.

(** One compiler that does not work makes the configuration fail, whatever the others. *)
Theorem C60_broken_refuted : forall revision_tag c compilers rev_min,
  revision_tag c None = None -> select_compiler revision_tag (c :: compilers) (Some rev_min) None = None.
Proof. exact broken_fails. Qed.
Print Assumptions C60_broken_refuted.

(** Among compilers that support the revision only in part, that with the least
    support is used. *)
Theorem C60_oldest_refuted : exists revision_tag : str -> option str -> option Z,
  select_compiler revision_tag [lit "g++-9"; lit "g++-11"] (Some (lit "c++20")) None = Some (lit "g++-9", lit "c++20", 201709%Z) /\
  revision_tag (lit "g++-11") (Some (lit "c++20")) = Some 202000%Z.
Proof. exact oldest_used. Qed.
Print Assumptions C60_oldest_refuted.

(** * Examples *)

Local Open Scope string_scope.
Local Open Scope list_scope.

Example text_example : is_text (lit "core/naïve ✓.cpp").
Proof.
  exists [99; 111; 114; 101; 47; 110; 97; 239; 118; 101; 32; 10003; 46; 99; 112; 112]%N. split; [|reflexivity].
  repeat constructor.
Qed.

Definition obj (name : string) : dependency :=
  mk_dependency None (parse_path (lit name)) Generated [mk_property (lit "rel") (lit "implementation")].

Lemma plain_text (s : string) : forallb (fun c => N.ltb (N_of_ascii c) 128) (lit s) = true -> is_text (lit s).
Proof.
  intro H. apply ascii_text. rewrite Forall_forall. rewrite forallb_forall in H. intros c I. apply N.ltb_lt. now apply H.
Qed.

Example obj_proper : proper_dependency (obj "t/a.o").
Proof.
  split; [apply (plain_text "t/a.o"); reflexivity|]. split; [repeat constructor; intros []|].
  split; [intros [E|[]]; discriminate|]. split; [intros [E|[]]; discriminate|].
  constructor; [apply (plain_text "implementation"); reflexivity|constructor].
Qed.

(** A program made of two objects, one of which needs the other one, and a library. *)
Definition linked_project : file_list :=
  let src u := set_use_deps u (placeholder_info Project no_compiler) in
  let lib name := mk_dependency None (parse_path (lit name)) System [mk_property (lit "rel") (lit "external")] in
  [(parse_path (lit "a.o"), src [obj "b.o"]);
   (parse_path (lit "app"), src [obj "a.o"; obj "b.o"]);
   (parse_path (lit "b.o"), src [lib "jansson"]);
   (parse_path (lit "jansson"), src [])].

Definition link_info : source_file_info :=
  mk_source_file_info [] [] [] [mk_target_info (parse_path (lit "app")) []] None no_compiler Project OnlyIfOutOfDate false.

Definition link_config : compound := [(lit "cflags", JArray [JString (lit "-O3")])].

Example linked_project_words :
  match make_graph false linked_project with
  | Some g =>
      match get_use_deps_recursive g 1 with
      | DepsFound ds =>
          linker_args (fun _ => None) (fun _ => None) (lit "g++")
            (command_options 1 (parse_path (lit "app.cpp")) link_info link_config
               (mk_build_info 0 (lit "id") (parse_path (lit ".")) (parse_path (lit "t")) (lit "host")) ds AnsiTerm)
      | _ => None
      end
  | None => None
  end = Some [lit "g++"; lit "-O3"; lit "-fdiagnostics-color=always"; lit "a.o"; lit "b.o"; lit "-ljansson"; lit "-o"; lit "app"].
Proof. reflexivity. Qed.

Example linked_project_hypotheses :
  sorted_map linked_project /\ ~ known linked_project empty_path /\ names_distinct linked_project /\
  file_reachable linked_project (parse_path (lit "a.o")) (parse_path (lit "b.o")).
Proof.
  split; [repeat constructor|]. split.
  { intros (k & E). do 4 (destruct k as [|k]; [discriminate E|]). destruct k; discriminate E. }
  split.
  { intros p q (k & E) (k' & E') EQ. unfold numbered in *.
    do 4 (destruct k as [|k]; [cbn in E; inversion E; subst p; do 4 (destruct k' as [|k']; [cbn in E'; inversion E'; subst q;
       first [reflexivity|discriminate EQ]|]); destruct k'; discriminate E'|]). destruct k; discriminate E. }
  eapply reach_step; [|apply reach_self]. split; [exists 2; reflexivity|].
  exists (obj "b.o"). split; [|reflexivity]. eexists. split; [left; reflexivity|]. left. left. reflexivity.
Qed.

Example compile_fails :
  py_exit (cxx_compile (fun a => match a with [_] => Some (-11)%Z | _ => Some 0%Z end) false [lit "g++"; lit "x.cpp"] (lit "x.cpp")
             [lit "x"; lit "y"] (fun _ => true) true true false) = 245%Z.
Proof. reflexivity. Qed.

Example compile_ordinary : ordinary (fun a => match a with [_] => Some (-11)%Z | _ => Some 0%Z end).
Proof. intros [|x [|y l]] r E; inversion E; subst; split; discriminate. Qed.

Example flags_kept :
  collect_cflags (fun _ => Some [lit "-I/usr/include/x"]) (lit "/home/u") (lit ".") (lit "t") (Some (lit "lib")) [lit "-O3"; lit "-g"] []
    [dep_compound (mk_dependency None (parse_path (lit "x")) PkgConfig [])]
  = Some [lit "-O3"; lit "-g"; lit "-iquotelib"; lit "-iquote/home/u/t/lib"; lit "-I/usr/include/x"].
Proof. reflexivity. Qed.

Example revision_selected :
  select_compiler (fun _ s => match s with None => Some 201402%Z | Some _ => Some 201703%Z end) [lit "g++"]
    (Some (lit "c++17")) (Some (lit "c++20")) = Some (lit "g++", lit "c++17", 201703%Z).
Proof. reflexivity. Qed.

Example generic_ignores_failure : generic_main (fun _ => Some 1%Z) (Some [lit "false"]) = 0%Z.
Proof. reflexivity. Qed.

Example broken_first : select_compiler (fun c s => if str_eqb c (lit "g++-13") then None else Some 202002%Z) [lit "g++-13"; lit "g++"]
    (Some (lit "c++17")) None = None.
Proof. reflexivity. Qed.
