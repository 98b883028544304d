(** Properties C29, C30, C42, C44, C51 and C52: loading source files. *)

From Coq Require Import Ascii String Bool Arith.
From Coq Require Import List.
From Verif Require Import Str Path SMap JsonModel JsonSpec DbModel LoadModel LoadSpec LoadProofs LocProofs.
Import ListNotations.

(** C29 *)
Theorem C29_longest_extension : forall (V : Type) p (dict : list (str * V)),
    match match_longest_extension p dict with
    | Some v => exists e, extension_of (filename p) e /\ lookup e dict = Some v /\
        (forall e', extension_of (filename p) e' -> lookup e' dict <> None -> length e' <= length e)
    | None => forall e, extension_of (filename p) e -> lookup e dict = None
    end.
Proof. exact longest_extension. Qed.
Print Assumptions C29_longest_extension.

(** C30. [h] is what was asked before; the file system may have been different each
    time. *)
Theorem C30_recipe_lookup : forall project_dir system_dir h regular cmd,
    let (cache, past) := answer_all project_dir system_dir [] h in
    match snd (get_command regular project_dir system_dir cache cmd), first_success cmd past with
    | a, Some r => a = Some r
    | Some r, None => refers_to regular project_dir system_dir cmd r
    | None, None => refers_to_nothing regular project_dir system_dir cmd
    end.
Proof. exact query_answer. Qed.
Print Assumptions C30_recipe_lookup.

(** Any number of threads asking at the same time, while files do not come and go *)
Theorem C30_concurrent_lookup : forall regular project_dir system_dir es cmd a,
    In (cmd, a) (dict_answers (dict_run regular project_dir system_dir es)) ->
    match a with
    | Some r => refers_to regular project_dir system_dir cmd r
    | None => refers_to_nothing regular project_dir system_dir cmd
    end.
Proof. exact dict_answers_ok. Qed.
Print Assumptions C30_concurrent_lookup.

(** C42. What is missing in the first theorem is the case where the compiler of the
    file has an origin, but no recipe (see the second theorem). *)
Theorem C42_combined_compiler_partial : forall a b,
    well_formed (JObject (comp_config a)) -> well_formed (JObject (comp_config b)) ->
    (recipe b <> empty_path <-> comp_origin b <> None) ->
    match combine a b with
    | Some c =>
        (recipe b <> empty_path -> recipe c = recipe b /\ comp_origin c = comp_origin b) /\
        (recipe b = empty_path -> recipe c = recipe a /\ comp_origin c = comp_origin a) /\
        merged (JObject (comp_config a)) (JObject (comp_config b)) (JObject (comp_config c))
    | None => clash (JObject (comp_config a)) (JObject (comp_config b))
    end.
Proof. exact combine_recipe. Qed.
Print Assumptions C42_combined_compiler_partial.

(** The compiler of a file, as it is after resolving its recipe, that has a
    configuration only: the recipe of the default compiler is used, but not its
    origin. *)
Theorem C42_origin_refuted : exists a b own c,
    resolve_recipe (fun cmd => snd (get_command (fun _ => false) (mk_path false [dot]) (mk_path true [lit "usr"]) [] cmd))
                   (fun _ cfg => Some cfg) own = Some b /\
    combine a b = Some c /\ recipe b = empty_path /\ recipe c = recipe a /\
    comp_origin a = Some System /\ comp_origin c = Some Project.
Proof. exact combine_origin_refuted. Qed.
Print Assumptions C42_origin_refuted.

(** C44. [s] is the source directory, [t] the target directory, and the file [f] is
    in the directory [d] inside [s], where it has been found by the scanner. *)
Theorem C44_locations : forall s t d f, directory_ok s -> directory_ok t -> Forall ordinary d ->
    let src := append (inside s d) (mk_path false [f]) in
    forall x, Forall ordinary x -> x <> [] ->
    prepend_search_path src s t (mk_path false (dot :: x)) Project = inside s (d ++ x) /\
    prepend_search_path src s t (mk_path false x) Project = inside s x /\
    make_target_name src s t (mk_path false x) = inside t (d ++ x) /\
    prepend_search_path src s t (mk_path false (dot :: x)) Generated = inside t (d ++ x) /\
    prepend_search_path src s t (mk_path false x) Generated = inside t x.
Proof. exact locations. Qed.
Print Assumptions C44_locations.

(** Two targets are put in the same place only if their names are the same, starting
    from the source directory. *)
Theorem C44_targets_apart : forall s t d1 f1 x1 d2 f2 x2,
    directory_ok s -> directory_ok t ->
    Forall ordinary d1 -> Forall ordinary x1 -> x1 <> [] -> Forall ordinary d2 -> Forall ordinary x2 -> x2 <> [] ->
    (make_target_name (append (inside s d1) (mk_path false [f1])) s t (mk_path false x1) =
     make_target_name (append (inside s d2) (mk_path false [f2])) s t (mk_path false x2) <-> d1 ++ x1 = d2 ++ x2).
Proof. exact targets_apart. Qed.
Print Assumptions C44_targets_apart.

(** If the source directory is not given by a normalised path, a target may be placed
    outside of the target directory. *)
Theorem C44_other_source_dir_refuted : exists s t src x,
    s = mk_path false [dot; lit "foo"] /\ t = mk_path false [lit "out"] /\
    src = mk_path false [lit "foo"; lit "core"; lit "x.cpp"] /\ ordinary x /\
    make_target_name src s t (mk_path false [x]) = mk_path false [lit "foo"; lit "core"; x].
Proof. exact target_escapes. Qed.
Print Assumptions C44_other_source_dir_refuted.

(** C51 *)
Theorem C51_depends_on_directory : forall src s t parse resolve configure script_tags dir_compiler loaders content info,
    load src s t parse resolve configure script_tags dir_compiler loaders content = Some info ->
    content = None \/ match_longest_extension src loaders <> None ->
    src <> s -> src <> recipe dir_compiler ->
    In (mk_dependency None (lexically_normal (parent_path src)) Project []) (use_deps info).
Proof. exact depends_on_directory. Qed.
Print Assumptions C51_depends_on_directory.

Theorem C51_unknown_extension : forall src s t parse resolve configure script_tags dir_compiler loaders text info,
    load src s t parse resolve configure script_tags dir_compiler loaders (Some text) = Some info ->
    match_longest_extension src loaders = None ->
    use_deps info = [] /\ targets info = [].
Proof. exact unknown_extension. Qed.
Print Assumptions C51_unknown_extension.

(** C52. Missing: files whose tags have a compiler without a recipe. *)
Theorem C52_depends_on_recipe_partial :
  forall src s t parse resolve configure script_tags builtin l text info tags c d,
    load_source_file src s t parse resolve configure script_tags builtin l text = Some info ->
    parse (snd (filter_input l text)) = Some tags ->
    obj_get (lit "compiler") tags = None \/ recipe (si_compiler info) <> empty_path ->
    compiler_default info = Some d -> combine d (si_compiler info) = Some c -> recipe c <> empty_path ->
    exists dep, In dep (use_deps info) /\ dep_name dep = recipe c.
Proof. exact depends_on_recipe. Qed.
Print Assumptions C52_depends_on_recipe_partial.

(** A file with a compiler configuration of its own is compiled by the default
    recipe, but does not depend on it. *)
Theorem C52_depends_on_recipe_refuted :
  exists src s t parse resolve configure script_tags l text info d c,
    load_source_file src s t parse resolve configure script_tags [] l text = Some info /\
    compiler_default info = Some d /\ combine d (si_compiler info) = Some c /\
    recipe c <> empty_path /\ use_deps info = [].
Proof. exact recipe_dependency_refuted. Qed.
Print Assumptions C52_depends_on_recipe_refuted.

(** * Examples *)

Local Open Scope string_scope.
Local Open Scope list_scope.

Definition registry : list (str * nat) := [(lit ".cpp", 1); (lit ".test.cpp", 2); (lit ".txt", 3)].

Example ext_simple : match_longest_extension (parse_path (lit "a/foo.cpp")) registry = Some 1.
Proof. reflexivity. Qed.
Example ext_longest : match_longest_extension (parse_path (lit "a/foo.x.test.cpp")) registry = Some 2.
Proof. reflexivity. Qed.
Example ext_hidden : match_longest_extension (parse_path (lit "a.txt/.cpp")) registry = None.
Proof. reflexivity. Qed.

Definition only (l : list string) (p : path) : bool := existsb (fun n => path_eqb p (parse_path (lit n))) l.

(** The project gets a recipe of its own between two queries. *)
Example lookup_history :
  map snd (snd (answer_all (parse_path (lit "proj")) (parse_path (lit "/usr/lib")) []
    [(only ["/usr/lib/cc.py"], parse_path (lit "cc.py")); (only ["proj/cc.py"], parse_path (lit "cc.py"));
     (only ["proj/ld.py"; "/usr/lib/ld.py"], parse_path (lit "ld.py")); (only [], parse_path (lit "ar.py"))])) =
  [Some (parse_path (lit "/usr/lib/cc.py"), System); Some (parse_path (lit "/usr/lib/cc.py"), System);
   Some (parse_path (lit "proj/ld.py"), Project); None].
Proof. reflexivity. Qed.

Example lookup_threads :
  dict_answers (dict_run (only ["proj/cc.py"]) (parse_path (lit "proj")) (parse_path (lit "/usr/lib"))
    [Ask (parse_path (lit "cc.py")); Ask (parse_path (lit "cc.py")); Finish 1; Ask (parse_path (lit "cc.py")); Finish 0]) =
  repeat (parse_path (lit "cc.py"), Some (parse_path (lit "proj/cc.py"), Project)) 3.
Proof. reflexivity. Qed.

Example combined_compiler :
  option_map (fun c => (recipe c, comp_origin c, comp_config c))
    (combine (mk_compiler (parse_path (lit "cc.py")) (Some System) [(lit "std", JString (lit "c++17")); (lit "flags", JArray [JString (lit "-g")])] false)
             (mk_compiler empty_path None [(lit "flags", JArray [JString (lit "-O3")])] false)) =
  Some (parse_path (lit "cc.py"), Some System,
        [(lit "std", JString (lit "c++17")); (lit "flags", JArray [JString (lit "-g"); JString (lit "-O3")])]).
Proof. reflexivity. Qed.

Ltac ordinary_names :=
  repeat constructor; try discriminate; simpl; let H := fresh in intro H; repeat (destruct H as [H|H]; [discriminate H|]); exact H.

Example locations_hypotheses :
  directory_ok (parse_path (lit ".")) /\ directory_ok (parse_path (lit "../proj")) /\
  directory_ok (parse_path (lit "__targets")) /\ Forall ordinary [lit "core"; lit "db"] /\
  parse_path (lit "./gen/x.hpp") = mk_path false (dot :: [lit "gen"; lit "x.hpp"]).
Proof.
  split; [left; reflexivity|]. split; [right; split; [exists 1, [lit "proj"]; split; [reflexivity|split; [ordinary_names|discriminate]]|right; discriminate]|].
  split; [right; split; [exists 0, [lit "__targets"]; split; [reflexivity|split; [ordinary_names|auto]]|right; discriminate]|].
  split; [ordinary_names|reflexivity].
Qed.

Example locations_concrete :
  let src := parse_path (lit "../proj/core/db/x.cpp") in
  let s := parse_path (lit "../proj") in
  let t := parse_path (lit "__targets") in
  prepend_search_path src s t (parse_path (lit "./y.hpp")) Project = parse_path (lit "../proj/core/db/y.hpp") /\
  prepend_search_path src s t (parse_path (lit "lib/y.hpp")) Project = parse_path (lit "../proj/lib/y.hpp") /\
  make_target_name src s t (parse_path (lit "x.o")) = parse_path (lit "__targets/core/db/x.o") /\
  prepend_search_path src s t (parse_path (lit "./x.o")) Generated = parse_path (lit "__targets/core/db/x.o") /\
  prepend_search_path src s t (parse_path (lit "lib/x.o")) Generated = parse_path (lit "__targets/lib/x.o").
Proof. repeat split; reflexivity. Qed.

(** A loader that takes the whole file as tags *)
Definition rule_loader : loader :=
  mk_loader (fun text => ([], text)) (fun _ => []) (mk_compiler (parse_path (lit "/usr/lib/cc.py")) (Some System) [] false) false.

Definition dir_compiler_example : compiler := mk_compiler (parse_path (lit "mkdir.py")) (Some System) [] false.

Definition load_example (name : string) (content : option str) : option source_file_info :=
  load (parse_path (lit name)) (parse_path (lit ".")) (parse_path (lit "__targets"))
       (fun _ => Some [(lit "target", JObject [(lit "name", JString (lit "foo.o"))])])
       (fun _ => None) (fun _ c => Some c) (fun _ _ => None) dir_compiler_example [(lit ".rule", rule_loader)] content.

Example load_file :
  option_map (fun i => (map dep_name (use_deps i), map ti_name (targets i))) (load_example "lib/foo.rule" (Some [])) =
  Some ([parse_path (lit "lib"); parse_path (lit "/usr/lib/cc.py")], [parse_path (lit "__targets/lib/foo.o")]).
Proof. reflexivity. Qed.

Example load_directory :
  option_map (fun i => (map dep_name (use_deps i), map ti_name (targets i))) (load_example "lib/sub" None) =
  Some ([parse_path (lit "lib"); parse_path (lit "mkdir.py")], [parse_path (lit "__targets/lib/sub")]).
Proof. reflexivity. Qed.

Example load_unknown :
  option_map (fun i => (map dep_name (use_deps i), map ti_name (targets i))) (load_example "lib/foo.xyz" (Some [])) = Some ([], []).
Proof. reflexivity. Qed.
