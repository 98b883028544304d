(** Property C101: tags mean what they say. *)

From Coq Require Import Ascii String ZArith.
From Coq Require Import List.
From Verif Require Import Str Path JsonModel DbModel LoadModel TagSpec StepSpec MeanSpec MeanProofs LoadSpec.
Import ListNotations.

(** C101. The file [f] is in the directory [d] of the source directory [s], and its tags are [tags].
    If its recipe is asked for tags, it delivers [st]. What is known about the file afterwards is
    what these tags say, in that order, together with what its source code refers to, and
    its recipe. *)
Theorem C101_tags_mean :
  forall (s t : path) (d : list str) (f : str), directory_ok s -> directory_ok t -> Forall ordinary d ->
    let src := append (inside s d) (mk_path false [f]) in
    forall (parse : str -> option (list (str * json))) (resolve : path -> option (path * origin))
      (configure : path -> list (str * json) -> option (list (str * json)))
      (script_tags : compiler -> path -> option (list (str * json)))
      (builtin : list dependency) (l : loader) (content : str) (info : source_file_info) (tags : list (str * json)),
    load_source_file src s t parse resolve configure script_tags builtin l content = Some info ->
    parse (snd (filter_input l content)) = Some tags ->
    exists st ts1 ts2 use1 use2 extra1 extra2 includes recipes,
      (asks l tags -> exists c, script_tags c src = Some st) /\ (~ asks l tags -> st = []) /\
      says_file s t d tags ts1 use1 extra1 /\ says_file s t d st ts2 use2 extra2 /\
      targets info = ts1 ++ ts2 /\ child_targets_use_deps info = extra1 ++ extra2 /\
      use_deps info = builtin ++ includes ++ use1 ++ use2 ++ recipes /\
      Forall2 (refers s t d) (find_dependencies l (fst (filter_input l content))) includes /\
      (let r := match obj_get (lit "compiler") tags with Some _ => recipe (si_compiler info) | None => recipe (loader_compiler l) end in
       (r = empty_path /\ recipes = []) \/ exists x, r <> empty_path /\ recipes = [x] /\ dep_name x = r /\ dep_props x = []) /\
      says_policy tags (si_policy info).
Proof. exact tags_said. Qed.
Print Assumptions C101_tags_mean.

(** * Examples *)

Local Open Scope string_scope.
Local Open Scope list_scope.

(** The file core/a.cpp, with everything that tags can have. *)
Definition all_tags : list (str * json) :=
  [(lit "target", JObject
     [(lit "name", JString (lit "a.o"));
      (lit "dependencies", JArray [JObject [(lit "ref", JString (lit "z")); (lit "rel", JString (lit "implementation"))];
                                   JObject [(lit "origin", JString (lit "generated")); (lit "ref", JString (lit "./b.o"))]]);
      (lit "pkgconfig_libs", JArray [JString (lit "jansson")])]);
   (lit "targets", JArray [JObject [(lit "name", JString (lit "../a.txt"))]]);
   (lit "dependencies", JArray [JObject [(lit "ref", JString (lit "lib/gen.hpp"))];
                                JObject [(lit "ref", JString (lit "./t.txt")); (lit "origin", JString (lit "project"))]]);
   (lit "dependencies_extra", JArray [JObject [(lit "ref", JString (lit "./c.o")); (lit "rel", JString (lit "implementation"))]]);
   (lit "rebuild", JString (lit "always"))].

(** Delivered by the recipe *)
Definition more_tags : list (str * json) :=
  [(lit "dependencies", JArray [JObject [(lit "ref", JString (lit "more.hpp")); (lit "origin", JString (lit "system"))]])].

Definition plain : loader :=
  mk_loader (fun text => (text, [])) (fun _ => [mk_dependency None (parse_path (lit "./a.hpp")) Project []])
    (mk_compiler (parse_path (lit "cxx.py")) (Some System) [] true) false.

Definition in_core : path := append (inside (mk_path false [dot]) [lit "core"]) (mk_path false [lit "a.cpp"]).

Definition with_all : option source_file_info :=
  load_source_file in_core (mk_path false [dot]) (mk_path false [lit "out"]) (fun _ => Some all_tags)
    (fun p => Some (p, Project)) (fun _ c => Some c) (fun _ _ => Some more_tags) [] plain [].

Definition fact (n : string) (o : origin) (props : list property) : dependency := mk_dependency None (parse_path (lit n)) o props.

Example all_said :
  directory_ok (mk_path false [dot]) /\ directory_ok (mk_path false [lit "out"]) /\ Forall ordinary [lit "core"] /\
  asks plain all_tags /\
  option_map targets with_all =
    Some [mk_target_info (parse_path (lit "out/core/a.o"))
            [fact "z" System [mk_property (lit "rel") (lit "implementation")]; fact "out/core/b.o" Generated []; fact "jansson" PkgConfig []];
          mk_target_info (parse_path (lit "out/a.txt")) []] /\
  option_map use_deps with_all =
    Some [fact "core/a.hpp" Project []; fact "out/lib/gen.hpp" Generated []; fact "core/t.txt" Project []; fact "more.hpp" System [];
          fact "cxx.py" System []] /\
  option_map child_targets_use_deps with_all = Some [fact "out/core/c.o" Generated [mk_property (lit "rel") (lit "implementation")]] /\
  option_map si_policy with_all = Some Always.
Proof.
  split; [now left|].
  split; [right; split; [|right; discriminate]; exists 0, [lit "out"]; split; [reflexivity|]; split; [|discriminate]; constructor; [|constructor]|].
  { repeat split; try discriminate. cbn. intuition discriminate. }
  split; [constructor; [|constructor]; repeat split; try discriminate; cbn; intuition discriminate|].
  split; [left; split; reflexivity|].
  repeat split; vm_compute; reflexivity.
Qed.

Ltac is_name := repeat split; try discriminate; cbn; intuition discriminate.

(** The names in it are covered. *)
Example names_covered :
  names (mk_path false [dot]) (mk_path false [lit "out"]) [lit "core"] Project (parse_path (lit "./t.txt")) (parse_path (lit "core/t.txt")) /\
  names (mk_path false [dot]) (mk_path false [lit "out"]) [lit "core"] Generated (parse_path (lit "lib/gen.hpp")) (parse_path (lit "out/lib/gen.hpp")) /\
  follow [lit "core"] [dotdot; lit "a.txt"] [lit "a.txt"].
Proof.
  assert (O1 : ordinary (lit "t.txt")) by is_name. assert (O2 : ordinary (lit "lib")) by is_name.
  assert (O3 : ordinary (lit "gen.hpp")) by is_name. assert (O4 : ordinary (lit "a.txt")) by is_name.
  split; [|split].
  - change (parse_path (lit "core/t.txt")) with (inside (mk_path false [dot]) [lit "core"; lit "t.txt"]).
    change (parse_path (lit "./t.txt")) with (mk_path false (dot :: [lit "t.txt"])). apply (names_local _ _ _ [lit "t.txt"] [lit "core"; lit "t.txt"]).
    + split; [constructor; [left; exact O1|constructor]|]. exists [], (lit "t.txt"). split; [reflexivity|exact O1].
    + apply follow_down; [exact O1|]. apply follow_end.
  - change (parse_path (lit "out/lib/gen.hpp")) with (inside (mk_path false [lit "out"]) [lit "lib"; lit "gen.hpp"]).
    change (parse_path (lit "lib/gen.hpp")) with (mk_path false [lit "lib"; lit "gen.hpp"]). apply (names_global_generated _ _ _ [lit "lib"; lit "gen.hpp"] [lit "lib"; lit "gen.hpp"]).
    + split; [constructor; [left; exact O2|constructor; [left; exact O3|constructor]]|]. exists [lit "lib"], (lit "gen.hpp"). split; [reflexivity|exact O3].
    + discriminate.
    + apply follow_down; [exact O2|]. apply follow_down; [exact O3|]. apply follow_end.
  - apply (follow_up [] (lit "core")). apply follow_down; [exact O4|]. apply follow_end.
Qed.
