(** C98: The default configuration *)

From Coq Require Import Ascii String Bool.
From Coq Require Import List.
From Verif Require Import Str Path SMap CfgModel ScanModel ScanSpec DbModel LoadModel.
From Verif Require Import DefaultModel DefaultSpec DefaultProofs DefaultRun.
From Verif Require Import LoadSpec.
Import ListNotations.

(** Without a configuration, the project consists of the source directory, and of those
    plain files in it whose names do not begin with a dot or with two underscores. That it
    does not matter whether ./ stands in front of a name is a condition: the files in the
    source directory . are looked up with it. *)
Theorem C98_files :
  forall search (Info : Type) is_directory entries (loads : path -> option Info) root workers cs st files,
    understands_defaults search -> directory_ok root -> proper_entries entries ->
    (forall name, In name (fst (entries root)) ->
       is_directory (lexically_normal (append root (mk_path false [name]))) =
       is_directory (append root (mk_path false [name]))) ->
    is_directory root = Some true ->
    scan_with search default_config Info is_directory entries loads root workers cs = Some st ->
    scan_owner st = MainReturned files ->
    forall p, In p (map fst files) <->
      p = root \/
      exists name, In name (fst (entries root)) /\ ~ hidden name /\
        is_directory (append root (mk_path false [name])) = Some false /\
        p = lexically_normal (append root (mk_path false [name])).
Proof. exact default_files. Qed.
Print Assumptions C98_files.

(** What is done with a file is determined by the longest of the extensions in the table
    that the name of the file ends with. *)
Theorem C98_recipes : forall p : path, exists m, map_loaders default_config = Some m /\
    match match_longest_extension p m with
    | Some l => exists e what, In (e, what) default_recipes /\ extension_of (filename p) (lit e) /\ uses l what /\
        (forall e' what', In (e', what') default_recipes -> extension_of (filename p) (lit e') ->
           length (lit e') <= length (lit e))
    | None => forall e what, In (e, what) default_recipes -> ~ extension_of (filename p) (lit e)
    end.
Proof. exact default_loader. Qed.
Print Assumptions C98_recipes.

(** C98_files does not hold for every way to write the name of the source directory: with
    ./foo instead of foo, all files are left out, even though the program succeeds. *)
Theorem C98_dot_refuted : exists search is_directory entries (loads : path -> option nat) root workers cs st files name,
    understands_defaults search /\ directory_ok (lexically_normal root) /\ proper_entries entries /\
    (forall p q, lexically_normal p = lexically_normal q -> is_directory p = is_directory q) /\ is_directory root = Some true /\
    scan_with search default_config nat is_directory entries loads root workers cs = Some st /\
    scan_owner st = MainReturned files /\
    In name (fst (entries (lexically_normal root))) /\ ~ hidden name /\ is_directory (append root (mk_path false [name])) = Some false /\
    (forall p, In p (map fst files) -> p = lexically_normal root).
Proof. exact dot_hides_files. Qed.
Print Assumptions C98_dot_refuted.

(** ** Examples *)

Local Open Scope string_scope.
Local Open Scope list_scope.

(** The conditions are met by the example project. *)
Example foo_conditions :
  understands_defaults prefix_search /\ directory_ok (parse_path (lit "foo")) /\ proper_entries foo_entries /\
  (forall name, In name (fst (foo_entries (parse_path (lit "foo")))) -> foo_is_directory (lexically_normal (append (parse_path (lit "foo")) (mk_path false [name]))) =
                foo_is_directory (append (parse_path (lit "foo")) (mk_path false [name]))) /\
  foo_is_directory (parse_path (lit "foo")) = Some true.
Proof.
  split; [exact prefix_search_understands|]. split; [exact foo_ok|]. split; [exact foo_proper|]. split; [|reflexivity].
  intros name I. repeat (destruct I as [<- | I]; [reflexivity|]). destruct I.
Qed.

Example foo_as_expected : foo_files "foo" 34 =
  Some (MainReturned [(parse_path (lit "foo"), 3); (parse_path (lit "foo/a.hpp"), 9); (parse_path (lit "foo/main.cpp"), 12)]).
Proof. vm_compute. reflexivity. Qed.

Example foo_with_dot : foo_files "./foo" 30 = Some (MainReturned [(parse_path (lit "foo"), 5)]).
Proof. exact foo_dot. Qed.

Example hidden_names : hidden (lit ".git") /\ hidden (lit "__targets") /\ ~ hidden (lit "_targets") /\ ~ hidden (lit "foo_targets").
Proof.
  split; [left; eexists; reflexivity|]. split; [right; eexists; reflexivity|].
  split; intros [(r & K)|(r & K)]; discriminate.
Qed.

Example recipe_of_test : exists m, map_loaders default_config = Some m /\
  option_map (fun l => path_string (recipe (snd l))) (match_longest_extension (parse_path (lit "foo/a.test.cpp")) m) = Some (lit "cxx_compiler.py") /\
  match_longest_extension (parse_path (lit "foo/Makefile")) m = None.
Proof.
  destruct (map_loaders default_config) as [m|] eqn:M; [|vm_compute in M; discriminate]. exists m.
  vm_compute in M. injection M as <-. split; [reflexivity|]. split; reflexivity.
Qed.
