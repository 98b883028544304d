(** What pkg-config says, in the commands for compiling and linking. *)

From Coq Require Import Ascii String Bool Arith ZArith.
From Coq Require Import List.
From Verif Require Import Str Path JsonModel DbModel ValueModel LoadModel LogModel RecipeModel RecipeSpec RecipeProofs PkgModel PkgSpec PkgProofs.
Import ListNotations.

Section Link.
  Variable run : list str -> option (Z * str).
  Notation libs := (PkgModel.get_libs run).
  Notation dirs := (PkgModel.get_libdirs run).

  Lemma collect_pkg d : proper_dependency d -> dep_origin d = PkgConfig ->
    collect_dep libs dirs (dep_compound d) =
    match libs (path_string (dep_name d)), dirs (path_string (dep_name d)) with Some a, Some b => Some (a ++ b) | _, _ => None end.
  Proof.
    intros P O. unfold collect_dep, member. rewrite (dep_compound_origin d P), (dep_compound_ref d P), O. reflexivity.
  Qed.

  Lemma collected compiler id p info cfg cflags bi deps format args :
    Forall proper_dependency deps -> Forall (fun t => is_text (path_string (ti_name t))) (targets info) ->
    obj_get (lit "cflags") cfg = Some (JArray (map JString cflags)) ->
    linker_args libs dirs compiler (command_options id p info cfg bi deps format) = Some args ->
    forall d, In d deps -> collect_dep libs dirs (dep_compound d) = Some (words_for libs dirs d).
  Proof.
    intros F FT EC H. unfold linker_args, member in H. rewrite options_config, EC, color_flag_format, options_dependencies, objects_eq, options_targets in H by assumption.
    destruct (collect_deps libs dirs (map dep_compound deps)) as [items|] eqn:E; [now apply collect_deps_eq in E as (_ & E)|].
    repeat match type of H with context [match ?x with _ => _ end] => destruct x; try discriminate H end.
  Qed.

  Lemma kept_together P W Q : NoDup W -> (forall x, In x W -> ~ In x P) -> exists a b, filter_deps (P ++ W ++ Q) = a ++ rev W ++ b.
  Proof.
    intros N D. unfold filter_deps. rewrite !filter_loop_app, app_nil_r, (filter_loop_id W P N D), !rev_app_distr, <- app_assoc. eauto.
  Qed.

  Theorem link_together compiler id p info cfg cflags bi pre d post format target others args :
    Forall proper_dependency (pre ++ d :: post) -> dep_origin d = PkgConfig ->
    Forall (fun t => is_text (path_string (ti_name t))) (targets info) -> targets info = target :: others ->
    obj_get (lit "cflags") cfg = Some (JArray (map JString cflags)) ->
    linker_args libs dirs compiler (command_options id p info cfg bi (pre ++ d :: post) format) = Some args ->
    exists out_libs ws_libs out_dirs ws_dirs,
      says run "--libs-only-l" (path_string (dep_name d)) out_libs /\ consists out_libs ws_libs /\
      says run "--libs-only-L" (path_string (dep_name d)) out_dirs /\ consists out_dirs ws_dirs /\
      (NoDup (ws_dirs ++ ws_libs) ->
       (forall w d', In w (ws_dirs ++ ws_libs) -> In d' pre -> ~ needed_for (pkg_words libs dirs) d' w) ->
       exists a b, args = [compiler] ++ cflags ++ a ++ ws_dirs ++ ws_libs ++ b ++ [lit "-o"; path_string (ti_name target)]).
  Proof.
    intros F O FT ET EC H. destruct (link_line _ _ _ _ _ _ _ _ _ _ _ _ _ _ F FT ET EC H) as (-> & W).
    assert (Pd : proper_dependency d) by (rewrite Forall_forall in F; apply F, in_elt).
    assert (C := collected _ _ _ _ _ _ _ _ _ _ F FT EC H d (in_elt _ _ _)).
    rewrite (collect_pkg d Pd O) in C.
    destruct (libs (path_string (dep_name d))) as [la|] eqn:L; [|discriminate]. destruct (dirs (path_string (dep_name d))) as [lb|] eqn:D; [|discriminate].
    injection C as Wd. symmetry in Wd. apply libs_exact in L as (ol & wl & Sl & Cl & ->). apply libdirs_exact in D as (od & wd & Sd & Cd & ->).
    exists ol, wl, od, wd. repeat (split; [assumption|]). intros N X.
    rewrite map_app, concat_app. cbn [map concat]. rewrite Wd.
    destruct (kept_together (concat (map (words_for libs dirs) pre)) (rev wl ++ rev wd) (concat (map (words_for libs dirs) post))) as (a & b & E).
    - rewrite <- rev_app_distr. now apply NoDup_rev.
    - intros x I J. rewrite <- rev_app_distr, <- in_rev in I. apply in_concat in J as (l & J & K). apply in_map_iff in J as (d' & <- & J).
      apply (X x d' I J). apply W; [apply in_app_iff; now left|exact K].
    - rewrite E, rev_app_distr, !rev_involutive.
      exists (((lit "-fdiagnostics-color=" ++ match format with AnsiTerm => lit "always" | _ => lit "never" end) :: nil) ++ a), b. rewrite <- !app_assoc. reflexivity.
  Qed.

  Theorem link_fails compiler id p info cfg cflags bi deps d format :
    Forall proper_dependency deps -> In d deps -> dep_origin d = PkgConfig ->
    Forall (fun t => is_text (path_string (ti_name t))) (targets info) ->
    obj_get (lit "cflags") cfg = Some (JArray (map JString cflags)) ->
    (forall out, ~ says run "--libs-only-l" (path_string (dep_name d)) out) \/ (forall out, ~ says run "--libs-only-L" (path_string (dep_name d)) out) ->
    linker_args libs dirs compiler (command_options id p info cfg bi deps format) = None.
  Proof.
    intros F I O FT EC N. destruct (linker_args libs dirs compiler _) as [args|] eqn:H; [|reflexivity]. exfalso.
    assert (E := collected _ _ _ _ _ _ _ _ _ _ F FT EC H d I). rewrite Forall_forall in F. rewrite (collect_pkg d (F d I) O) in E.
    destruct (libs (path_string (dep_name d))) as [la|] eqn:L; [|discriminate]. destruct (dirs (path_string (dep_name d))) as [lb|] eqn:D; [|discriminate].
    apply libs_exact in L as (ol & wl & Sl & _). apply libdirs_exact in D as (od & wd & Sd & _). destruct N as [N|N]; [exact (N _ Sl)|exact (N _ Sd)].
  Qed.
End Link.
