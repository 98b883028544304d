(** Proofs about the command that compiles a C++ source file. *)

From Coq Require Import Ascii String ZArith NArith Bool Arith Lia.
From Coq Require Import List.
From Verif Require Import Str Path PathProofs JsonModel JsonProofs ValueModel ValueSpec TimeProofs LoadModel LogModel DbModel RecipeModel RecipeSpec RecipeProofs CxxModel CxxSpec.
Import ListNotations.

(** ** Words *)

Lemma dependency_flags_words get_cflags d l : proper_dependency d -> dependency_flags get_cflags (dep_compound d) = Some l ->
  flags_for get_cflags d l.
Proof.
  intros P C. unfold dependency_flags, member in C. rewrite (dep_compound_origin d P), (dep_compound_ref d P) in C.
  unfold flags_for, relation_is.
  destruct (dep_compound_rel d P) as [(v & I & G & U)|(G & U)]; rewrite G in C; cbn [is_string] in C.
  - assert (R : In (mk_property (lit "rel") (lit "include")) (dep_props d) <-> str_eqb v (lit "include") = true).
    { rewrite str_eqb_eq. split; [intro H; symmetry; now apply U|]. now intros <-. }
    rewrite R. clear R. destruct (dep_origin d) eqn:O; cbn [origin_name] in C.
    4:{ change (str_eqb (lit "pkg-config") (lit "pkg-config")) with true in C. cbn iota in C. left. split; [reflexivity|exact C]. }
    all: match type of C with (if ?c then _ else _) = _ => change c with false in C end; cbn iota in C.
    all: right; destruct (str_eqb v (lit "include")) eqn:V; injection C as <-.
    all: first [left; split; [discriminate|]; split; reflexivity|right; split; [discriminate|]; split; [discriminate|reflexivity]].
  - destruct (dep_origin d) eqn:O; cbn [origin_name] in C.
    4:{ change (str_eqb (lit "pkg-config") (lit "pkg-config")) with true in C. cbn iota in C. left. split; [reflexivity|exact C]. }
    all: match type of C with (if ?c then _ else _) = _ => change c with false in C end; cbn iota in C.
    all: injection C as <-; right; right; split; [discriminate|]; split; [apply U|reflexivity].
Qed.

Definition flags_of (get_cflags : str -> option (list str)) (d : dependency) : list str :=
  match dependency_flags get_cflags (dep_compound d) with Some l => l | None => [] end.

Lemma map_all_flags get_cflags deps ls : map_all (dependency_flags get_cflags) (map dep_compound deps) = Some ls ->
  ls = map (flags_of get_cflags) deps /\
  forall d, In d deps -> dependency_flags get_cflags (dep_compound d) = Some (flags_of get_cflags d).
Proof.
  revert ls. induction deps as [|d deps IH]; intros ls H; cbn [map map_all] in H.
  - injection H as <-. split; [reflexivity|]. intros d [].
  - destruct (dependency_flags get_cflags (dep_compound d)) as [w|] eqn:E; [|discriminate].
    destruct (map_all (dependency_flags get_cflags) (map dep_compound deps)) as [ws|] eqn:E2; [|discriminate].
    injection H as <-. destruct (IH _ eq_refl) as (Q & A).
    assert (W : flags_of get_cflags d = w) by (unfold flags_of; now rewrite E).
    cbn [map]. rewrite W. split; [now rewrite <- Q|]. intros d' [<-|I]; [now rewrite W|auto].
Qed.

Lemma map_all_flags_some get_cflags deps : Forall proper_dependency deps ->
  (forall d, In d deps -> dep_origin d = PkgConfig -> get_cflags (path_string (dep_name d)) <> None) ->
  exists ls, map_all (dependency_flags get_cflags) (map dep_compound deps) = Some ls.
Proof.
  intros F A. induction F as [|d deps P F IH]; [now exists []|]. cbn [map map_all].
  destruct IH as (ls & ->); [intros d' I; apply A; now right|].
  assert (exists w, dependency_flags get_cflags (dep_compound d) = Some w) as (w & ->); [|eexists; reflexivity].
  unfold dependency_flags, member. rewrite (dep_compound_origin d P), (dep_compound_ref d P).
  pose proof (A d (or_introl eq_refl)) as AP. destruct (dep_origin d) eqn:O; cbn [origin_name is_string].
  4:{ change (str_eqb (lit "pkg-config") (lit "pkg-config")) with true. cbn iota. specialize (AP eq_refl).
      destruct (get_cflags (path_string (dep_name d))); [eexists; reflexivity|contradiction]. }
  all: match goal with |- exists w, (if ?c then _ else _) = _ => change c with false end; cbn iota.
  all: destruct (dep_compound_rel d P) as [(v & I & G & U)|(G & U)]; rewrite G; cbn [is_string].
  all: try (eexists; reflexivity).
  all: match goal with |- exists w, (if ?c then _ else _) = _ => destruct c end; eexists; reflexivity.
Qed.

(** The directories that are searched for headers *)
Definition quote_options (cwd sd td d : str) : list str :=
  [lit "-iquote" ++ (if str_eqb sd (lit ".") then d else sd ++ lit "/" ++ d);
   lit "-iquote" ++ cwd ++ lit "/" ++ td ++ lit "/" ++ d].

Lemma format_iquote_eq cwd sd td dirs : format_iquote cwd sd td dirs = flat_map (quote_options cwd sd td) dirs.
Proof.
  unfold format_iquote. apply flat_map_ext. intro d. unfold quote_options. destruct (str_eqb sd (lit ".")); reflexivity.
Qed.

(** ** The whole command *)

Lemma strings_of l : strings (Some (JArray (map JString l))) = Some l.
Proof. cbn [strings]. induction l as [|c l IH]; [reflexivity|]. cbn [map map_all]. now rewrite IH. Qed.

Definition info_compound (bi : build_info) : compound :=
  set_new "build_host" (json_string (build_host bi))
    (set_new "target_dir" (json_string (path_string (bi_target_dir bi)))
    (set_new "source_dir" (json_string (path_string (bi_source_dir bi)))
    (set_new "build_id" (json_string (build_id bi))
    (set_new "start_time" (Some (JInteger (start_time bi))) [])))).

Lemma info_members bi : proper_info bi ->
  obj_get (lit "start_time") (info_compound bi) = Some (JInteger (start_time bi)) /\
  obj_get (lit "build_id") (info_compound bi) = Some (JString (build_id bi)) /\
  obj_get (lit "source_dir") (info_compound bi) = Some (JString (path_string (bi_source_dir bi))) /\
  obj_get (lit "target_dir") (info_compound bi) = Some (JString (path_string (bi_target_dir bi))).
Proof.
  intros (T1 & T2 & T3). unfold info_compound. rewrite (json_string_text _ T1), (json_string_text _ T2), (json_string_text _ T3).
  assert (H : forall k (v : option json) o, k <> lit "build_host" -> obj_get k (set_new "build_host" v o) = obj_get k o).
  { intros k [v|] o N; cbn [set_new]; [apply obj_get_set_other; exact N|reflexivity]. }
  rewrite !H by discriminate. cbn [set_new]. repeat split.
Qed.

Lemma configured_std cfg x : configured cfg x -> std_flag cfg = Some (std x).
Proof.
  intros (_ & _ & _ & H & _). unfold std_flag, member. destruct (obj_get (lit "std_revision") cfg) as [j|]; [|now rewrite H].
  destruct H as (r & -> & H). destruct (obj_get (lit "selected") r) as [v|]; [|now rewrite H].
  destruct H as (s & -> & ->). reflexivity.
Qed.

Lemma configured_actions cfg x : configured cfg x -> actions_of cfg = Some (actions x).
Proof.
  intros (_ & _ & _ & _ & H). unfold actions_of, member. destruct (obj_get (lit "actions") cfg) as [j|]; [|now rewrite H].
  subst j. apply strings_of.
Qed.

Section Compile.
  Variables get_cflags get_libs get_libdirs : str -> option (list str).
  Variable cwd : str.
  Variable utc : Z -> option str.

  Definition own_directory (p : path) (bi : build_info) : list str :=
    let d := dir_name (path_string p) in
    if is_nil d then [] else [rel_path cwd d (path_string (bi_source_dir bi))].

  Definition wanted (p : path) (bi : build_info) (x : settings) (deps : list dependency) : list str :=
    cflags x
    ++ flat_map (quote_options cwd (path_string (bi_source_dir bi)) (path_string (bi_target_dir bi))) (own_directory p bi ++ iquote x)
    ++ concat (map (flags_of get_cflags) deps).

  Definition defs_of (id : Z) (bi : build_info) (text : str) : list str :=
    [define_integer "MAIKE_TASKID" id; define_integer "MAIKE_BUILDINFO_STARTTIME" (start_time bi);
     define_string "MAIKE_BUILDINFO_STARTTIME_STR" text; define_string "MAIKE_BUILDINFO_BUILDID" (build_id bi);
     define_string "MAIKE_BUILDINFO_TARGETDIR" (path_string (bi_target_dir bi));
     define_string "MAIKE_BUILDINFO_SOURCEDIR" (path_string (bi_source_dir bi))].

  Definition objects_for (x : settings) (deps : list dependency) : list str :=
    if links x then filter_deps (concat (map (words_for get_libs get_libdirs) deps)) else [].

  Lemma compile_flags_eq id p info cfg bi deps format x :
    proper_info bi -> configured cfg x ->
    compile_flags get_cflags cwd (command_options id p info cfg bi deps format) (info_compound bi) cfg (path_string p)
    = option_map (fun ls => unique (cflags x
        ++ flat_map (quote_options cwd (path_string (bi_source_dir bi)) (path_string (bi_target_dir bi))) (own_directory p bi ++ iquote x)
        ++ concat ls)) (map_all (dependency_flags get_cflags) (map dep_compound deps)).
  Proof.
    intros PI (_ & C2 & C3 & _). destruct (info_members bi PI) as (_ & _ & I3 & I4).
    unfold compile_flags, string_member, member. rewrite I3, I4, C2, C3, !strings_of, options_dependencies, objects_eq.
    unfold collect_cflags. rewrite format_iquote_eq. unfold own_directory.
    destruct (is_nil (dir_name (path_string p))); destruct (map_all (dependency_flags get_cflags) (map dep_compound deps)); reflexivity.
  Qed.

  Lemma compile_args_eq id p info cfg bi deps format x target others text :
    is_text (path_string p) -> Forall (fun t => is_text (path_string (ti_name t))) (targets info) -> targets info = target :: others ->
    proper_info bi -> configured cfg x -> utc (start_time bi) = Some text ->
    compile_args get_cflags get_libs get_libdirs cwd utc (command_options id p info cfg bi deps format)
    = match map_all (dependency_flags get_cflags) (map dep_compound deps),
            (if links x then option_map filter_deps (collect_deps get_libs get_libdirs (map dep_compound deps)) else Some []) with
      | Some ls, Some objs =>
          Some ([backend x] ++ unique (cflags x
                  ++ flat_map (quote_options cwd (path_string (bi_source_dir bi)) (path_string (bi_target_dir bi))) (own_directory p bi ++ iquote x)
                  ++ concat ls)
                ++ std x ++ [color_of format] ++ defs_of id bi text ++ (if links x then [] else [lit "-c"]) ++ [path_string p] ++ objs
                ++ [lit "-o"; path_string (ti_name target)])
      | _, _ => None
      end.
  Proof.
    intros T FT ET PI C U. pose proof C as (C1 & _). destruct (info_members bi PI) as (I1 & I2 & I3 & I4).
    unfold compile_args. unfold object_member, string_member at 1 2, member. rewrite options_config, options_info.
    change (build_info_to_json bi) with (JObject (info_compound bi)). cbn iota. rewrite options_source by exact T.
    rewrite options_targets by exact FT. rewrite (strings_eq (fun t => path_string (ti_name t))), ET. cbn [map].
    rewrite color_flag_format, C1. rewrite (compile_flags_eq _ _ _ _ _ _ _ x PI C), (configured_std _ _ C), (configured_actions _ _ C).
    unfold definitions, integer_member, string_member, member. rewrite options_id, I1, I2, I3, I4, U.
    unfold linked_objects, member. rewrite options_dependencies, objects_eq. fold (links x).
    destruct (map_all (dependency_flags get_cflags) (map dep_compound deps)) as [ls|]; cbn [option_map]; [|reflexivity].
    destruct (links x); [|reflexivity]. destruct (collect_deps get_libs get_libdirs (map dep_compound deps)); reflexivity.
  Qed.

  (** If there is no text for the time, nothing is compiled. *)
  Lemma compile_args_time id p info cfg bi deps format x target others args :
    is_text (path_string p) -> Forall (fun t => is_text (path_string (ti_name t))) (targets info) -> targets info = target :: others ->
    proper_info bi -> configured cfg x ->
    compile_args get_cflags get_libs get_libdirs cwd utc (command_options id p info cfg bi deps format) = Some args ->
    exists text, utc (start_time bi) = Some text.
  Proof.
    intros T FT ET PI C. pose proof C as (C1 & _). destruct (info_members bi PI) as (I1 & I2 & I3 & I4).
    unfold compile_args. unfold object_member, string_member at 1 2, member. rewrite options_config, options_info.
    change (build_info_to_json bi) with (JObject (info_compound bi)). cbn iota. rewrite options_source by exact T.
    rewrite options_targets by exact FT. rewrite (strings_eq (fun t => path_string (ti_name t))), ET. cbn [map].
    rewrite color_flag_format, C1. rewrite (compile_flags_eq _ _ _ _ _ _ _ x PI C), (configured_std _ _ C), (configured_actions _ _ C).
    unfold definitions, integer_member, string_member, member. rewrite options_id, I1, I2, I3, I4.
    destruct (utc (start_time bi)) as [text|]; [eexists; reflexivity|].
    destruct (map_all (dependency_flags get_cflags) (map dep_compound deps)); discriminate.
  Qed.

  Lemma command_parts id p info cfg bi deps format x target others args :
    is_text (path_string p) -> Forall (fun t => is_text (path_string (ti_name t))) (targets info) -> targets info = target :: others ->
    Forall proper_dependency deps -> proper_info bi -> configured cfg x ->
    compile_args get_cflags get_libs get_libdirs cwd utc (command_options id p info cfg bi deps format) = Some args ->
    exists flags defs objs text dep_flags,
      args = [backend x] ++ flags ++ std x ++ [color_of format] ++ defs ++ (if links x then [] else [lit "-c"])
             ++ [path_string p] ++ objs ++ [lit "-o"; path_string (ti_name target)] /\
      without_repetitions (cflags x
        ++ flat_map (quote_options cwd (path_string (bi_source_dir bi)) (path_string (bi_target_dir bi))) (own_directory p bi ++ iquote x)
        ++ concat dep_flags) flags /\
      Forall2 (flags_for get_cflags) deps dep_flags /\
      utc (start_time bi) = Some text /\ defs = defs_of id bi text /\
      (if links x then exists words, Forall2 (fun d l => forall w, In w l <-> needed_for (pkg_words get_libs get_libdirs) d w) deps words /\
                                       without_repetitions (concat words) (rev objs)
       else objs = []).
  Proof.
    intros T FT ET FD PI C H. destruct (compile_args_time _ _ _ _ _ _ _ _ _ _ _ T FT ET PI C H) as (text & U).
    rewrite (compile_args_eq _ _ _ _ _ _ _ _ _ _ _ T FT ET PI C U) in H.
    destruct (map_all (dependency_flags get_cflags) (map dep_compound deps)) as [ls|] eqn:M; [|discriminate].
    destruct (map_all_flags _ _ _ M) as (-> & A).
    assert (F2 : Forall2 (flags_for get_cflags) deps (map (flags_of get_cflags) deps)).
    { clear - FD A. induction FD as [|d l P F IH]; cbn [map]; constructor.
      - apply dependency_flags_words; [exact P|]. apply A. now left.
      - apply IH. intros d' I. apply A. now right. }
    destruct (links x) eqn:L.
    - destruct (collect_deps get_libs get_libdirs (map dep_compound deps)) as [items|] eqn:E; [|discriminate].
      destruct (collect_deps_words _ _ _ _ FD E) as (-> & W). cbn [option_map] in H. injection H as <-.
      exists (unique (cflags x
        ++ flat_map (quote_options cwd (path_string (bi_source_dir bi)) (path_string (bi_target_dir bi))) (own_directory p bi ++ iquote x)
        ++ concat (map (flags_of get_cflags) deps))), (defs_of id bi text), (filter_deps (concat (map (words_for get_libs get_libdirs) deps))), text, (map (flags_of get_cflags) deps).
      split; [reflexivity|]. split; [apply filter_loop_spec|]. split; [exact F2|]. split; [exact U|]. split; [reflexivity|].
      exists (map (words_for get_libs get_libdirs) deps). split; [|apply filter_deps_spec].
      clear - W. induction deps as [|d l IH]; cbn [map]; constructor; [apply W; now left|]. apply IH. intros d' I. apply W. now right.
    - injection H as <-. exists (unique (cflags x
        ++ flat_map (quote_options cwd (path_string (bi_source_dir bi)) (path_string (bi_target_dir bi))) (own_directory p bi ++ iquote x)
        ++ concat (map (flags_of get_cflags) deps))), (defs_of id bi text), [], text, (map (flags_of get_cflags) deps).
      split; [reflexivity|]. split; [apply filter_loop_spec|]. split; [exact F2|]. split; [exact U|].
      split; reflexivity.
  Qed.

  Lemma command_made id p info cfg bi deps format x :
    is_text (path_string p) -> Forall (fun t => is_text (path_string (ti_name t))) (targets info) -> targets info <> [] ->
    Forall proper_dependency deps -> proper_info bi -> configured cfg x ->
    utc (start_time bi) <> None ->
    (forall d, In d deps -> dep_origin d = PkgConfig ->
       get_cflags (path_string (dep_name d)) <> None /\
       get_libs (path_string (dep_name d)) <> None /\ get_libdirs (path_string (dep_name d)) <> None) ->
    exists args, compile_args get_cflags get_libs get_libdirs cwd utc (command_options id p info cfg bi deps format) = Some args.
  Proof.
    intros T FT ET FD PI C U A. destruct (targets info) as [|target others] eqn:E; [contradiction|]. rewrite <- E in FT.
    destruct (utc (start_time bi)) as [text|] eqn:Eu; [|contradiction].
    rewrite (compile_args_eq _ _ _ _ _ _ _ _ _ _ _ T FT E PI C Eu).
    destruct (map_all_flags_some get_cflags deps FD) as (ls & ->); [intros d I O; exact (proj1 (A d I O))|].
    destruct (links x); [|eexists; reflexivity].
    destruct (collect_deps_some get_libs get_libdirs deps FD) as (items & ->); [intros d I O; exact (proj2 (A d I O))|].
    eexists. reflexivity.
  Qed.
End Compile.

(** ** Directories *)

Lemma split_names : forall s cur, split_slash s cur = match names s with n :: l => (rev cur ++ n) :: l | [] => [rev cur] end.
Proof.
  induction s as [|c s IH]; intro cur; cbn [split_slash names]; [now rewrite app_nil_r|].
  destruct (Ascii.eqb c "/").
  - rewrite IH. cbn [rev app]. rewrite app_nil_r. destruct (names s) as [|n l] eqn:E; [|reflexivity].
    destruct s as [|d s]; cbn in E; [discriminate|]. destruct (Ascii.eqb d "/"); [discriminate|]. destruct (names s); discriminate.
  - rewrite IH. destruct (names s) as [|n l]; cbn [rev]; rewrite <- ?app_assoc; reflexivity.
Qed.

Lemma names_not_nil s : names s <> [].
Proof.
  destruct s as [|c s]; cbn; [discriminate|]. destruct (Ascii.eqb c "/"); [discriminate|]. destruct (names s); discriminate.
Qed.

Lemma split_slash_names s : split_slash s [] = names s.
Proof. rewrite split_names. destruct (names s) eqn:E; [|reflexivity]. now apply names_not_nil in E. Qed.

Lemma names_app a b : names (a ++ "/"%char :: b) = names a ++ names b.
Proof.
  induction a as [|c a IH]; cbn [app names]; [reflexivity|].
  destruct (Ascii.eqb c "/"); [cbn [app]; now rewrite IH|]. rewrite IH. pose proof (names_not_nil a).
  destruct (names a) as [|n l]; [contradiction|reflexivity].
Qed.

Lemma names_plain s : ~ In "/"%char s -> names s = [s].
Proof.
  induction s as [|c s IH]; intro H; [reflexivity|]. cbn [names]. destruct (Ascii.eqb_spec c "/") as [->|N]; [exfalso; apply H; now left|].
  rewrite IH; [reflexivity|]. intro X. apply H. now right.
Qed.

Lemma names_join l : l <> [] -> Forall (fun n => ~ In "/"%char n) l -> names (join_slash l) = l.
Proof.
  intros N F. induction F as [|n l P F IH]; [contradiction|]. destruct l as [|m l]; [cbn; now apply names_plain|].
  change (join_slash (n :: m :: l)) with (n ++ "/"%char :: join_slash (m :: l)). rewrite names_app, names_plain by exact P.
  rewrite IH by discriminate. reflexivity.
Qed.

Lemma names_no_slash s : Forall (fun n => ~ In "/"%char n) (names s).
Proof.
  induction s as [|c s IH]; cbn [names]; [constructor; [intros []|constructor]|].
  destruct (Ascii.eqb_spec c "/") as [->|N]; [constructor; [intros []|exact IH]|].
  destruct (names s) as [|n l]; [constructor; [intros [X|[]]; congruence|constructor]|].
  inversion IH; subst. constructor; [intros [X|X]; congruence + contradiction|assumption].
Qed.

(** What is left after walking is a list of proper names. *)
Definition proper_name (n : str) : Prop := n <> [] /\ n <> lit "." /\ n <> lit ".." /\ ~ In "/"%char n.

Lemma walk_proper : forall l here, Forall (fun n => ~ In "/"%char n) l -> Forall proper_name here -> Forall proper_name (walk here l).
Proof.
  induction l as [|n l IH]; intros here F H; cbn [walk]; [exact H|]. inversion F; subst. apply IH; [assumption|].
  destruct (str_eqb n (lit "")) eqn:E1; [exact H|]. destruct (str_eqb n (lit ".")) eqn:E2; [exact H|].
  destruct (str_eqb n (lit "..")) eqn:E3.
  - clear - H. induction H as [|m h P F IH]; [constructor|]. cbn [removelast]. destruct h; [constructor|]. constructor; assumption.
  - apply Forall_app. split; [exact H|]. constructor; [|constructor].
    repeat split; try assumption; intros ->; rewrite str_eqb_refl in *; discriminate.
Qed.

Lemma place_proper cwd s : Forall proper_name (place cwd s).
Proof.
  unfold place. apply walk_proper; [apply names_no_slash|]. destruct (is_absolute s); [constructor|].
  apply walk_proper; [apply names_no_slash|constructor].
Qed.

Lemma walk_app l1 : forall here l2, walk here (l1 ++ l2) = walk (walk here l1) l2.
Proof. induction l1 as [|n l1 IH]; intros here l2; [reflexivity|]. cbn [app walk]. apply IH. Qed.

Lemma walk_down l : forall here, Forall proper_name l -> walk here l = here ++ l.
Proof.
  induction l as [|n l IH]; intros here F; cbn [walk]; [now rewrite app_nil_r|]. inversion F as [|? ? (N1 & N2 & N3 & _) F']; subst.
  destruct (str_eqb n (lit "")) eqn:E1; [apply str_eqb_eq in E1; contradiction|].
  destruct (str_eqb n (lit ".")) eqn:E2; [apply str_eqb_eq in E2; contradiction|].
  destruct (str_eqb n (lit "..")) eqn:E3; [apply str_eqb_eq in E3; contradiction|].
  rewrite IH by assumption. rewrite <- app_assoc. reflexivity.
Qed.

Lemma walk_up up : forall here, walk (here ++ up) (repeat (lit "..") (length up)) = here.
Proof.
  induction up as [|n up IH] using rev_ind; intro here; [cbn; now rewrite app_nil_r|].
  rewrite app_length, Nat.add_comm. change (repeat (lit "..") (length [n] + length up)) with (lit ".." :: repeat (lit "..") (length up)).
  cbn [walk]. change (str_eqb (lit "..") (lit "")) with false. change (str_eqb (lit "..") (lit ".")) with false.
  change (str_eqb (lit "..") (lit "..")) with true. cbn iota. rewrite app_assoc, removelast_last. apply IH.
Qed.

Lemma walk_fold l : forall acc, rev (fold_left norm_step l acc) = walk (rev acc) l.
Proof.
  induction l as [|n l IH]; intro acc; [reflexivity|]. cbn [fold_left walk]. rewrite IH. f_equal. unfold norm_step.
  destruct n as [|c n].
  - reflexivity.
  - change (str_eqb (c :: n) (lit "")) with false. cbn [is_nil orb]. unfold dot, dotdot.
    destruct (str_eqb (c :: n) (lit ".")); [reflexivity|]. destruct (str_eqb (c :: n) (lit "..")); [|reflexivity].
    destruct acc as [|a acc]; [reflexivity|]. cbn [tl rev]. now rewrite removelast_last.
Qed.

Lemma abs_list_place cwd s : abs_list cwd s = place cwd s.
Proof.
  unfold abs_list, place. rewrite walk_fold, split_slash_names. cbn [rev].
  change (starts_with_slash s) with (is_absolute s). destruct (is_absolute s); [reflexivity|].
  change ([slash] ++ s) with ("/"%char :: s). rewrite names_app. apply walk_app.
Qed.

Lemma mismatch_common a : forall b rest up, mismatch a b = (rest, up) -> exists c, a = c ++ rest /\ b = c ++ up.
Proof.
  induction a as [|x a IH]; intros b rest up H; [cbn in H; injection H as <- <-; exists []; auto|].
  destruct b as [|y b]; [cbn in H; injection H as <- <-; exists []; auto|]. cbn in H. destruct (str_eqb x y) eqn:E.
  - apply str_eqb_eq in E. subst y. destruct (IH _ _ _ H) as (c & -> & ->). exists (x :: c). auto.
  - injection H as <- <-. exists []. auto.
Qed.

(** Following the result of os.path.relpath *)
Lemma rel_path_walk cwd p start : walk (place cwd start) (names (rel_path cwd p start)) = place cwd p.
Proof.
  unfold rel_path. rewrite !abs_list_place. destruct (mismatch (place cwd p) (place cwd start)) as [rest up] eqn:M.
  destruct (mismatch_common _ _ _ _ M) as (c & E1 & E2).
  pose proof (place_proper cwd p) as P. rewrite E1 in P. apply Forall_app in P. destruct P as [_ P].
  rewrite E1, E2. destruct (repeat dotdot (length up) ++ rest) as [|x l] eqn:R.
  - apply app_eq_nil in R. destruct R as [R ->]. destruct up; [|discriminate]. reflexivity.
  - unfold join_path. rewrite names_join; [|discriminate|].
    + rewrite <- R, walk_app. unfold dotdot. rewrite walk_up. apply walk_down, P.
    + rewrite <- R. apply Forall_app. split.
      * clear. induction (length up); constructor; [|assumption]. intros [X|[X|[]]]; discriminate.
      * eapply Forall_impl; [|exact P]. intros n (_ & _ & _ & H). exact H.
Qed.

Lemma place_dot cwd : place cwd (lit ".") = place cwd [].
Proof. reflexivity. Qed.

Lemma rel_path_not_absolute cwd p start : is_absolute (rel_path cwd p start) = false.
Proof.
  unfold rel_path. rewrite !abs_list_place. destruct (mismatch (place cwd p) (place cwd start)) as [rest up] eqn:M.
  destruct (mismatch_common _ _ _ _ M) as (c & E1 & E2).
  pose proof (place_proper cwd p) as P. rewrite E1 in P. apply Forall_app in P. destruct P as [_ P].
  destruct up as [|u up]; cbn [repeat length app].
  - destruct rest as [|n rest]; [reflexivity|]. inversion P as [|? ? (N1 & _ & _ & N4) _]; subst. unfold join_path.
    destruct n as [|x n]; [contradiction|]. assert (x <> "/"%char) by (intros ->; apply N4; now left).
    destruct rest; cbn; apply Ascii.eqb_neq; assumption.
  - unfold join_path. destruct (repeat dotdot (length up) ++ rest); reflexivity.
Qed.

(** Where the two options for a directory lead *)
Lemma source_option_place cwd sd d : sd <> [] -> is_absolute d = false ->
  place cwd (if str_eqb sd (lit ".") then d else sd ++ lit "/" ++ d) = walk (place cwd sd) (names d).
Proof.
  intros N A. destruct (str_eqb sd (lit ".")) eqn:E.
  - apply str_eqb_eq in E. subst sd. unfold place at 1. rewrite A. reflexivity.
  - change (lit "/" ++ d) with ("/"%char :: d). unfold place. rewrite names_app, walk_app.
    destruct sd as [|c sd]; [contradiction|]. reflexivity.
Qed.

Lemma target_option_place cwd td d : is_absolute cwd = true -> is_absolute td = false ->
  place cwd (cwd ++ lit "/" ++ td ++ lit "/" ++ d) = walk (place cwd td) (names d).
Proof.
  intros A1 A2. unfold place.
  assert (E : is_absolute (cwd ++ lit "/" ++ td ++ lit "/" ++ d) = true) by (destruct cwd; [discriminate|exact A1]).
  rewrite E, A2. change (lit "/" ++ td ++ lit "/" ++ d) with ("/"%char :: td ++ "/"%char :: d). rewrite !names_app, !walk_app. reflexivity.
Qed.

Lemma target_option_absolute cwd td d : is_absolute cwd = true ->
  place cwd (cwd ++ lit "/" ++ td ++ lit "/" ++ d) = walk (place cwd cwd) (names td ++ names d).
Proof.
  intros A1. unfold place.
  assert (E : is_absolute (cwd ++ lit "/" ++ td ++ lit "/" ++ d) = true) by (destruct cwd; [discriminate|exact A1]).
  rewrite E, A1. change (lit "/" ++ td ++ lit "/" ++ d) with ("/"%char :: td ++ "/"%char :: d). rewrite !names_app, !walk_app. reflexivity.
Qed.

(** ** Names of headers *)

Lemma split_last_some c s a b : split_last c s = Some (a, b) <-> s = a ++ c :: b /\ ~ In c b.
Proof.
  revert a b. induction s as [|x s IH]; intros a b; cbn [split_last].
  - split; [discriminate|]. intros [H _]. destruct a; discriminate.
  - destruct (split_last c s) as [[a' b']|] eqn:E.
    + pose proof (proj1 (IH a' b') eq_refl) as [Es N]. split.
      * intro H. injection H as <- <-. split; [now rewrite Es|exact N].
      * intros [H N']. destruct a as [|y a]; cbn in H; injection H as -> H.
        -- exfalso. apply N'. rewrite <- H, Es. apply in_or_app. right. now left.
        -- assert (X : Some (a', b') = Some (a, b)) by (apply IH; split; assumption). injection X as -> ->. reflexivity.
    + destruct (Ascii.eqb_spec x c) as [->|Nx].
      * split.
        -- intro H. injection H as <- <-. split; [reflexivity|]. intro I. apply in_split in I. destruct I as (l1 & l2 & ->).
           assert (X : exists u v, l1 ++ c :: l2 = u ++ c :: v /\ ~ In c v).
           { clear. revert l1. induction l2 as [|z l2 IH] using rev_ind; intro l1; [exists l1, []; split; [reflexivity|intros []]|].
             destruct (ascii_dec z c) as [->|N].
             - exists (l1 ++ c :: l2), []. split; [rewrite <- app_assoc; reflexivity|intros []].
             - destruct (IH l1) as (u & v & E & N'). exists u, (v ++ [z]). split.
               + change (l1 ++ c :: l2 ++ [z]) with (l1 ++ (c :: l2) ++ [z]). rewrite app_assoc, E, <- app_assoc. reflexivity.
               + intro X. apply in_app_or in X. destruct X as [X|[X|[]]]; contradiction. }
           destruct X as (u & v & Eu & Nv). assert (Y : None = Some (u, v)) by (apply IH; split; assumption). discriminate.
        -- intros [H N]. destruct a as [|y a]; cbn in H; [injection H as H1; now subst|injection H as H1 H2].
           assert (Y : None = Some (a, b)) by (apply IH; split; assumption). discriminate.
      * split; [discriminate|]. intros [H N]. destruct a as [|y a]; cbn in H; injection H as H1 H2; [contradiction|].
        assert (Y : None = Some (a, b)) by (apply IH; split; assumption). discriminate.
Qed.

Lemma split_last_none c s : split_last c s = None <-> ~ In c s.
Proof.
  induction s as [|x s IH]; cbn [split_last]; [split; [intros _ []|reflexivity]|].
  destruct (split_last c s) as [[a b]|] eqn:E.
  - split; [discriminate|]. intro N. assert (X : Some (a, b) = None) by (apply IH; intro I; apply N; now right). discriminate.
  - destruct (Ascii.eqb_spec x c) as [->|Nx].
    + split; [discriminate|]. intro N. exfalso. apply N. now left.
    + split; [|reflexivity]. intros _ [H|H]; [contradiction|]. revert H. apply IH. reflexivity.
Qed.

Definition is_dir_part (dir : str) : Prop := dir = [] \/ exists d, dir = d ++ lit "/".

Lemma extension_spec t b : ~ In "/"%char b -> ~ In "."%char b ->
  (extension t = "."%char :: b <->
   exists dir stem, t = dir ++ stem ++ "."%char :: b /\ is_dir_part dir /\ ~ In "/"%char stem /\ exists c, In c stem /\ c <> "."%char).
Proof.
  intros N1 N2. unfold extension, base_name. split.
  - intro H. assert (X : exists dir n, t = dir ++ n /\ is_dir_part dir /\ ~ In "/"%char n /\
        match split_last "." n with
        | Some (a, b0) => if forallb (fun c => Ascii.eqb c ".") a then [] else "."%char :: b0 | None => [] end = "."%char :: b).
    { destruct (split_last slash t) as [[a n]|] eqn:E.
      - apply split_last_some in E. destruct E as [-> N]. exists (a ++ lit "/"), n.
        split; [rewrite <- app_assoc; reflexivity|]. split; [right; eexists; reflexivity|]. split; [exact N|exact H].
      - apply split_last_none in E. exists [], t. split; [reflexivity|]. split; [now left|]. split; [exact E|exact H]. }
    destruct X as (dir & n & -> & D & Nn & X). destruct (split_last "." n) as [[a b']|] eqn:E; [|discriminate].
    apply split_last_some in E. destruct E as [-> N]. destruct (forallb (fun c => Ascii.eqb c ".") a) eqn:F; [discriminate|].
    injection X as ->. exists dir, a. split; [reflexivity|]. split; [exact D|]. split; [intro I; apply Nn; apply in_or_app; now left|].
    clear - F. induction a as [|c a IH]; [discriminate|]. cbn in F. destruct (Ascii.eqb_spec c ".") as [->|Nc].
    + destruct (IH F) as (d & I & Nd). exists d. split; [now right|exact Nd].
    + exists c. split; [now left|exact Nc].
  - intros (dir & stem & -> & D & Ns & (c & Ic & Nc)).
    assert (B : match split_last slash (dir ++ stem ++ "."%char :: b) with Some (_, n) => n | None => dir ++ stem ++ "."%char :: b end
                = stem ++ "."%char :: b).
    { assert (Nn : ~ In slash (stem ++ "."%char :: b)).
      { intro I. apply in_app_or in I. destruct I as [I|[I|I]]; [contradiction|discriminate|contradiction]. }
      destruct D as [->|(d & ->)].
      - cbn [app]. rewrite (proj2 (split_last_none _ _) Nn). reflexivity.
      - rewrite <- app_assoc. change (lit "/" ++ stem ++ "."%char :: b) with (slash :: stem ++ "."%char :: b).
        rewrite (proj2 (split_last_some slash _ d (stem ++ "."%char :: b))); [reflexivity|]. split; [reflexivity|exact Nn]. }
    rewrite B. rewrite (proj2 (split_last_some "."%char _ stem b)) by (split; [reflexivity|exact N2]).
    assert (F : forallb (fun c => Ascii.eqb c ".") stem = false).
    { apply not_true_is_false. rewrite forallb_forall. intro H. apply Nc. apply Ascii.eqb_eq. now apply H. }
    now rewrite F.
Qed.

Lemma lower_fixed c d : lower_char c = d -> (N_of_ascii d < 65)%N -> c = d.
Proof.
  unfold lower_char. intros <-. destruct ((65 <=? N_of_ascii c) && (N_of_ascii c <=? 90))%N eqn:E; [|reflexivity].
  apply andb_true_iff in E. destruct E as [E1 E2]. apply N.leb_le in E1, E2. rewrite N_ascii_embedding by lia. lia.
Qed.

Lemma lower_of c d : (97 <= N_of_ascii d)%N \/ (N_of_ascii d < 65)%N -> (lower_char c = d <-> upper_or_lower c d).
Proof.
  intro R. unfold lower_char, upper_or_lower. destruct ((65 <=? N_of_ascii c) && (N_of_ascii c <=? 90))%N eqn:E.
  - apply andb_true_iff in E. destruct E as [E1 E2]. apply N.leb_le in E1, E2. split.
    + intros <-. right. split; [lia|]. rewrite N_ascii_embedding by lia. reflexivity.
    + intros [->|[_ H]]; [lia|]. rewrite <- H. apply ascii_N_embedding.
  - split; [now left|]. intros [->|[H _]]; [reflexivity|]. exfalso. apply andb_false_iff in E.
    destruct E as [E|E]; apply N.leb_gt in E; lia.
Qed.

Lemma lower_dot_slash c d : (d = "/"%char \/ d = "."%char) -> (lower_char c = d <-> c = d).
Proof.
  intros D. split.
  - intro H. apply lower_fixed; [exact H|]. destruct D as [->| ->]; reflexivity.
  - intros ->. destruct D as [->| ->]; reflexivity.
Qed.

Lemma in_lower c l : (c = "/"%char \/ c = "."%char) -> (In c (map lower_char l) <-> In c l).
Proof.
  intro D. rewrite in_map_iff. split.
  - intros (x & E & I). apply (proj1 (lower_dot_slash x c D)) in E; subst x; exact I.
  - intro I. exists c. split; [apply lower_dot_slash; [exact D|reflexivity]|exact I].
Qed.

Lemma map_lower ext e : Forall (fun d => (97 <= N_of_ascii d)%N \/ (N_of_ascii d < 65)%N) e ->
  (map lower_char ext = e <-> Forall2 upper_or_lower ext e).
Proof.
  intro F. split.
  - intros <-. induction ext as [|c ext IH]; cbn in *; [constructor|]. inversion F; subst. constructor; [|now apply IH].
    apply lower_of; [assumption|reflexivity].
  - intro H. induction H as [|c d ext e P H IH]; [reflexivity|]. inversion F; subst. cbn. rewrite IH by assumption. f_equal.
    apply lower_of; assumption.
Qed.

Theorem is_header_spec s : is_header s = true <-> header_name s.
Proof.
  unfold is_header. rewrite existsb_str.
  assert (K : forall e, In e [lit ".hpp"; lit ".h"; lit ".hxx"] ->
    exists b, e = "."%char :: b /\ ~ In "/"%char b /\ ~ In "."%char b /\ Forall (fun d => (97 <= N_of_ascii d)%N \/ (N_of_ascii d < 65)%N) e).
  { intros e I. assert (X : forall b, e = "."%char :: b ->
        forallb (fun d => negb (Ascii.eqb d "/") && negb (Ascii.eqb d ".") && (97 <=? N_of_ascii d)%N) b = true ->
        exists b, e = "."%char :: b /\ ~ In "/"%char b /\ ~ In "."%char b /\
                  Forall (fun d => (97 <= N_of_ascii d)%N \/ (N_of_ascii d < 65)%N) e).
    { intros b -> F. rewrite forallb_forall in F. exists b. split; [reflexivity|].
      split; [intro J; now apply F in J|]. split; [intro J; now apply F in J|]. constructor; [right; reflexivity|].
      apply Forall_forall. intros d J. left. apply F in J. rewrite !andb_true_iff in J. now apply N.leb_le. }
    destruct I as [<-|[<-|[<-|[]]]]; (eapply X; [reflexivity|vm_compute; reflexivity]). }
  split.
  - intro I. destruct (K _ I) as (b & E & N1 & N2 & F). remember (extension (map lower_char s)) as e eqn:Ee. subst e.
    rewrite E in *. apply (extension_spec _ _ N1 N2) in E. destruct E as (dir & stem & Et & D & Ns & (c & Ic & Nc)).
    apply map_eq_app in Et. destruct Et as (dir' & r & -> & Ed & Er). apply map_eq_app in Er. destruct Er as (stem' & ext' & -> & Es & Ex).
    exists dir', stem', ext', ("."%char :: b). split; [reflexivity|]. split.
    { destruct D as [->|(d & ->)]; [left; destruct dir'; [reflexivity|discriminate]|right]. apply map_eq_app in Ed.
      destruct Ed as (d1 & d2 & -> & _ & E2). exists d1. f_equal. destruct d2 as [|x [|y d2]]; try discriminate. injection E2 as E2.
      change (lit "/") with ["/"%char]. f_equal. exact (proj1 (lower_dot_slash x _ (or_introl eq_refl)) E2). }
    split; [intro J; apply Ns; rewrite <- Es; apply in_lower; [now left|exact J]|].
    split. { rewrite <- Es in Ic. apply in_map_iff in Ic. destruct Ic as (x & Ex' & Ix). exists x. split; [exact Ix|]. intros ->. apply Nc. now rewrite <- Ex'. }
    split; [exact I|]. apply map_lower; assumption.
  - intros (dir & stem & ext & e & -> & D & Ns & (c & Ic & Nc) & Ie & F2). destruct (K _ Ie) as (b & -> & N1 & N2 & F).
    apply map_lower in F2; [|exact F]. rewrite !map_app, F2.
    assert (X : extension (map lower_char dir ++ map lower_char stem ++ "."%char :: b) = "."%char :: b).
    { apply (extension_spec _ _ N1 N2). exists (map lower_char dir), (map lower_char stem). split; [reflexivity|]. split.
      - destruct D as [->|(d & ->)]; [now left|right]. exists (map lower_char d). rewrite map_app. reflexivity.
      - split; [intro J; apply Ns; exact (proj1 (in_lower _ stem (or_introl eq_refl)) J)|]. exists (lower_char c).
        split; [now apply in_map|]. intro J. apply Nc. exact (proj1 (lower_dot_slash c _ (or_intror eq_refl)) J). }
    rewrite X. exact Ie.
Qed.

(** ** String literals *)

Lemma literal_plain s : plain_text s -> literal_value ([quotation_mark] ++ s ++ [quotation_mark]) = Some s.
Proof.
  intro P. change (literal_value ([quotation_mark] ++ s ++ [quotation_mark])) with (literal_rest (s ++ [quotation_mark])).
  induction P as [|c s (N1 & N2 & N3) P IH]; [reflexivity|]. cbn [app literal_rest]. rewrite IH. cbn [option_map].
  destruct (N_of_ascii c) as [|q]; [reflexivity|].
  do 7 (destruct q as [q|q|]; try reflexivity; try (exfalso; (apply N1 + apply N2 + apply N3); reflexivity)).
Qed.

Lemma literal_not_plain s : ~ plain_text s -> literal_value ([quotation_mark] ++ s ++ [quotation_mark]) <> Some s.
Proof.
  intros P. change (literal_value ([quotation_mark] ++ s ++ [quotation_mark])) with (literal_rest (s ++ [quotation_mark])).
  assert (G : forall n s v, length s <= n -> literal_rest (s ++ [quotation_mark]) = Some v -> length v <= length s /\ (length v = length s -> plain_text s)).
  { clear. induction n as [|n IH]; intros s v L H.
    - destruct s; [|cbn in L; lia]. cbn in H. injection H as <-. split; [cbn; lia|]. intros _. constructor.
    - destruct s as [|c s]; [cbn in H; injection H as <-; split; [cbn; lia|constructor]|].
      cbn [app literal_rest length] in *.
      destruct (N.eq_dec (N_of_ascii c) 34) as [E1|E1].
      { rewrite E1 in H. destruct s; discriminate. }
      destruct (N.eq_dec (N_of_ascii c) 10) as [E2|E2]; [rewrite E2 in H; discriminate|].
      destruct (N.eq_dec (N_of_ascii c) 92) as [E3|E3].
      { rewrite E3 in H. destruct s as [|e s]; [discriminate|]. cbn [app] in H. cbn [length] in L.
        match type of H with match ?m with _ => _ end = _ => destruct m as [v0|]; [|discriminate] end.
        destruct (literal_rest (s ++ [quotation_mark])) as [w|] eqn:Ew; [|discriminate]. cbn in H. injection H as <-.
        destruct (IH s w) as [Q _]; [lia|exact Ew|]. cbn. split; [lia|]. intro X. lia. }
      assert (H' : option_map (cons c) (literal_rest (s ++ [quotation_mark])) = Some v).
      { revert H. destruct (N_of_ascii c) as [|q]; [exact (fun h => h)|].
        do 7 (destruct q as [q|q|]; try exact (fun h => h); try (exfalso; (apply E1 + apply E2 + apply E3); reflexivity)). }
      destruct (literal_rest (s ++ [quotation_mark])) as [w|] eqn:Ew; [|discriminate]. cbn in H'. injection H' as <-.
      destruct (IH s w) as [Q1 Q2]; [lia|exact Ew|]. cbn. split; [lia|]. intro X. constructor; [auto|]. apply Q2. lia. }
  intro H. apply P. apply (G (length s) s s (le_n _) H). reflexivity.
Qed.

(** ** The directory of the source file *)

Lemma strip_slashes_spec s : exists k, s = strip_slashes s ++ repeat "/"%char k.
Proof.
  induction s as [|c s (k & IH)]; [exists 0; reflexivity|]. cbn [strip_slashes]. destruct (strip_slashes s) as [|x r] eqn:E.
  - destruct (Ascii.eqb_spec c slash) as [->|N].
    + exists (S k). cbn in *. now rewrite IH at 1.
    + exists k. cbn in *. now rewrite IH at 1.
  - exists k. cbn [app]. now rewrite IH at 1.
Qed.

Lemma walk_slashes k : forall here, walk here (names (repeat "/"%char k)) = here.
Proof. induction k as [|k IH]; intro here; [reflexivity|]. cbn [repeat names]. exact (IH here). Qed.

Lemma place_slashes cwd r k : r <> [] -> place cwd (r ++ repeat "/"%char k) = place cwd r.
Proof.
  intro N. destruct k as [|k]; [now rewrite app_nil_r|]. cbn [repeat]. unfold place. rewrite names_app, walk_app, walk_slashes.
  destruct r; [contradiction|reflexivity].
Qed.

Lemma dir_name_place cwd dir name : ~ In "/"%char name ->
  dir_name (dir ++ lit "/" ++ name) <> [] /\ place cwd (dir_name (dir ++ lit "/" ++ name)) = place cwd (dir ++ lit "/").
Proof.
  intro N. unfold dir_name. change (lit "/" ++ name) with (slash :: name).
  rewrite (proj2 (split_last_some slash _ dir name)) by (split; [reflexivity|exact N]).
  change (dir ++ [slash]) with (dir ++ lit "/"). destruct (strip_slashes (dir ++ lit "/")) as [|c r] eqn:E.
  - split; [destruct dir; discriminate|reflexivity].
  - split; [discriminate|]. destruct (strip_slashes_spec (dir ++ lit "/")) as (k & S). rewrite E in S. rewrite S.
    symmetry. apply place_slashes. discriminate.
Qed.

Section Of.
  Variables get_cflags get_libs get_libdirs : str -> option (list str).
  Variable cwd : str.
  Variable utc : Z -> option str.

  Local Notation compile := (compile_args get_cflags get_libs get_libdirs cwd utc).
  Local Notation sd c := (path_string (bi_source_dir (build c))).
  Local Notation td c := (path_string (bi_target_dir (build c))).
  Local Notation quotes c := (flat_map (quote_options cwd (sd c) (td c)) (own_directory cwd (source c) (build c) ++ iquote (with_settings c))).

  Lemma parts c args : proper_compilation c -> compile (options_of c) = Some args ->
    exists flags text dep_flags objs,
      args = [backend (with_settings c)] ++ flags ++ std (with_settings c) ++ [color_of (format c)] ++ defs_of (task_id c) (build c) text
             ++ (if links (with_settings c) then [] else [lit "-c"])
             ++ [path_string (source c)] ++ objs ++ [lit "-o"; path_string (ti_name (first_target c))] /\
      without_repetitions (cflags (with_settings c) ++ quotes c ++ concat dep_flags) flags /\
      Forall2 (flags_for get_cflags) (deps c) dep_flags /\
      utc (start_time (build c)) = Some text /\
      (if links (with_settings c)
       then exists words, Forall2 (fun d l => forall w, In w l <-> needed_for (pkg_words get_libs get_libdirs) d w) (deps c) words /\
                     without_repetitions (concat words) (rev objs)
       else objs = []).
  Proof.
    intros (T & FT & (others & ET) & FD & PI & C) H.
    destruct (command_parts _ _ _ _ _ _ _ _ _ _ _ _ _ _ _ _ T FT ET FD PI C H) as (flags & defs & objs & text & dep_flags & E & W & F & U & -> & O).
    exists flags, text, dep_flags, objs. auto.
  Qed.

  Lemma quotes_words c : Forall (fun w => exists d, w = lit "-iquote" ++ d) (quotes c).
  Proof.
    apply Forall_forall. intros w I. apply in_flat_map in I. destruct I as (d & _ & [<-|[<-|[]]]); eexists; reflexivity.
  Qed.

  Lemma command_parts_of c args : proper_compilation c -> compile (options_of c) = Some args ->
    exists flags quotes dep_flags defs objs,
      args = [backend (with_settings c)] ++ flags ++ std (with_settings c) ++ [color_of (format c)] ++ defs
             ++ (if links (with_settings c) then [] else [lit "-c"])
             ++ [path_string (source c)] ++ objs ++ [lit "-o"; path_string (ti_name (first_target c))] /\
      without_repetitions (cflags (with_settings c) ++ quotes ++ concat dep_flags) flags /\
      Forall (fun w => exists d, w = lit "-iquote" ++ d) quotes /\
      Forall2 (flags_for get_cflags) (deps c) dep_flags /\
      Forall (fun w => exists t, w = lit "-DMAIKE_" ++ t) defs /\
      (if links (with_settings c)
       then exists words, Forall2 (fun d l => forall w, In w l <-> needed_for (pkg_words get_libs get_libdirs) d w) (deps c) words /\
                     without_repetitions (concat words) (rev objs)
       else objs = []).
  Proof.
    intros P H. destruct (parts c args P H) as (flags & text & dep_flags & objs & E & W & F & U & O).
    exists flags, (quotes c), dep_flags, (defs_of (task_id c) (build c) text), objs. split; [exact E|]. split; [exact W|].
    split; [apply quotes_words|]. split; [exact F|]. split; [|exact O].
    repeat (constructor; [eexists; cbv [define_integer define_string]; reflexivity|]). constructor.
  Qed.

  Lemma command_made_of c : proper_compilation c -> utc (start_time (build c)) <> None ->
    (forall d, In d (deps c) -> dep_origin d = PkgConfig ->
       get_cflags (path_string (dep_name d)) <> None /\
       get_libs (path_string (dep_name d)) <> None /\ get_libdirs (path_string (dep_name d)) <> None) ->
    exists args, compile (options_of c) = Some args.
  Proof.
    intros (T & FT & (others & ET) & FD & PI & C) U A.
    eapply command_made; [exact T|exact FT|rewrite ET; discriminate|exact FD|exact PI|exact C|exact U|exact A].
  Qed.

  Lemma word_in c args w : proper_compilation c -> compile (options_of c) = Some args -> In w (quotes c) -> In w args.
  Proof.
    intros P H I. destruct (parts c args P H) as (flags & text & dep_flags & objs & -> & (_ & W & _) & _).
    apply in_or_app. right. apply in_or_app. left. apply W. apply in_or_app. right. apply in_or_app. now left.
  Qed.

  Lemma option_in c args d w : proper_compilation c -> compile (options_of c) = Some args ->
    In d (own_directory cwd (source c) (build c) ++ iquote (with_settings c)) -> In w (quote_options cwd (sd c) (td c) d) -> In w args.
  Proof. intros P H I J. eapply word_in; [exact P|exact H|]. apply in_flat_map. exists d. split; assumption. Qed.

  Lemma own_is c dir name : path_string (source c) = dir ++ lit "/" ++ name -> ~ In "/"%char name ->
    exists d, own_directory cwd (source c) (build c) = [d] /\ is_absolute d = false /\
      walk (place cwd (sd c)) (names d) = place cwd (dir ++ lit "/").
  Proof.
    intros E N. destruct (dir_name_place cwd dir name N) as [D P]. unfold own_directory. rewrite E.
    assert (Z : is_nil (dir_name (dir ++ lit "/" ++ name)) = false) by (destruct (dir_name (dir ++ lit "/" ++ name)); [contradiction|reflexivity]).
    rewrite Z. eexists. split; [reflexivity|]. split; [apply rel_path_not_absolute|]. rewrite rel_path_walk. exact P.
  Qed.

  Lemma own_directory_searched c args dir name : proper_compilation c -> compile (options_of c) = Some args ->
    sd c <> [] -> path_string (source c) = dir ++ lit "/" ++ name -> ~ In "/"%char name ->
    searched args cwd (place cwd (dir ++ lit "/")).
  Proof.
    intros P H S E N. destruct (own_is c dir name E N) as (d & O & A & W).
    exists (if str_eqb (sd c) (lit ".") then d else sd c ++ lit "/" ++ d). split.
    - eapply option_in; [exact P|exact H| |left; reflexivity]. rewrite O. now left.
    - rewrite source_option_place by assumption. exact W.
  Qed.

  (** The same way down from another directory *)
  Lemma walk_below d a b l : is_absolute d = false -> (exists p start, d = rel_path cwd p start /\ place cwd start = a /\ place cwd p = a ++ l) ->
    walk b (names d) = b ++ l.
  Proof.
    intros _ (p & start & -> & Es & Ep). unfold rel_path. rewrite !abs_list_place, Es, Ep.
    pose proof (place_proper cwd p) as PP. rewrite Ep in PP. apply Forall_app in PP. destruct PP as [_ PP].
    assert (M : mismatch (a ++ l) a = (l, [])).
    { clear. induction a as [|x a IH]; [destruct l; reflexivity|]. cbn. rewrite str_eqb_refl. exact IH. }
    rewrite M. cbn [length repeat app]. destruct l as [|x l]; [cbn; now rewrite app_nil_r|].
    unfold join_path. rewrite names_join; [|discriminate|].
    - apply walk_down. exact PP.
    - eapply Forall_impl; [|exact PP]. intros n (_ & _ & _ & X). exact X.
  Qed.

  Lemma own_below c dir name below : path_string (source c) = dir ++ lit "/" ++ name -> ~ In "/"%char name ->
    place cwd (dir ++ lit "/") = place cwd (sd c) ++ below ->
    forall d, own_directory cwd (source c) (build c) = [d] -> walk (place cwd (td c)) (names d) = place cwd (td c) ++ below.
  Proof.
    intros E N B d O. destruct (own_is c dir name E N) as (d' & O' & A & W). rewrite O in O'. injection O' as <-.
    apply (walk_below d (place cwd (sd c))); [exact A|].
    destruct (dir_name_place cwd dir name N) as [D P]. unfold own_directory in O. rewrite E in O.
    destruct (is_nil (dir_name (dir ++ lit "/" ++ name))); [discriminate|]. injection O as <-.
    exists (dir_name (dir ++ lit "/" ++ name)), (sd c). split; [reflexivity|]. split; [reflexivity|]. rewrite P. exact B.
  Qed.

  Lemma target_directory_searched c args dir name below : proper_compilation c -> compile (options_of c) = Some args ->
    is_absolute cwd = true -> is_absolute (td c) = false ->
    path_string (source c) = dir ++ lit "/" ++ name -> ~ In "/"%char name ->
    place cwd (dir ++ lit "/") = place cwd (sd c) ++ below ->
    searched args cwd (place cwd (td c) ++ below).
  Proof.
    intros P H A1 A2 E N B. destruct (own_is c dir name E N) as (d & O & A & W).
    exists (cwd ++ lit "/" ++ td c ++ lit "/" ++ d). split.
    - eapply option_in; [exact P|exact H| |right; left; reflexivity]. rewrite O. now left.
    - rewrite target_option_place by assumption. eapply own_below; eassumption.
  Qed.

  Lemma configured_searched c args d : proper_compilation c -> compile (options_of c) = Some args ->
    sd c <> [] -> is_absolute cwd = true -> is_absolute (td c) = false ->
    In d (iquote (with_settings c)) -> is_absolute d = false ->
    searched args cwd (walk (place cwd (sd c)) (names d)) /\ searched args cwd (walk (place cwd (td c)) (names d)).
  Proof.
    intros P H S A1 A2 I A. split.
    - exists (if str_eqb (sd c) (lit ".") then d else sd c ++ lit "/" ++ d). split; [|now apply source_option_place].
      eapply option_in; [exact P|exact H| |left; reflexivity]. apply in_or_app. now right.
    - exists (cwd ++ lit "/" ++ td c ++ lit "/" ++ d). split; [|now apply target_option_place].
      eapply option_in; [exact P|exact H| |right; left; reflexivity]. apply in_or_app. now right.
  Qed.

  Lemma nodup_split (x y : str) (l1 l2 : list str) : NoDup (l1 ++ x :: l2) -> In y l1 -> ~ precedes x y (l1 ++ x :: l2).
  Proof.
    intros ND I (a & b & c & E). apply in_split in I. destruct I as (u & v & ->).
    assert (X : forall (l l' : list str) z z' m m', NoDup (l ++ z :: m) -> l ++ z :: m = l' ++ z' :: m' -> z = z' -> l = l').
    { clear. induction l as [|h l IH]; intros l' z z' m m' ND E ->; destruct l' as [|h' l']; cbn in E; [reflexivity| | |].
      - injection E as -> E. exfalso. cbn in ND. inversion ND as [|? ? N _]; subst. apply N. apply in_or_app. right. now left.
      - injection E as -> E. exfalso. cbn in ND. inversion ND as [|? ? N _]; subst. apply N. apply in_or_app. right. now left.
      - injection E as -> E. f_equal. cbn in ND. inversion ND; subst. eapply IH; [eassumption|eassumption|reflexivity]. }
    assert (E1 := X _ _ _ _ _ _ ND E eq_refl). subst a.
    apply app_inv_head in E. injection E as E. subst l2.
    rewrite <- app_assoc in ND. cbn [app] in ND. apply NoDup_remove_2 in ND. apply ND.
    apply in_or_app. right. apply in_or_app. right. right. apply in_or_app. right. now left.
  Qed.

  Lemma directories_in_order c args dir name below : proper_compilation c -> compile (options_of c) = Some args ->
    sd c <> [] -> is_absolute cwd = true -> is_absolute (td c) = false ->
    (forall w, In w (backend (with_settings c) :: cflags (with_settings c)) -> forall d, w <> lit "-iquote" ++ d) ->
    path_string (source c) = dir ++ lit "/" ++ name -> ~ In "/"%char name ->
    place cwd (dir ++ lit "/") = place cwd (sd c) ++ below ->
    (exists l1 q l2, args = l1 ++ (lit "-iquote" ++ q) :: l2 /\ place cwd q = place cwd (dir ++ lit "/") /\
       forall d, ~ In (lit "-iquote" ++ d) l1) /\
    (exists l1 q l2, args = l1 ++ (lit "-iquote" ++ q) :: l2 /\ place cwd q = place cwd (td c) ++ below /\
       forall d, In (lit "-iquote" ++ d) l1 -> place cwd d = place cwd (dir ++ lit "/")).
  Proof.
    intros P H S A1 A2 Q E N B. destruct (own_is c dir name E N) as (d & O & A & W).
    pose proof (own_below c dir name below E N B d O) as W2.
    destruct (parts c args P H) as (flags & text & dep_flags & objs & -> & (ND & WI & WO) & _).
    pose (q1 := if str_eqb (sd c) (lit ".") then d else sd c ++ lit "/" ++ d).
    pose (q2 := cwd ++ lit "/" ++ td c ++ lit "/" ++ d).
    assert (QE : quotes c = [lit "-iquote" ++ q1; lit "-iquote" ++ q2]
                   ++ flat_map (quote_options cwd (sd c) (td c)) (iquote (with_settings c))) by (rewrite O; reflexivity).
    rewrite QE in WI, WO. clear QE. rewrite <- app_assoc in WI, WO. cbn [app] in WI, WO.
    assert (P1 : place cwd q1 = place cwd (dir ++ lit "/")) by (unfold q1; rewrite source_option_place by assumption; exact W).
    assert (P2 : place cwd q2 = place cwd (td c) ++ below) by (unfold q2; rewrite target_option_place by assumption; exact W2).
    match type of WI with forall x, _ <-> In x (_ ++ _ :: _ :: ?r) => set (rest := r) in WI, WO end.
    assert (F1 : exists l1 l2, flags = l1 ++ (lit "-iquote" ++ q1) :: l2 /\ forall y, ~ In (lit "-iquote" ++ y) l1).
    { assert (I1 : In (lit "-iquote" ++ q1) flags) by (apply WI; apply in_or_app; right; now left).
      apply in_split in I1. destruct I1 as (l1 & l2 & Ef). exists l1, l2. split; [exact Ef|]. intros y I.
      rewrite Ef in ND. apply (nodup_split _ _ _ _ ND I). eapply eq_ind; [|exact Ef]. apply WO. split.
      - intro X. rewrite X in ND. apply NoDup_remove_2 in ND. apply ND. apply in_or_app. now left.
      - eexists _, _. split; [reflexivity|]. split; [intro J; exact (Q _ (or_intror J) y eq_refl)|].
        assert (J : In (lit "-iquote" ++ y) (cflags (with_settings c) ++ (lit "-iquote" ++ q1) :: (lit "-iquote" ++ q2) :: rest))
          by (apply WI; rewrite Ef; apply in_or_app; now left).
        apply in_app_or in J. destruct J as [J|[J|J]]; [exfalso; exact (Q _ (or_intror J) y eq_refl)| |exact J].
        exfalso. rewrite J in ND. apply NoDup_remove_2 in ND. apply ND. apply in_or_app. now left. }
    assert (QB : forall y, backend (with_settings c) <> lit "-iquote" ++ y) by (intro y; apply Q; now left).
    split.
    - destruct F1 as (l1 & l2 & -> & F). exists (backend (with_settings c) :: l1), q1. eexists. split; [cbn [app]; rewrite <- app_assoc; reflexivity|].
      split; [exact P1|]. intros y [I|I]; [exact (QB y I)|exact (F y I)].
    - destruct (str_eqb q1 q2) eqn:EQ.
      + apply str_eqb_eq in EQ. destruct F1 as (l1 & l2 & -> & F). exists (backend (with_settings c) :: l1), q1. eexists.
        split; [cbn [app]; rewrite <- app_assoc; reflexivity|]. split; [rewrite EQ; exact P2|].
        intros y [I|I]; exfalso; [exact (QB y I)|exact (F y I)].
      + assert (NQ : q1 <> q2) by (intro X; rewrite X, str_eqb_refl in EQ; discriminate). clear EQ.
        assert (I1 : In (lit "-iquote" ++ q2) flags) by (apply WI; apply in_or_app; right; right; now left).
        apply in_split in I1. destruct I1 as (l1 & l2 & Ef). exists (backend (with_settings c) :: l1), q2. eexists.
        split; [rewrite Ef; cbn [app]; rewrite <- app_assoc; reflexivity|]. split; [exact P2|].
        intros y [I|I]; [exfalso; exact (QB y I)|]. rewrite Ef in ND.
        destruct (str_eqb y q1) eqn:Ey; [apply str_eqb_eq in Ey; subst y; exact P1|]. exfalso.
        assert (Ny : y <> q1) by (intro X; rewrite X, str_eqb_refl in Ey; discriminate).
        apply (nodup_split _ _ _ _ ND I). eapply eq_ind; [|exact Ef]. apply WO. split.
        * intro X. rewrite X in ND. apply NoDup_remove_2 in ND. apply ND. apply in_or_app. now left.
        * exists (cflags (with_settings c) ++ [lit "-iquote" ++ q1]), rest. split; [rewrite <- app_assoc; reflexivity|]. split.
          -- intro J. apply in_app_or in J. destruct J as [J|[J|[]]]; [exact (Q _ (or_intror J) y eq_refl)|].
             apply Ny. apply app_inv_head in J. now symmetry.
          -- assert (J : In (lit "-iquote" ++ y) (cflags (with_settings c) ++ (lit "-iquote" ++ q1) :: (lit "-iquote" ++ q2) :: rest))
               by (apply WI; rewrite Ef; apply in_or_app; now left).
             apply in_app_or in J. destruct J as [J|[J|[J|J]]].
             ++ exfalso. exact (Q _ (or_intror J) y eq_refl).
             ++ exfalso. apply Ny. apply app_inv_head in J. now symmetry.
             ++ exfalso. rewrite J in ND. apply NoDup_remove_2 in ND. apply ND. apply in_or_app. now left.
             ++ exact J.
  Qed.

  Lemma definition_in c args w : proper_compilation c -> compile (options_of c) = Some args ->
    exists text, utc (start_time (build c)) = Some text /\ (In w (defs_of (task_id c) (build c) text) -> In w args).
  Proof.
    intros P H. destruct (parts c args P H) as (flags & text & dep_flags & objs & -> & _ & _ & U & _). exists text. split; [exact U|].
    intro I. do 4 (apply in_or_app; right). apply in_or_app. now left.
  Qed.
End Of.

Section Definitions.
  Variables get_cflags get_libs get_libdirs : str -> option (list str).
  Variable cwd : str.
  Variable utc : Z -> option str.

  Lemma integers_defined c args name z : proper_compilation c ->
    compile_args get_cflags get_libs get_libdirs cwd utc (options_of c) = Some args ->
    In (name, z) [("MAIKE_TASKID"%string, task_id c); ("MAIKE_BUILDINFO_STARTTIME"%string, start_time (build c))] ->
    exists t, defined_as args name (t ++ lit "L") /\ with_sign c_constant t z.
  Proof.
    intros P H I. exists (decimal z). split; [|apply decimal_constant].
    destruct (definition_in get_cflags get_libs get_libdirs cwd utc c args (define_integer name z) P H) as (text & _ & D).
    apply D. destruct I as [E|[E|[]]]; injection E as <- <-; [now left|right; now left].
  Qed.

  Lemma strings_defined c args name s : proper_compilation c ->
    compile_args get_cflags get_libs get_libdirs cwd utc (options_of c) = Some args ->
    build_string utc c name s ->
    exists t, defined_as args name t /\ (literal_value t = Some s <-> plain_text s).
  Proof.
    intros P H B. exists ([quotation_mark] ++ s ++ [quotation_mark]). split.
    - destruct (definition_in get_cflags get_libs get_libdirs cwd utc c args (define_string name s) P H) as (text & U & D).
      apply D. destruct B as [(-> & B)|[(-> & ->)|[(-> & ->)|(-> & ->)]]].
      + rewrite U in B. injection B as ->. right. right. now left.
      + do 3 right. now left.
      + do 4 right. now left.
      + do 5 right. now left.
    - split; [|apply literal_plain]. intro L.
      assert (D : {plain_text s} + {~ plain_text s}).
      { apply Forall_dec. intro x. destruct (N.eq_dec (N_of_ascii x) 34), (N.eq_dec (N_of_ascii x) 92), (N.eq_dec (N_of_ascii x) 10); tauto. }
      destruct D as [D|D]; [exact D|]. exfalso. exact (literal_not_plain s D L).
  Qed.
End Definitions.

Lemma hexadecimal_plain s : Forall hexadecimal s -> plain_text s.
Proof.
  intro F. eapply Forall_impl; [|exact F]. intros c (d & [H|H]);
    (do 16 (destruct d as [|d]; [injection H as <-; repeat split; discriminate|])); destruct d; discriminate.
Qed.
