(** C94 and C96: settings in tags, and tags delivered by recipes. *)

From Coq Require Import Ascii String.
From Coq Require Import List.
From Verif Require Import Str Path JsonModel DbModel LoadModel TagSpec TagProofs.
Import ListNotations.

(** A file is loaded only if its settings have the form they should have.
    Missing: names that are not names of settings are not reported. *)
Theorem C94_wrong_form_partial :
  forall src s t parse resolve configure script_tags builtin l content info tags,
    load_source_file src s t parse resolve configure script_tags builtin l content = Some info ->
    parse (snd (filter_input l content)) = Some tags ->
    tags_form tags.
Proof. exact loaded_form. Qed.
Print Assumptions C94_wrong_form_partial.

(** Nothing else makes loading fail, as long as recipes are found, can be
    configured, and deliver tags of the right form. *)
Theorem C94_right_form :
  forall src s t parse resolve configure script_tags builtin l content tags,
    parse (snd (filter_input l content)) = Some tags -> tags_form tags ->
    (forall p, resolve p <> None) -> (forall p c, configure p c <> None) ->
    (forall c p, exists st, script_tags c p = Some st /\ tags_form st) ->
    exists info, load_source_file src s t parse resolve configure script_tags builtin l content = Some info.
Proof. exact form_loaded. Qed.
Print Assumptions C94_right_form.

(** Whatever has another name is ignored. *)
Theorem C94_unknown_ignored :
  forall src s t parse resolve configure script_tags builtin l content content' tags tags',
    parse (snd (filter_input l content)) = Some tags -> parse (snd (filter_input l content')) = Some tags' ->
    fst (filter_input l content) = fst (filter_input l content') ->
    (forall k, In k settings -> obj_get (lit k) tags = obj_get (lit k) tags') ->
    load_source_file src s t parse resolve configure script_tags builtin l content =
    load_source_file src s t parse resolve configure script_tags builtin l content'.
Proof. exact ignored. Qed.
Print Assumptions C94_unknown_ignored.

(** A misspelled setting is not reported, and has no effect. This one is in the
    sources of maike. *)
Theorem C94_unknown_refuted :
  exists info, load_with about_tags = Some info /\
    obj_get (lit "rebuild_policy") about_tags = Some (JString (lit "always")) /\
    si_policy info = OnlyIfOutOfDate /\
    load_with (filter (fun m => negb (str_eqb (fst m) (lit "rebuild_policy"))) about_tags) = Some info.
Proof.
  exact unknown_case.
Qed.
Print Assumptions C94_unknown_refuted.

(** C96. A file with the tags [tags0], whose recipe delivers [st], is loaded like a
    file with both. The two are given by a file without what the recipe delivers, and
    a file that has it in its own tags, while nothing is delivered.
    Missing: the rebuild policy, and files with a compiler configuration of their own. *)
Theorem C96_delivered_partial :
  forall src s t parse resolve configure builtin l content0 content1 st tags0 tags1 script0 info info0 info1,
    (forall c p, script0 c p = Some []) ->
    parse (snd (filter_input l content0)) = Some tags0 -> parse (snd (filter_input l content1)) = Some tags1 ->
    fst (filter_input l content0) = fst (filter_input l content1) ->
    obj_get (lit "compiler") tags1 = obj_get (lit "compiler") tags0 ->
    (forall k, In k delivered_settings -> obj_get (lit k) tags1 = obj_get (lit k) st) ->
    load_source_file src s t parse resolve configure (fun _ _ => Some st) builtin l content0 = Some info ->
    load_source_file src s t parse resolve configure script0 builtin l content0 = Some info0 ->
    load_source_file src s t parse resolve configure script0 builtin l content1 = Some info1 ->
    asks l tags0 ->
    (forall x, In x (targets info) <-> In x (targets info0) \/ In x (targets info1)) /\
    (forall x, In x (use_deps info) <-> In x (use_deps info0) \/ In x (use_deps info1)) /\
    (forall x, In x (child_targets_use_deps info) <->
               In x (child_targets_use_deps info0) \/ In x (child_targets_use_deps info1)).
Proof. exact delivered. Qed.
Print Assumptions C96_delivered_partial.

(** A rebuild policy that is delivered by a recipe is ignored. *)
Theorem C96_policy_refuted : asks asking_loader [] /\ exists info info1,
    load_from [] always = Some info /\ load_from always [] = Some info1 /\
    si_policy info1 = Always /\ si_policy info = OnlyIfOutOfDate.
Proof. exact delivered_policy_case. Qed.
Print Assumptions C96_policy_refuted.

(** The recipe should be asked, and is used for the file, but is not asked if the
    file has a configuration for it. *)
Theorem C96_own_config_refuted : use_get_tags (loader_compiler asking_loader) = true /\
    exists info, (forall st, load_from with_config st = Some info) /\
      exists d c, compiler_default info = Some d /\ combine d (si_compiler info) = Some c /\
        recipe c = recipe (loader_compiler asking_loader).
Proof. exact own_config_case. Qed.
Print Assumptions C96_own_config_refuted.

(** * Examples *)

Local Open Scope string_scope.
Local Open Scope list_scope.

Definition good_tags : compound :=
  [(lit "targets", JArray [JObject [(lit "name", JString (lit "a.o"));
     (lit "dependencies", JArray [JObject [(lit "ref", JString (lit "z")); (lit "origin", JString (lit "system")); (lit "rel", JString (lit "implementation"))]]);
     (lit "pkgconfig_libs", JArray [JString (lit "jansson")])]]);
   (lit "compiler", JObject [(lit "config", JObject [(lit "std", JObject [])])]);
   (lit "rebuild", JString (lit "always"))].

Example good_form : tags_form good_tags.
Proof.
  repeat split; try (intros j H; discriminate H); intros j H; injection H as <-.
  - eexists. split; [reflexivity|]. constructor; [|constructor]. eexists. split; [reflexivity|].
    split; [|split].
    + eexists. split; [reflexivity|]. now eexists.
    + intros j H. injection H as <-. eexists. split; [reflexivity|]. constructor; [|constructor].
      eexists. split; [reflexivity|]. split; [|split].
      * eexists. split; [reflexivity|]. now eexists.
      * intros j H. injection H as <-. exists "system". split; [cbn; tauto|reflexivity].
      * constructor; [now left|]. constructor; [right; now left|]. constructor; [|constructor]. right; right. now eexists.
    + intros j H. injection H as <-. eexists. split; [reflexivity|]. constructor; [now eexists|constructor].
  - eexists. split; [reflexivity|]. split; [|split]; [intros j H; discriminate H|intros j H; discriminate H|].
    eexists. split; [reflexivity|]. eexists. now split.
  - exists "always". split; [cbn; tauto|reflexivity].
Qed.

Example good_loads : option_map si_policy (load_with good_tags) = Some Always.
Proof. reflexivity. Qed.

Example bad_loads : load_with [(lit "rebuild", JString (lit "allways"))] = None /\
  load_with [(lit "targets", JObject [])] = None /\ load_with [(lit "compiler", JObject [])] = None.
Proof. repeat split. Qed.

(** The recipe adds a target and a dependency. *)
Example delivers :
  option_map (fun i => (map ti_name (targets i), map dep_name (use_deps i)))
    (load_from [(lit "target", JObject [(lit "name", JString (lit "a.html"))])]
       [(lit "target", JObject [(lit "name", JString (lit "a.d"))]);
        (lit "dependencies", JArray [JObject [(lit "ref", JString (lit "./b.svg"))]])]) =
  Some ([parse_path (lit "out/a.html"); parse_path (lit "out/a.d")],
        [parse_path (lit "out/b.svg"); parse_path (lit "/doc.py")]).
Proof. reflexivity. Qed.
