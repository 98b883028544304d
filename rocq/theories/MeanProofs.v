(** Proofs for C101. *)

From Coq Require Import Ascii String ZArith.
From Coq Require Import List Bool.
From Verif Require Import Str Path PathProofs JsonModel DbModel LoadModel TagSpec TagProofs StepSpec StepProofs MeanSpec LoadSpec.
Import ListNotations.

Local Open Scope list_scope.

Lemma map_all_forall2 {X Y} (f : X -> option Y) l ys : map_all f l = Some ys -> Forall2 (fun x y => f x = Some y) l ys.
Proof.
  revert ys. induction l as [|x l IH]; cbn [map_all]; intros ys H.
  - injection H as <-. constructor.
  - destruct (f x) as [y|] eqn:F; [|discriminate]. destruct (map_all f l) as [l'|]; [|discriminate].
    injection H as <-. constructor; [exact F|]. now apply IH.
Qed.

Lemma forall2_weaken {X Y} (P Q : X -> Y -> Prop) l m : (forall x y, P x y -> Q x y) -> Forall2 P l m -> Forall2 Q l m.
Proof. intros H F. induction F; constructor; auto. Qed.

Section Context.
  Variables (s t : path) (d : list str) (f : str).
  Hypothesis Hs : directory_ok s.
  Hypothesis Ht : directory_ok t.
  Hypothesis Hd : Forall ordinary d.
  Let src := append (inside s d) (mk_path false [f]).

  Lemma names_found o n q : names s t d o n q -> prepend_search_path src s t n o = q.
  Proof.
    intro H. destruct H as [x r R F|x r R N F|x r R F|x r R N F|n|n].
    - exact (proj1 (local_steps s t d f Hs Ht Hd x r R F)).
    - exact (proj1 (global_steps s t d f Hs Ht x r R N F)).
    - exact (proj2 (proj2 (local_steps s t d f Hs Ht Hd x r R F))).
    - exact (proj2 (global_steps s t d f Hs Ht x r R N F)).
    - reflexivity.
    - reflexivity.
  Qed.

  Lemma origin_word w o : origin_of_string w = Some o -> exists n, w = lit n /\ In (n, o) origin_words.
  Proof.
    unfold origin_of_string. intro H.
    destruct (str_eqb w (lit "generated")) eqn:E1; [exists "generated"%string; apply str_eqb_eq in E1; injection H as <-; split; [exact E1|cbn; tauto]|].
    destruct (str_eqb w (lit "project")) eqn:E2; [exists "project"%string; apply str_eqb_eq in E2; injection H as <-; split; [exact E2|cbn; tauto]|].
    destruct (str_eqb w (lit "system")) eqn:E3; [exists "system"%string; apply str_eqb_eq in E3; injection H as <-; split; [exact E3|cbn; tauto]|].
    destruct (str_eqb w (lit "pkg-config")) eqn:E4; [exists "pkg-config"%string; apply str_eqb_eq in E4; injection H as <-; split; [exact E4|cbn; tauto]|].
    discriminate.
  Qed.

  Lemma dependency_said default j x :
    match as_object j with Some o => get_dependency src s t default o | None => None end = Some x -> says_dependency s t d default j x.
  Proof.
    intro H. destruct j as [o| | | | | | |]; try discriminate H. cbn [as_object] in H. unfold get_dependency, get in H.
    destruct (obj_get (lit "ref") o) as [j|] eqn:R; [|discriminate]. destruct j as [| |n| | | | |]; try discriminate H. cbn [as_string] in H.
    exists o, n. split; [reflexivity|]. split; [exact R|].
    destruct (get_if as_string (lit "origin") o) as [w|] eqn:W; [|discriminate].
    destruct (match w with None => Some default | Some s => origin_of_string s end) as [og|] eqn:O; [|discriminate].
    destruct (map_all _ _) as [props|] eqn:P; [|discriminate]. injection H as <-. cbn [dep_origin dep_name dep_props].
    split; [|split].
    - unfold get_if in W. destruct (obj_get (lit "origin") o) as [j|].
      + right. destruct j as [| |m| | | | |]; try discriminate W. cbn in W. injection W as <-.
        destruct (origin_word m og O) as (k & -> & I). exists k. split; [reflexivity|exact I].
      + left. injection W as <-. injection O as <-. split; reflexivity.
    - intros q. exact (names_found og (parse_path n) q).
    - intros k v. apply map_all_forall2 in P. split.
      + intro I. assert (X : exists m, In m (filter (fun m => negb (str_eqb (fst m) (lit "ref")) && negb (str_eqb (fst m) (lit "origin"))) o) /\
          option_map (mk_property (fst m)) (as_string (snd m)) = Some (mk_property k v)).
        { clear - I P. induction P as [|m p l ps A F IH]; [destruct I|]. destruct I as [-> |I].
          - exists m. split; [now left|exact A].
          - destruct (IH I) as (m' & J & K). exists m'. split; [now right|exact K]. }
        destruct X as ((k', j) & J & K). cbn [fst snd] in K. apply filter_In in J. destruct J as [J E]. cbn [fst] in E.
        destruct j as [| |v'| | | | |]; try discriminate K. cbn in K. injection K as <- <-.
        apply andb_prop in E. destruct E as [E1 E2]. apply negb_true_iff in E1, E2.
        split; [intros ->; rewrite (proj2 (str_eqb_eq _ _) eq_refl) in E1; discriminate|].
        split; [intros ->; rewrite (proj2 (str_eqb_eq _ _) eq_refl) in E2; discriminate|exact J].
      + intros (N1 & N2 & I).
        assert (J : In (k, JString v) (filter (fun m => negb (str_eqb (fst m) (lit "ref")) && negb (str_eqb (fst m) (lit "origin"))) o)).
        { apply filter_In. split; [exact I|]. cbn [fst]. apply andb_true_intro. split; apply negb_true_iff.
          - destruct (str_eqb k (lit "ref")) eqn:E; [|reflexivity]. apply str_eqb_eq in E. destruct (N1 E).
          - destruct (str_eqb k (lit "origin")) eqn:E; [|reflexivity]. apply str_eqb_eq in E. destruct (N2 E). }
        clear - J P. induction P as [|m p l ps A F IH]; [destruct J|]. destruct J as [-> |J]; [|right; exact (IH J)].
        left. cbn in A. congruence.
  Qed.

  Lemma dependencies_said key default tags ds : get_dependencies src s t key default tags = Some ds ->
    Forall2 (says_dependency s t d default) (elements key tags) ds.
  Proof.
    unfold get_dependencies, get_if, elements. destruct (obj_get (lit key) tags) as [j|].
    - destruct j as [|l| | | | | |]; cbn [as_array option_map]; intro H; try discriminate H.
      apply map_all_forall2 in H. exact (forall2_weaken _ _ _ _ (dependency_said default) H).
    - intro H. injection H as <-. constructor.
  Qed.

  Lemma target_said o ti : get_target src s t o = Some ti -> says_target s t d (JObject o) ti.
  Proof.
    unfold get_target, get. intro H.
    destruct (obj_get (lit "name") o) as [j|] eqn:N; [|discriminate]. destruct j as [| |n| | | | |]; try discriminate H. cbn [as_string] in H.
    destruct (get_dependencies src s t "dependencies" System o) as [deps|] eqn:D; [|discriminate].
    destruct (get_if as_array (lit "pkgconfig_libs") o) as [l|] eqn:L; [|discriminate].
    destruct (map_all as_string _) as [ns|] eqn:M; [|discriminate]. injection H as <-. cbn [ti_name ti_use_deps].
    exists o, n, deps, (map (fun n => mk_dependency None (parse_path n) PkgConfig []) ns).
    split; [reflexivity|]. split; [exact N|]. split; [|split; [reflexivity|split]].
    - intros x r E R F. rewrite E. exact (proj1 (proj2 (local_steps s t d f Hs Ht Hd x r R F))).
    - exact (dependencies_said _ _ _ _ D).
    - assert (El : elements "pkgconfig_libs" o = match l with Some l => l | None => [] end).
      { unfold elements. unfold get_if in L. destruct (obj_get (lit "pkgconfig_libs") o) as [j|].
        - destruct j as [|l'| | | | | |]; try discriminate L. cbn in L. injection L as <-. reflexivity.
        - injection L as <-. reflexivity. }
      cbn [ti_use_deps] in *. rewrite El. apply map_all_forall2 in M. clear - M. induction M as [|j m js ms A F IH]; [constructor|].
      cbn [map]. constructor; [|exact IH]. exists m. destruct j; try discriminate A. cbn in A. injection A as <-. repeat split.
  Qed.

  Lemma targets_said tags ts : get_targets src s t tags = Some ts ->
    Forall2 (says_target s t d) (optional "target" tags ++ elements "targets" tags) ts.
  Proof.
    unfold get_targets. intro H.
    destruct (get_if as_object (lit "target") tags) as [one|] eqn:O; [|discriminate].
    destruct (get_if as_array (lit "targets") tags) as [l|] eqn:L; [|discriminate].
    destruct (map_all (get_target src s t) _) as [a|] eqn:A; [|discriminate].
    destruct (map_all _ (match l with Some l => l | None => [] end)) as [b|] eqn:B; [|discriminate]. injection H as <-.
    apply Forall2_app.
    - unfold get_if in O. unfold optional. destruct (obj_get (lit "target") tags) as [j|].
      + destruct j as [o| | | | | | |]; try discriminate O. cbn in O. injection O as <-. cbn [map_all] in A.
        destruct (get_target src s t o) as [ti|] eqn:T; [|discriminate]. injection A as <-.
        constructor; [exact (target_said o ti T)|constructor].
      + injection O as <-. injection A as <-. constructor.
    - unfold get_if in L. unfold elements. destruct (obj_get (lit "targets") tags) as [j|].
      + destruct j as [|l'| | | | | |]; try discriminate L. cbn in L. injection L as <-.
        apply map_all_forall2 in B. refine (forall2_weaken _ _ _ _ _ B). intros j ti H.
        destruct j as [o| | | | | | |]; try discriminate H. exact (target_said o ti H).
      + injection L as <-. injection B as <-. constructor.
  Qed.

  Variables (parse : str -> option compound) (resolve : path -> option (path * origin))
    (configure : path -> compound -> option compound) (script_tags : compiler -> path -> option compound).

  Lemma asked l tags own own' : get_if compiler_of_json (lit "compiler") tags = Some own ->
    match own with None => Some None | Some c => option_map Some (resolve_recipe resolve configure c) end = Some own' ->
    (use_get_tags (match own' with Some c => c | None => loader_compiler l end) = true <-> asks l tags).
  Proof.
    intros G O. unfold get_if in G. unfold asks. destruct (obj_get (lit "compiler") tags) as [j|].
    - destruct (compiler_of_json j) as [oc|] eqn:OC; [|discriminate]. injection G as <-.
      destruct (resolve_recipe resolve configure oc) as [rc|] eqn:RC; [|discriminate]. injection O as <-.
      assert (K : use_get_tags rc = use_get_tags oc).
      { unfold resolve_recipe in RC. destruct (resolve (recipe oc)) as [[p og]|]; [|discriminate].
        destruct (path_eqb p empty_path); [injection RC as <-; reflexivity|].
        destruct (configure p (comp_config oc)); [|discriminate]. injection RC as <-. reflexivity. }
      rewrite K. unfold compiler_of_json in OC. destruct j as [o| | | | | | |]; try discriminate OC. cbn [as_object] in OC.
      destruct (get_if as_string (lit "recipe") o) as [r|]; [|discriminate].
      destruct (get_if as_integer (lit "use_get_tags") o) as [z|] eqn:Z; [|discriminate].
      destruct (get as_object (lit "config") o) as [cfg|]; [|discriminate]. injection OC as <-. cbn [use_get_tags].
      unfold get_if in Z. destruct (obj_get (lit "use_get_tags") o) as [jz|] eqn:Ez.
      + destruct jz as [| | |z'| | | |]; try discriminate Z. cbn in Z. injection Z as <-.
        split.
        * intro H. right. exists o, z'. split; [reflexivity|]. split; [exact Ez|]. intros ->. discriminate.
        * intros [(H & _)|(o' & z & H & Z & N)]; [discriminate|]. injection H as <-. rewrite Ez in Z. injection Z as ->.
          apply negb_true_iff. now apply Z.eqb_neq.
      + injection Z as <-. split; [discriminate|].
        intros [(H & _)|(o' & z & H & Z & N)]; [discriminate|]. injection H as <-. congruence.
    - injection G as <-. injection O as <-. split.
      + intro H. left. split; [reflexivity|exact H].
      + intros [(_ & H)|(o & z & H & _)]; [exact H|discriminate].
  Qed.

  Theorem tags_said builtin l content info tags :
    load_source_file src s t parse resolve configure script_tags builtin l content = Some info ->
    parse (snd (filter_input l content)) = Some tags ->
    exists st ts1 ts2 use1 use2 extra1 extra2 includes recipes,
      (asks l tags -> exists c, script_tags c src = Some st) /\ (~ asks l tags -> st = []) /\
      says_file s t d tags ts1 use1 extra1 /\ says_file s t d st ts2 use2 extra2 /\
      targets info = ts1 ++ ts2 /\ child_targets_use_deps info = extra1 ++ extra2 /\
      use_deps info = builtin ++ includes ++ use1 ++ use2 ++ recipes /\
      Forall2 (refers s t d) (find_dependencies l (fst (filter_input l content))) includes /\
      (let r := match obj_get (lit "compiler") tags with Some _ => recipe (si_compiler info) | None => recipe (loader_compiler l) end in
       (r = empty_path /\ recipes = []) \/ exists x, r <> empty_path /\ recipes = [x] /\ dep_name x = r /\ dep_props x = []) /\
      says_policy tags (si_policy info).
  Proof.
    intros L P. unfold load_source_file in L. destruct (filter_input l content) as [source tag_text]. cbn [fst snd] in *.
    rewrite P in L.
    destruct (get_targets src s t tags) as [ts1|] eqn:T1; [|discriminate].
    destruct (get_use_deps src s t tags) as [use1|] eqn:U1; [|discriminate].
    destruct (get_child_target_use_deps src s t tags) as [extra1|] eqn:E1; [|discriminate].
    destruct (get_if compiler_of_json (lit "compiler") tags) as [own|] eqn:G; [|discriminate].
    destruct (match own with None => Some None | Some c => option_map Some (resolve_recipe resolve configure c) end) as [own'|] eqn:O; [|discriminate].
    pose proof (asked l tags own own' G O) as A.
    assert (Own : match own' with Some c => obj_get (lit "compiler") tags <> None | None => obj_get (lit "compiler") tags = None end).
    { unfold get_if in G. destruct (obj_get (lit "compiler") tags) as [j|].
      - destruct (compiler_of_json j); [|discriminate]. injection G as <-. destruct (resolve_recipe resolve configure c); [|discriminate].
        injection O as <-. discriminate.
      - injection G as <-. injection O as <-. reflexivity. }
    set (c := match own' with Some c => c | None => loader_compiler l end) in *.
    assert (Script : exists st ts2 use2 extra2, (asks l tags -> exists c, script_tags c src = Some st) /\ (~ asks l tags -> st = []) /\
        get_targets src s t st = Some ts2 /\ get_use_deps src s t st = Some use2 /\ get_child_target_use_deps src s t st = Some extra2 /\
        (if use_get_tags c then
           match script_tags c src with
           | None => None
           | Some st =>
               match get_targets src s t st, get_use_deps src s t st, get_child_target_use_deps src s t st with
               | Some x, Some y, Some z => Some (x, y, z)
               | _, _, _ => None
               end
           end
         else Some ([], [], [])) = Some (ts2, use2, extra2)).
    { destruct (use_get_tags c) eqn:U.
      - destruct (script_tags c src) as [st|] eqn:S; [|discriminate]. exists st.
        destruct (get_targets src s t st) as [ts2|]; [|discriminate].
        destruct (get_use_deps src s t st) as [use2|]; [|discriminate].
        destruct (get_child_target_use_deps src s t st) as [extra2|]; [|discriminate].
        exists ts2, use2, extra2. split; [intros _; now exists c|]. split; [|repeat split; reflexivity].
        intro N. destruct N. now apply A.
      - exists [], [], [], []. split; [intro K; apply A in K; discriminate|]. split; [reflexivity|]. repeat split; reflexivity. }
    destruct Script as (st & ts2 & use2 & extra2 & A1 & A2 & T2 & U2 & E2 & Sc). rewrite Sc in L. clear Sc.
    destruct (get_if _ (lit "rebuild") tags) as [pol|] eqn:R; [|discriminate]. injection L as <-.
    cbn [targets child_targets_use_deps use_deps si_policy si_compiler].
    exists st, ts1, ts2, use1, use2, extra1, extra2, (map (prepend_to_dependency src s t) (find_dependencies l source)),
      (if path_eqb (recipe c) empty_path then [] else [compiler_dependency c]).
    split; [exact A1|]. split; [exact A2|].
    split; [exact (conj (targets_said _ _ T1) (conj (dependencies_said _ _ _ _ U1) (dependencies_said _ _ _ _ E1)))|].
    split; [exact (conj (targets_said _ _ T2) (conj (dependencies_said _ _ _ _ U2) (dependencies_said _ _ _ _ E2)))|].
    split; [reflexivity|]. split; [reflexivity|]. split; [reflexivity|].
    split.
    { generalize (find_dependencies l source) as ds. induction ds as [|x ds IH]; cbn [map]; constructor; [|exact IH].
      split; [reflexivity|]. split; [reflexivity|]. intros q. exact (names_found (dep_origin x) (dep_name x) q). }
    split.
    - cbn zeta. assert (Rc : match obj_get (lit "compiler") tags with
                             | Some _ => recipe match own' with Some c => c | None => no_compiler end
                             | None => recipe (loader_compiler l) end = recipe c).
      { unfold c. destruct own' as [oc|].
        - destruct (obj_get (lit "compiler") tags); [reflexivity|]. destruct Own. reflexivity.
        - rewrite Own. reflexivity. }
      rewrite Rc. destruct (path_eqb (recipe c) empty_path) eqn:E.
      + left. split; [apply path_eqb_eq; exact E|reflexivity].
      + right. exists (compiler_dependency c). split; [|repeat split].
        intro K. rewrite (proj2 (path_eqb_eq _ _) K) in E. discriminate.
    - unfold says_policy. unfold get_if in R. destruct (obj_get (lit "rebuild") tags) as [j|].
      + destruct j as [| |w| | | | |]; try discriminate R. cbn [as_string] in R. unfold policy_of_string in R.
        destruct (str_eqb w (lit "always")) eqn:W1.
        * left. apply str_eqb_eq in W1. rewrite W1. cbn in R. injection R as <-. split; reflexivity.
        * destruct (str_eqb w (lit "only_if_out_of_date")) eqn:W2; [|discriminate].
          right. left. apply str_eqb_eq in W2. rewrite W2. cbn in R. injection R as <-. split; reflexivity.
      + right. right. injection R as <-. split; reflexivity.
  Qed.
End Context.
