(** Proofs for C94. *)

From Coq Require Import Ascii String ZArith.
From Coq Require Import List Bool.
From Verif Require Import Str Path PathProofs JsonModel DbModel LoadModel TagSpec.
Import ListNotations.

Local Open Scope list_scope.

Definition ok {T} (x : option T) : Prop := x <> None.

Lemma ok_some {T} (x : T) : ok (Some x). Proof. discriminate. Qed.

Lemma map_all_ok {X Y} (f : X -> option Y) l : ok (map_all f l) <-> Forall (fun x => ok (f x)) l.
Proof.
  induction l as [|x l IH]; cbn [map_all].
  - split; [constructor|discriminate].
  - split.
    + intro H. destruct (f x) as [y|] eqn:F; [|now destruct H]. destruct (map_all f l) as [ys|]; [|now destruct H].
      constructor; [rewrite F; discriminate|]. apply IH. discriminate.
    + intro H. inversion H as [|? ? A B]; subst. apply IH in B.
      destruct (f x); [|now destruct A]. destruct (map_all f l); [discriminate|now destruct B].
Qed.

Lemma as_string_ok j : ok (as_string j) <-> text j.
Proof.
  split; [|intros [s ->]; discriminate]. intro H. destruct j; try (now destruct H). now eexists.
Qed.

Lemma as_integer_ok j : ok (as_integer j) <-> number j.
Proof.
  split; [|intros [s ->]; discriminate]. intro H. destruct j; try (now destruct H). now eexists.
Qed.

Lemma get_ok {T} (f : json -> option T) P name o : (forall j, ok (f j) <-> P j) ->
  ok (get f (lit name) o) <-> required name P o.
Proof.
  intro E. unfold get, required. destruct (obj_get (lit name) o) as [j|].
  - rewrite E. split; [intro H; now exists j|intros (j' & H & Q)]. congruence.
  - split; [intro H; now destruct H|intros (j' & H & _); discriminate].
Qed.

Lemma get_if_ok {T} (f : json -> option T) P name o : (forall j, ok (f j) <-> P j) ->
  ok (get_if f (lit name) o) <-> if_present name P o.
Proof.
  intro E. unfold get_if, if_present. destruct (obj_get (lit name) o) as [j|].
  - transitivity (ok (f j)); [destruct (f j); cbn; split; intro H; try discriminate; now destruct H|].
    rewrite E. split; [|auto]. intros H j' [= <-]. exact H.
  - split; [discriminate|]. intros _. discriminate.
Qed.

Lemma origin_ok j : ok (match as_string j with Some s => origin_of_string s | None => None end) <->
  one_of ["generated"; "project"; "system"; "pkg-config"]%string j.
Proof.
  split.
  - intro H. destruct j as [| |s| | | | |]; try (now destruct H). cbn [as_string] in H. unfold origin_of_string in H.
    assert (K : forall n, str_eqb s (lit n) = true -> JString s = JString (lit n)).
    { intros n E. apply str_eqb_eq in E. congruence. }
    destruct (str_eqb s (lit "generated")) eqn:E1; [exists "generated"%string; split; [cbn; tauto|now apply K]|].
    destruct (str_eqb s (lit "project")) eqn:E2; [exists "project"%string; split; [cbn; tauto|now apply K]|].
    destruct (str_eqb s (lit "system")) eqn:E3; [exists "system"%string; split; [cbn; tauto|now apply K]|].
    destruct (str_eqb s (lit "pkg-config")) eqn:E4; [exists "pkg-config"%string; split; [cbn; tauto|now apply K]|].
    now destruct H.
  - intros (n & I & ->). cbn in I. repeat (destruct I as [<- | I]; [discriminate|]). contradiction.
Qed.

Lemma policy_ok j : ok (match as_string j with Some s => policy_of_string s | None => None end) <->
  one_of ["always"; "only_if_out_of_date"]%string j.
Proof.
  split.
  - intro H. destruct j as [| |s| | | | |]; try (now destruct H). cbn [as_string] in H. unfold policy_of_string in H.
    assert (K : forall n, str_eqb s (lit n) = true -> JString s = JString (lit n)).
    { intros n E. apply str_eqb_eq in E. congruence. }
    destruct (str_eqb s (lit "always")) eqn:E1; [exists "always"%string; split; [cbn; tauto|now apply K]|].
    destruct (str_eqb s (lit "only_if_out_of_date")) eqn:E2; [exists "only_if_out_of_date"%string; split; [cbn; tauto|now apply K]|].
    now destruct H.
  - intros (n & I & ->). cbn in I. repeat (destruct I as [<- | I]; [discriminate|]). contradiction.
Qed.

Lemma others_ok (o : compound) :
  ok (map_all (fun m => option_map (mk_property (fst m)) (as_string (snd m)))
       (filter (fun m => negb (str_eqb (fst m) (lit "ref")) && negb (str_eqb (fst m) (lit "origin"))) o)) <->
  Forall (fun m => fst m = lit "ref" \/ fst m = lit "origin" \/ text (snd m)) o.
Proof.
  rewrite map_all_ok. repeat rewrite Forall_forall.
  assert (Q : forall m : str * json, ok (option_map (mk_property (fst m)) (as_string (snd m))) <-> text (snd m)).
  { intro m. rewrite <- as_string_ok. destruct (as_string (snd m)); cbn; split; intro H; try discriminate; now destruct H. }
  split.
  - intros H m I.
    destruct (str_eqb (fst m) (lit "ref")) eqn:E1; [left; now apply str_eqb_eq|].
    destruct (str_eqb (fst m) (lit "origin")) eqn:E2; [right; left; now apply str_eqb_eq|].
    right; right. apply Q. apply H. apply filter_In. split; [exact I|]. now rewrite E1, E2.
  - intros H m I. apply filter_In in I. destruct I as [I E]. apply andb_prop in E. destruct E as [E1 E2].
    apply negb_true_iff in E1, E2. apply Q. destruct (H m I) as [K | [K | K]]; [| |exact K];
      apply str_eqb_eq in K; congruence.
Qed.

Section Context.
Variables src s t : path.

Lemma dependency_ok d o : ok (get_dependency src s t d o) <-> dependency_form o.
Proof.
  unfold dependency_form. rewrite <- (get_ok as_string text "ref" o as_string_ok).
  rewrite <- (get_if_ok _ _ "origin" o origin_ok). rewrite <- others_ok. unfold get_dependency.
  destruct (get as_string (lit "ref") o) as [name|]; [|split; [intro H; now destruct H|intros (H & _); now destruct H]].
  unfold get_if. destruct (obj_get (lit "origin") o) as [j|].
  - destruct (as_string j) as [n|]; cbn [option_map];
      [|split; [intro H; now destruct H|intros (_ & H & _); now destruct H]].
    destruct (origin_of_string n); cbn [option_map];
      [|split; [intro H; now destruct H|intros (_ & H & _); now destruct H]].
    match goal with |- ok (match ?m with _ => _ end) <-> _ => destruct m end.
    + split; [intros _; repeat split; discriminate|discriminate].
    + split; [intro H; now destruct H|intros (_ & _ & H); now destruct H].
  - match goal with |- ok (match ?m with _ => _ end) <-> _ => destruct m end.
    + split; [intros _; repeat split; discriminate|discriminate].
    + split; [intro H; now destruct H|intros (_ & _ & H); now destruct H].
Qed.

Lemma object_ok {T} (f : compound -> option T) P : (forall o, ok (f o) <-> P o) ->
  forall j, ok (match as_object j with Some o => f o | None => None end) <-> object P j.
Proof.
  intros E j. split.
  - intro H. destruct j; try (now destruct H). eexists. split; [reflexivity|]. now apply E.
  - intros (o & -> & Q). now apply E.
Qed.

Lemma array_ok {T} (f : json -> option T) P : (forall j, ok (f j) <-> P j) ->
  forall j, ok (match as_array j with Some l => map_all f l | None => None end) <-> array P j.
Proof.
  intros E j. split.
  - intro H. destruct j as [|l| | | | | |]; try (now destruct H). exists l. split; [reflexivity|].
    apply map_all_ok in H. eapply Forall_impl; [|exact H]. intros x. apply E.
  - intros (l & -> & Q). apply map_all_ok. eapply Forall_impl; [|exact Q]. intros x. apply E.
Qed.

(** Reading an array, then its elements *)
Lemma get_if_array {T} (f : json -> option T) name o :
  ok (get_if (fun j => match as_array j with Some l => map_all f l | None => None end) (lit name) o) <->
  match get_if as_array (lit name) o with
  | Some l => ok (map_all f (match l with Some l => l | None => [] end))
  | None => False
  end.
Proof.
  unfold get_if. destruct (obj_get (lit name) o) as [j|]; [|cbn; split; intros _; discriminate].
  destruct (as_array j) as [l|]; cbn [option_map].
  - destruct (map_all f l); cbn; split; intro H; try discriminate; now destruct H.
  - split; [intro H; now destruct H|contradiction].
Qed.

Lemma dependencies_ok key d o :
  ok (get_dependencies src s t key d o) <-> if_present key (array (object dependency_form)) o.
Proof.
  rewrite <- (get_if_ok _ _ key o (array_ok _ _ (object_ok _ _ (dependency_ok d)))).
  rewrite get_if_array. unfold get_dependencies.
  destruct (get_if as_array (lit key) o) as [[l|]|]; [reflexivity|cbn; split; intros _; discriminate|].
  split; [intro H; now destruct H|contradiction].
Qed.

Lemma target_ok o : ok (get_target src s t o) <-> target_form o.
Proof.
  unfold target_form. rewrite <- (get_ok as_string text "name" o as_string_ok), <- (dependencies_ok "dependencies" System).
  rewrite <- (get_if_ok _ _ "pkgconfig_libs" o (array_ok _ _ as_string_ok)). rewrite get_if_array. unfold get_target.
  destruct (get as_string (lit "name") o); [|split; [intro H; now destruct H|intros (H & _); now destruct H]].
  destruct (get_dependencies src s t "dependencies" System o);
    [|split; [intro H; now destruct H|intros (_ & H & _); now destruct H]].
  destruct (get_if as_array (lit "pkgconfig_libs") o) as [libs|];
    [|split; [intro H; now destruct H|intros (_ & _ & H); now destruct H]].
  destruct (map_all as_string match libs with Some l => l | None => [] end).
  - split; [intros _; repeat split; discriminate|discriminate].
  - split; [intro H; now destruct H|intros (_ & _ & H); now destruct H].
Qed.

Lemma targets_ok o : ok (get_targets src s t o) <->
  if_present "target" (object target_form) o /\ if_present "targets" (array (object target_form)) o.
Proof.
  rewrite <- (get_if_ok _ _ "target" o (object_ok _ _ target_ok)).
  rewrite <- (get_if_ok _ _ "targets" o (array_ok _ _ (object_ok _ _ target_ok))). rewrite get_if_array.
  assert (One : ok (get_if (fun j => match as_object j with Some o => get_target src s t o | None => None end) (lit "target") o) <->
    match get_if as_object (lit "target") o with
    | Some x => ok (map_all (get_target src s t) (match x with Some y => [y] | None => [] end))
    | None => False
    end).
  { unfold get_if. destruct (obj_get (lit "target") o) as [j|]; [|cbn; split; intros _; discriminate].
    destruct (as_object j) as [x|]; cbn [option_map]; [|split; [intro H; now destruct H|contradiction]].
    cbn [map_all]. destruct (get_target src s t x); cbn; split; intro H; try discriminate; now destruct H. }
  rewrite One. unfold get_targets.
  destruct (get_if as_object (lit "target") o) as [x|]; [|split; [intro H; now destruct H|intros (H & _); now destruct H]].
  destruct (get_if as_array (lit "targets") o) as [y|]; [|split; [intro H; now destruct H|intros (_ & H); now destruct H]].
  match goal with |- ok (match ?m with _ => _ end) <-> _ => destruct m end;
    [|split; [intro H; now destruct H|intros (H & _); now destruct H]].
  match goal with |- ok (match ?m with _ => _ end) <-> _ => destruct m end;
    [|split; [intro H; now destruct H|intros (_ & H); now destruct H]].
  split; [intros _; repeat split; discriminate|discriminate].
Qed.

Lemma compiler_ok j : ok (compiler_of_json j) <-> object compiler_form j.
Proof.
  assert (E : forall o, ok (match get_if as_string (lit "recipe") o, get_if as_integer (lit "use_get_tags") o, get as_object (lit "config") o with
      | Some r, Some t, Some cfg => Some (mk_compiler (match r with Some s => parse_path s | None => empty_path end) None cfg
                  (match t with Some z => negb (Z.eqb z 0) | None => false end))
      | _, _, _ => None end) <-> compiler_form o).
  { intro o. unfold compiler_form. rewrite <- (get_if_ok _ _ "recipe" o as_string_ok), <- (get_if_ok _ _ "use_get_tags" o as_integer_ok).
    assert (C : forall j, ok (as_object j) <-> object (fun _ => True) j).
    { intro j'. split; [|intros (x & -> & _); discriminate]. intro H. destruct j'; try (now destruct H). now eexists. }
    rewrite <- (get_ok as_object _ "config" o C).
    destruct (get_if as_string (lit "recipe") o); [|split; [intro H; now destruct H|intros (H & _); now destruct H]].
    destruct (get_if as_integer (lit "use_get_tags") o); [|split; [intro H; now destruct H|intros (_ & H & _); now destruct H]].
    destruct (get as_object (lit "config") o); [|split; [intro H; now destruct H|intros (_ & _ & H); now destruct H]].
    split; [intros _; repeat split; discriminate|discriminate]. }
  exact (object_ok _ _ E j).
Qed.

Variable parse : str -> option compound.
Variable resolve : path -> option (path * origin).
Variable configure : path -> compound -> option compound.
Variable script_tags : compiler -> path -> option compound.

Lemma loaded_form builtin l content info tags :
  load_source_file src s t parse resolve configure script_tags builtin l content = Some info ->
  parse (snd (filter_input l content)) = Some tags -> tags_form tags.
Proof.
  intros H P. unfold load_source_file in H. destruct (filter_input l content) as [source tag_text].
  cbn [snd] in P. rewrite P in H.
  destruct (get_targets src s t tags) eqn:T; [|discriminate].
  destruct (get_use_deps src s t tags) eqn:U; [|discriminate].
  destruct (get_child_target_use_deps src s t tags) eqn:X; [|discriminate].
  destruct (get_if compiler_of_json (lit "compiler") tags) as [own|] eqn:C; [|discriminate].
  destruct (match own with None => Some None | Some c => option_map Some (resolve_recipe resolve configure c) end); [|discriminate].
  match type of H with (match ?m with _ => _ end) = _ => destruct m as [[[? ?] ?]|]; [|discriminate] end.
  match type of H with (match ?m with _ => _ end) = _ => destruct m eqn:R; [|discriminate] end.
  unfold tags_form. rewrite <- and_assoc. split; [apply targets_ok; rewrite T; discriminate|].
  split; [apply (dependencies_ok _ Generated); unfold get_use_deps in U; rewrite U; discriminate|].
  split; [apply (dependencies_ok _ Generated); unfold get_child_target_use_deps in X; rewrite X; discriminate|].
  split; [apply (get_if_ok _ _ "compiler" tags compiler_ok); rewrite C; discriminate|].
  apply (get_if_ok _ _ "rebuild" tags policy_ok). rewrite R. discriminate.
Qed.

Lemma form_loaded builtin l content tags :
  parse (snd (filter_input l content)) = Some tags -> tags_form tags ->
  (forall p, resolve p <> None) -> (forall p c, configure p c <> None) ->
  (forall c p, exists st, script_tags c p = Some st /\ tags_form st) ->
  exists info, load_source_file src s t parse resolve configure script_tags builtin l content = Some info.
Proof.
  intros P (F1 & F2 & F3 & F4 & F5 & F6) R G ST. unfold load_source_file.
  destruct (filter_input l content) as [source tag_text]. cbn [snd] in P. rewrite P.
  assert (T : ok (get_targets src s t tags)) by now apply targets_ok.
  destruct (get_targets src s t tags); [|now destruct T].
  assert (U : ok (get_use_deps src s t tags)) by now apply dependencies_ok.
  destruct (get_use_deps src s t tags); [|now destruct U].
  assert (X : ok (get_child_target_use_deps src s t tags)) by now apply dependencies_ok.
  destruct (get_child_target_use_deps src s t tags); [|now destruct X].
  assert (C : ok (get_if compiler_of_json (lit "compiler") tags)) by now apply (get_if_ok _ _ _ _ compiler_ok).
  destruct (get_if compiler_of_json (lit "compiler") tags) as [own|]; [|now destruct C].
  assert (O : ok (match own with None => Some None | Some c => option_map Some (resolve_recipe resolve configure c) end)).
  { destruct own as [c|]; [|discriminate]. unfold resolve_recipe.
    specialize (R (recipe c)). destruct (resolve (recipe c)) as [[p o]|]; [|now destruct R].
    destruct (path_eqb p empty_path); [discriminate|]. specialize (G p (comp_config c)).
    destruct (configure p (comp_config c)); [discriminate|now destruct G]. }
  destruct (match own with None => Some None | Some c => option_map Some (resolve_recipe resolve configure c) end) as [own'|]; [|now destruct O].
  set (c := match own' with Some c => c | None => loader_compiler l end). cbv zeta.
  match goal with |- exists info, (match ?m with _ => _ end) = _ => assert (S : ok m) end.
  { destruct (use_get_tags c); [|discriminate]. destruct (ST c src) as (st & E & (S1 & S2 & S3 & S4 & _)). rewrite E.
    assert (T' : ok (get_targets src s t st)) by now apply targets_ok.
    destruct (get_targets src s t st); [|now destruct T'].
    assert (U' : ok (get_use_deps src s t st)) by now apply dependencies_ok.
    destruct (get_use_deps src s t st); [|now destruct U'].
    assert (X' : ok (get_child_target_use_deps src s t st)) by now apply dependencies_ok.
    destruct (get_child_target_use_deps src s t st); [discriminate|now destruct X']. }
  match goal with |- exists info, (match ?m with _ => _ end) = _ => destruct m as [[[? ?] ?]|]; [|now destruct S] end.
  assert (Q : ok (get_if (fun j => match as_string j with Some s => policy_of_string s | None => None end) (lit "rebuild") tags))
    by now apply (get_if_ok _ _ _ _ policy_ok).
  match goal with |- exists info, (match ?m with _ => _ end) = _ => destruct m; [|now destruct Q] end.
  now eexists.
Qed.

(** Names that are not settings make no difference. *)
Lemma get_if_same {T} (f : json -> option T) k a b : obj_get k a = obj_get k b -> get_if f k a = get_if f k b.
Proof. intro E. unfold get_if. now rewrite E. Qed.

Lemma ignored builtin l content content' tags tags' :
  parse (snd (filter_input l content)) = Some tags -> parse (snd (filter_input l content')) = Some tags' ->
  fst (filter_input l content) = fst (filter_input l content') ->
  (forall k, In k settings -> obj_get (lit k) tags = obj_get (lit k) tags') ->
  load_source_file src s t parse resolve configure script_tags builtin l content =
  load_source_file src s t parse resolve configure script_tags builtin l content'.
Proof.
  intros P P' E K. unfold load_source_file.
  destruct (filter_input l content) as [a b]. destruct (filter_input l content') as [a' b']. cbn [fst snd] in *.
  subst a'. rewrite P, P'.
  assert (K1 := K "target"%string ltac:(cbn; tauto)). assert (K2 := K "targets"%string ltac:(cbn; tauto)).
  assert (K3 := K "dependencies"%string ltac:(cbn; tauto)). assert (K4 := K "dependencies_extra"%string ltac:(cbn; tauto)).
  assert (K5 := K "compiler"%string ltac:(cbn; tauto)). assert (K6 := K "rebuild"%string ltac:(cbn; tauto)).
  assert (T : get_targets src s t tags = get_targets src s t tags').
  { unfold get_targets. now rewrite (get_if_same _ _ _ _ K1), (get_if_same _ _ _ _ K2). }
  assert (U : get_use_deps src s t tags = get_use_deps src s t tags').
  { unfold get_use_deps, get_dependencies. now rewrite (get_if_same _ _ _ _ K3). }
  assert (X : get_child_target_use_deps src s t tags = get_child_target_use_deps src s t tags').
  { unfold get_child_target_use_deps, get_dependencies. now rewrite (get_if_same _ _ _ _ K4). }
  rewrite T, U, X, (get_if_same _ _ _ _ K5), (get_if_same _ _ _ _ K6). reflexivity.
Qed.
End Context.

(** The tags of core/bin/about.py *)
Definition about_tags : compound :=
  [(lit "target", JObject [(lit "name", JString (lit "about_impl.hpp"))]);
   (lit "rebuild_policy", JString (lit "always"))].

Definition script_loader : loader :=
  mk_loader (fun text => ([], text)) (fun _ => []) (mk_compiler empty_path None [] false) false.

Definition load_with (tags : compound) : option source_file_info :=
  load_source_file (mk_path false [lit "about.py"]) (mk_path false []) (mk_path false [lit "out"])
    (fun _ => Some tags) (fun p => Some (p, Project)) (fun _ c => Some c) (fun _ _ => None) [] script_loader [].

Lemma unknown_case : exists info, load_with about_tags = Some info /\
  obj_get (lit "rebuild_policy") about_tags = Some (JString (lit "always")) /\
  si_policy info = OnlyIfOutOfDate /\
  load_with (filter (fun m => negb (str_eqb (fst m) (lit "rebuild_policy"))) about_tags) = Some info.
Proof. eexists. repeat split. Qed.

(** ** Tags delivered by recipes *)

Section Delivered.
Variables src s t : path.
Variable parse : str -> option compound.
Variable resolve : path -> option (path * origin).
Variable configure : path -> compound -> option compound.

(** Loading with tags [own] in the file and tags [st] from the recipe, as a function
    of what the two have. *)
Lemma delivered builtin l content0 content1 st tags0 tags1 script0 info info0 info1 :
  (forall c p, script0 c p = Some []) ->
  parse (snd (filter_input l content0)) = Some tags0 -> parse (snd (filter_input l content1)) = Some tags1 ->
  fst (filter_input l content0) = fst (filter_input l content1) ->
  obj_get (lit "compiler") tags1 = obj_get (lit "compiler") tags0 ->
  (forall k, In k delivered_settings -> obj_get (lit k) tags1 = obj_get (lit k) st) ->
  load_source_file src s t parse resolve configure (fun _ _ => Some st) builtin l content0 = Some info ->
  load_source_file src s t parse resolve configure script0 builtin l content0 = Some info0 ->
  load_source_file src s t parse resolve configure script0 builtin l content1 = Some info1 ->
  asks l tags0 ->
  (forall x, In x (targets info) <-> In x (targets info0) \/ In x (targets info1)) /\
  (forall x, In x (use_deps info) <-> In x (use_deps info0) \/ In x (use_deps info1)) /\
  (forall x, In x (child_targets_use_deps info) <-> In x (child_targets_use_deps info0) \/ In x (child_targets_use_deps info1)).
Proof.
  intros S0 P0 P1 E C K L L0 L1 U. unfold load_source_file in L, L0, L1.
  destruct (filter_input l content0) as [a b]. destruct (filter_input l content1) as [a' b']. cbn [fst snd] in *. subst a'.
  rewrite P0 in L, L0. rewrite P1 in L1.
  assert (K1 := K "target"%string ltac:(cbn; tauto)). assert (K2 := K "targets"%string ltac:(cbn; tauto)).
  assert (K3 := K "dependencies"%string ltac:(cbn; tauto)). assert (K4 := K "dependencies_extra"%string ltac:(cbn; tauto)).
  assert (T : get_targets src s t tags1 = get_targets src s t st).
  { unfold get_targets. now rewrite (get_if_same _ _ _ _ K1), (get_if_same _ _ _ _ K2). }
  assert (D : get_use_deps src s t tags1 = get_use_deps src s t st).
  { unfold get_use_deps, get_dependencies. now rewrite (get_if_same _ _ _ _ K3). }
  assert (X : get_child_target_use_deps src s t tags1 = get_child_target_use_deps src s t st).
  { unfold get_child_target_use_deps, get_dependencies. now rewrite (get_if_same _ _ _ _ K4). }
  rewrite T, D, X, (get_if_same _ _ _ _ C) in L1. clear T D X K1 K2 K3 K4 K.
  destruct (get_targets src s t tags0) as [ts0|]; [|discriminate].
  destruct (get_use_deps src s t tags0) as [us0|]; [|discriminate].
  destruct (get_child_target_use_deps src s t tags0) as [xs0|]; [|discriminate].
  destruct (get_if compiler_of_json (lit "compiler") tags0) as [own|] eqn:G; [|discriminate].
  destruct (get_targets src s t st) as [ts1|]; [|discriminate].
  destruct (get_use_deps src s t st) as [us1|]; [|discriminate].
  destruct (get_child_target_use_deps src s t st) as [xs1|]; [|discriminate].
  destruct (match own with None => Some None | Some c => option_map Some (resolve_recipe resolve configure c) end) as [own'|] eqn:O; [|discriminate].
  set (c := match own' with Some c => c | None => loader_compiler l end) in *. cbv zeta in *.
  assert (UC : use_get_tags c = true).
  { unfold c. destruct U as [(N & U) | (o & z & N & Z & NZ)].
    - unfold get_if in G. rewrite N in G. injection G as <-. injection O as <-. exact U.
    - unfold get_if in G. rewrite N in G. destruct (compiler_of_json (JObject o)) as [oc|] eqn:OC; [|discriminate].
      injection G as <-. destruct (resolve_recipe resolve configure oc) as [rc|] eqn:RC; [|discriminate]. injection O as <-.
      assert (R : use_get_tags oc = true).
      { unfold compiler_of_json in OC. cbn [as_object] in OC. unfold get_if at 2 in OC. rewrite Z in OC. cbn [as_integer option_map] in OC.
        destruct (get_if as_string (lit "recipe") o); [|discriminate]. destruct (get as_object (lit "config") o); [|discriminate].
        injection OC as <-. cbn [use_get_tags]. destruct (Z.eqb_spec z 0); [contradiction|reflexivity]. }
      unfold resolve_recipe in RC. destruct (resolve (recipe oc)) as [[p og]|]; [|discriminate].
      destruct (path_eqb p empty_path); [injection RC as <-; exact R|].
      destruct (configure p (comp_config oc)); [|discriminate]. injection RC as <-. exact R. }
  rewrite UC in *. rewrite S0 in L0, L1. cbn [get_targets get_use_deps get_child_target_use_deps get_dependencies get_if obj_get map_all app] in L0, L1.
  match type of L with (match ?m with _ => _ end) = _ => destruct m; [|discriminate] end.
  match type of L1 with (match ?m with _ => _ end) = _ => destruct m; [|discriminate] end.
  injection L as <-. injection L0 as <-. injection L1 as <-. cbn [targets use_deps child_targets_use_deps].
  split; [|split]; intro x; repeat rewrite in_app_iff; cbn [In]; tauto.
Qed.
End Delivered.

(** A rebuild policy that is delivered by a recipe *)
Definition asking_loader : loader :=
  mk_loader (fun text => ([], text)) (fun _ => []) (mk_compiler (mk_path true [lit "doc.py"]) (Some System) [] true) false.

Definition load_from (tags st : compound) : option source_file_info :=
  load_source_file (mk_path false [lit "a.xml"]) (mk_path false []) (mk_path false [lit "out"])
    (fun _ => Some tags) (fun p => Some (p, Project)) (fun _ c => Some c) (fun _ _ => Some st) [] asking_loader [].

Definition always : compound := [(lit "rebuild", JString (lit "always"))].

Lemma delivered_policy_case : asks asking_loader [] /\ exists info info1,
  load_from [] always = Some info /\ load_from always [] = Some info1 /\
  si_policy info1 = Always /\ si_policy info = OnlyIfOutOfDate.
Proof. split; [left; split; reflexivity|]. do 2 eexists. repeat split. Qed.

Definition with_config : compound := [(lit "compiler", JObject [(lit "config", JObject [])])].

(** The recipe is not asked. *)
Lemma own_config_case : use_get_tags (loader_compiler asking_loader) = true /\
  exists info, (forall st, load_from with_config st = Some info) /\
    exists d c, compiler_default info = Some d /\ combine d (si_compiler info) = Some c /\
      recipe c = recipe (loader_compiler asking_loader).
Proof.
  split; [reflexivity|]. eexists. split; [intro st; reflexivity|]. do 2 eexists. repeat split.
Qed.
