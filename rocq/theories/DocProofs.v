From Coq Require Import Ascii String NArith Bool Arith Lia.
From Coq Require Import List.
From Verif Require Import Str Path SMap PathProofs JsonModel JsonSpec JsonProofs DbModel ValueModel LoadModel LoadSpec LoadProofs LocProofs LexModel.
From Verif Require Import RecipeModel RecipeSpec RecipeProofs CfgModel CfgSpec CfgProofs TreeProofs Utf8Proofs.
From Verif Require Import DepGraphSpec FileListModel FileListSpec FileListProofs DocModel KindModel KindSpec KindProofs FoundSpec FoundProofs DocSpec LoadSpec.
Import ListNotations.

(** ** References *)

Lemma lower_ok c : lower c = true <-> (97 <= N_of_ascii c <= 122)%N.
Proof. unfold lower. rewrite andb_true_iff, !N.leb_le. tauto. Qed.

Lemma slashes_begin s : (exists r, s = ":"%char :: "/"%char :: "/"%char :: r) \/
  (more_letters s = match s with [] => false | c :: s' => lower c && more_letters s' end /\
   forall r, s <> ":"%char :: "/"%char :: "/"%char :: r).
Proof.
  destruct s as [|a s]; [right; split; [reflexivity|discriminate]|].
  destruct (ascii_dec a ":") as [->|Na].
  2:{ right. split; [|congruence]. cbn [more_letters].
      destruct a as [[] [] [] [] [] [] [] []]; try reflexivity; exfalso; apply Na; reflexivity. }
  destruct s as [|b s]; [right; split; [reflexivity|discriminate]|].
  destruct (ascii_dec b "/") as [->|Nb].
  2:{ right. split; [|congruence]. cbn [more_letters].
      destruct b as [[] [] [] [] [] [] [] []]; try reflexivity; exfalso; apply Nb; reflexivity. }
  destruct s as [|c s]; [right; split; [reflexivity|discriminate]|].
  destruct (ascii_dec c "/") as [->|Nc]; [left; eexists; reflexivity|].
  right. split; [|congruence]. cbn [more_letters].
  destruct c as [[] [] [] [] [] [] [] []]; try reflexivity; exfalso; apply Nc; reflexivity.
Qed.

Lemma more_letters_ok s : more_letters s = true <->
  exists l rest, Forall (fun c => (97 <= N_of_ascii c <= 122)%N) l /\ s = l ++ ":"%char :: "/"%char :: "/"%char :: rest.
Proof.
  induction s as [|c s IH].
  - split; [discriminate|]. intros ([|] & rest & _ & E); discriminate.
  - destruct (slashes_begin (c :: s)) as [[r E]|[E N]].
    + rewrite E. split; [|reflexivity]. intros _. exists [], r. split; [constructor|reflexivity].
    + rewrite E, andb_true_iff, lower_ok, IH. split.
      * intros (A & l & rest & F & ->). exists (c :: l), rest. split; [constructor; assumption|reflexivity].
      * intros ([|x l] & rest & F & D); [exfalso; exact (N _ D)|]. injection D as -> ->. inversion F; subst. split; [assumption|]. eauto.
Qed.

Lemma external_ok r : external_resource r = true <-> usual_uri r.
Proof.
  unfold usual_uri. destruct r as [|c s].
  - split; [discriminate|]. intros ([|] & rest & _ & _ & E); discriminate.
  - cbn [external_resource]. rewrite andb_true_iff, lower_ok, more_letters_ok. split.
    + intros (A & l & rest & F & ->). exists (c :: l), rest. split; [discriminate|]. split; [constructor; assumption|reflexivity].
    + intros ([|x l] & rest & N & F & D); [now elim N|]. injection D as -> ->. inversion F; subst. split; [assumption|]. eauto.
Qed.

Lemma attribute_in name l v : attribute name l = Some v -> In (name, v) l.
Proof.
  induction l as [|[k w] l IH]; [discriminate|]. cbn [attribute]. destruct (str_eqb k name) eqn:E.
  - apply str_eqb_eq in E. subst. intro H. injection H as ->. now left.
  - intro H. right. now apply IH.
Qed.

Lemma in_attribute name l v : NoDup (map fst l) -> In (name, v) l -> attribute name l = Some v.
Proof.
  induction l as [|[k w] l IH]; intros N I; [destruct I|]. cbn [map fst] in N. inversion N as [|? ? A B]; subst. cbn [attribute].
  destruct I as [I|I].
  - injection I as -> ->. now rewrite (proj2 (str_eqb_eq name name) eq_refl).
  - destruct (str_eqb k name) eqn:E; [|now apply IH]. apply str_eqb_eq in E. subst k. exfalso. apply A.
    apply in_map_iff. exists (name, v). auto.
Qed.

(** The element of the list of dependencies that is made from a reference *)
Definition resource (r : str) : json :=
  JObject [(lit "ref", JString r); (lit "origin", JString (lit "generated")); (lit "rel", JString (lit "resource"))].

Lemma deps_here l dep : In dep (deps_of_attributes l) <->
  exists a r, attribute a l = Some r /\ (a = lit "src" \/ a = lit "href") /\ external_resource r = false /\ dep = resource r.
Proof.
  unfold deps_of_attributes. rewrite in_flat_map. split.
  - intros (name & N & H). destruct (attribute (lit name) l) as [r|] eqn:E; [|destruct H].
    unfold make_dep_from_ref in H. destruct (external_resource r) eqn:X; [destruct H|]. destruct H as [<- | []].
    exists (lit name), r. split; [exact E|]. split; [destruct N as [<- | [<- | []]]; auto|auto].
  - intros (a & r & E & N & X & ->).
    assert (exists name, In name ["src"%string; "href"%string] /\ a = lit name) as (name & I & ->).
    { destruct N as [-> | ->]; eexists; (split; [|reflexivity]); cbn; auto. }
    exists name. split; [exact I|]. rewrite E. unfold make_dep_from_ref. rewrite X. now left.
Qed.

Lemma xml_induction (P : xml -> Prop) :
  (forall name attributes children, (forall c, In c children -> P c) -> P (Element name attributes children)) -> forall x, P x.
Proof.
  intro H. fix IH 1. intros [name attributes children]. apply H.
  induction children as [|c cs IHc]; intros x; [intros []|]. intros [E|I].
  - rewrite <- E. apply IH.
  - apply IHc. assumption.
Qed.

Lemma deps_below root dep : proper_document root ->
  In dep (deps_of_document root) <-> exists r, refers root r /\ ~ usual_uri r /\ dep = resource r.
Proof.
  revert dep. induction root as [name attributes children IH] using xml_induction. intros dep W. inversion W as [? ? ? N C]; subst.
  cbn [deps_of_document]. rewrite in_app_iff, deps_here, in_flat_map. split.
  - intros [(a & r & E & A & X & ->)|(c & I & H)].
    + exists r. split; [exact (refers_here _ _ _ a r (attribute_in _ _ _ E) A)|]. split; [|reflexivity].
      intro U. apply external_ok in U. congruence.
    + apply (IH c I dep (C c I)) in H. destruct H as (r & R & U & ->). exists r. split; [exact (refers_below _ _ _ c r I R)|auto].
  - intros (r & R & U & ->). inversion R as [? ? ? a ? I A|? ? ? c ? I B]; subst.
    + left. exists a, r. split; [exact (in_attribute _ _ _ N I)|]. split; [exact A|]. split; [|reflexivity].
      destruct (external_resource r) eqn:X; [|reflexivity]. exfalso. apply U, external_ok, X.
    + right. exists c. split; [exact I|]. apply (IH c I _ (C c I)). eauto.
Qed.

Lemma document_tags self file root tags r : file <> self -> proper_document root ->
  doc2html_get_tags self file (Some root) = Some tags ->
  asks_for tags r <-> refers root r /\ ~ usual_uri r.
Proof.
  intros N W H. unfold doc2html_get_tags in H. destruct (str_eqb file self) eqn:E; [now apply str_eqb_eq in E|]. injection H as <-.
  split.
  - intros (l & o & A & I & B & _). cbn in A. injection A as <-. apply (deps_below root _ W) in I. destruct I as (r' & R & U & X).
    injection X as ->. cbn in B. injection B as <-. auto.
  - intros [R U]. exists (deps_of_document root).
    eexists. split; [reflexivity|]. split; [apply (deps_below root _ W); exists r; split; [exact R|]; split; [exact U|reflexivity]|].
    split; reflexivity.
Qed.

(** ** Loading *)

Definition resource_dependency (src s t : path) (r : str) : dependency :=
  mk_dependency None (prepend_search_path src s t (parse_path r) Generated) Generated [mk_property (lit "rel") (lit "resource")].

Lemma resource_deps src s t l : (forall dep, In dep l -> exists r, dep = resource r) ->
  exists ds, map_all (fun item => match as_object item with Some o => get_dependency src s t Generated o | None => None end) l = Some ds /\
    forall d, In d ds <-> exists r, In (resource r) l /\ d = resource_dependency src s t r.
Proof.
  induction l as [|x l IH]; intro F.
  - exists []. split; [reflexivity|]. intro d. split; [intros []|]. intros (r & [] & _).
  - destruct (F x (or_introl eq_refl)) as [r ->]. destruct IH as (ds & E & H); [intros dep I; apply F; now right|].
    exists (resource_dependency src s t r :: ds). split.
    + cbn [map_all]. rewrite E. unfold resource. cbn [as_object]. unfold get_dependency, get, get_if.
      cbn - [prepend_search_path parse_path]. reflexivity.
    + intro d. cbn [In]. rewrite H. split.
      * intros [<- | (r' & I & ->)]; [exists r; auto|exists r'; auto].
      * intros (r' & [I|I] & ->); [injection I as <-; now left|right; eauto].
Qed.

Lemma document_loaded search print parse resolve configure script_tags cfg m s t d f text ext mode c n self root :
  reads_back parse print ->
  increasing (file_info_loaders (tree_loader cfg)) -> increasing (info_loaders cfg) -> map_loaders cfg = Some m ->
  directory_ok s -> directory_ok t -> Forall ordinary d -> ordinary f ->
  handled_by cfg f (KGeneric ext mode, c) -> use_get_tags c = true ->
  result_name f ext mode n -> ordinary n -> is_text n ->
  let src := append (inside s d) (mk_path false [f]) in
  path_string src <> self -> proper_document root ->
  script_tags c src = doc2html_get_tags self (path_string src) (Some root) ->
  exists info,
    load_configured search print src s t parse resolve configure script_tags (dir_compiler cfg) m (Some text) = Some info /\
    targets info = [mk_target_info (inside t (d ++ [n])) []] /\
    compiler_default info = Some c /\ build_deps info = [] /\ child_targets_use_deps info = [] /\
    (forall r, refers root r -> ~ usual_uri r -> In (resource_dependency src s t r) (use_deps info)) /\
    (forall x, In x (use_deps info) -> x = mk_dependency None (inside s d) Project [] \/ x = compiler_dependency c \/
      exists r, refers root r /\ ~ usual_uri r /\ x = resource_dependency src s t r).
Proof.
  intros RB I1 I2 M Hs Ht Hd Hf H G R On T src NS W ST. pose proof Hf as (F1 & F2 & F3 & F4).
  unfold doc2html_get_tags in ST. destruct (str_eqb (path_string src) self) eqn:ES; [now apply str_eqb_eq in ES|].
  assert (filename src = f) as FN by apply file_name.
  assert (source_file_dir src = inside s d) as SD by (apply file_dir; assumption).
  assert (make_target_name src s t (parse_path n) = inside t (d ++ [n])) as TN.
  { destruct On as (A & B & C & D). rewrite (parse_name n A D).
    destruct (locations s t d f Hs Ht Hd [n]) as (_ & _ & E & _); [repeat constructor; assumption|discriminate|exact E]. }
  clearbody src.
  unfold load_configured. rewrite (handled_match cfg m src (KGeneric ext mode, c) I1 I2 M) by (rewrite FN; exact H).
  rewrite FN. cbn [configured_loader kind_use_target_deps option_map]. unfold load_source_file.
  cbn [filter_input kind_filter_input find_dependencies kind_find_dependencies loader_compiler loader_use_target_deps map].
  unfold generic_tags. rewrite (result_name_eq f ext mode n F3 R), (print_name n On), (json_string_text n T).
  cbn [set_new]. change (obj_set (lit "name") (JString n) []) with [(lit "name", JString n)].
  change (obj_set (lit "target") (JObject [(lit "name", JString n)]) []) with [(lit "target", JObject [(lit "name", JString n)])].
  pose proof (RB _ (tags_valid n T)) as P. destruct (parse (print [(lit "target", JObject [(lit "name", JString n)])])) as [o|]; [|discriminate].
  cbn [option_map sort_keys insert_member] in P. injection P as ->.
  destruct (resource_deps src s t (deps_of_document root)) as (ds & ED & HD).
  { intros dep I. apply (deps_below root dep W) in I. destruct I as (r & _ & _ & ->). eauto. }
  set (deps := deps_of_document root) in *. 
  assert (UD : get_use_deps src s t [(lit "dependencies", JArray deps)] = Some ds).
  { unfold get_use_deps, get_dependencies, get_if. cbn [obj_get]. cbn - [map_all get_dependency]. exact ED. }
  assert (CD : get_child_target_use_deps src s t [(lit "dependencies", JArray deps)] = Some []) by reflexivity.
  assert (TD : get_targets src s t [(lit "dependencies", JArray deps)] = Some []) by reflexivity.
  unfold get_targets at 1, get_use_deps at 1, get_child_target_use_deps at 1, get_dependencies, get_if, get_target, get.
  cbn - [make_target_name parse_path get_targets get_use_deps get_child_target_use_deps]. rewrite G, ST.
  rewrite TD, UD, CD. rewrite TN.
  eexists. split; [reflexivity|]. cbn [targets compiler_default use_deps]. split; [reflexivity|]. split; [reflexivity|].
  split; [reflexivity|]. split; [reflexivity|]. split.
  - intros r R' U. apply in_or_app. right. apply in_or_app. left. apply HD. exists r. split; [|reflexivity]. apply (deps_below root _ W). eauto.
  - intros x X. apply in_app_or in X. destruct X as [X|X]; [|apply in_app_or in X; destruct X as [X|X]].
    + left. destruct (path_eqb s src || path_eqb src (recipe (dir_compiler cfg))); [destruct X|]. destruct X as [<- | []]. now rewrite SD.
    + right. right. apply HD in X. destruct X as (r & I & ->). apply (deps_below root _ W) in I. destruct I as (r' & R' & U & E).
      injection E as ->. eauto.
    + right. left. destruct (path_eqb (recipe c) empty_path); [destruct X|]. destruct X as [<- | []]. reflexivity.
Qed.

(** A document that can not be parsed *)
Lemma document_rejected search print parse resolve configure script_tags cfg m s t d f text ext mode c n self :
  reads_back parse print ->
  increasing (file_info_loaders (tree_loader cfg)) -> increasing (info_loaders cfg) -> map_loaders cfg = Some m ->
  directory_ok s -> directory_ok t -> Forall ordinary d -> ordinary f ->
  handled_by cfg f (KGeneric ext mode, c) -> use_get_tags c = true ->
  result_name f ext mode n -> ordinary n -> is_text n ->
  let src := append (inside s d) (mk_path false [f]) in
  path_string src <> self -> script_tags c src = doc2html_get_tags self (path_string src) None ->
  load_configured search print src s t parse resolve configure script_tags (dir_compiler cfg) m (Some text) = None.
Proof.
  intros RB I1 I2 M Hs Ht Hd Hf H G R On T src NS ST. pose proof Hf as (F1 & F2 & F3 & F4).
  unfold doc2html_get_tags in ST. destruct (str_eqb (path_string src) self) eqn:ES; [now apply str_eqb_eq in ES|].
  assert (filename src = f) as FN by apply file_name. clearbody src.
  unfold load_configured. rewrite (handled_match cfg m src (KGeneric ext mode, c) I1 I2 M) by (rewrite FN; exact H).
  rewrite FN. cbn [configured_loader kind_use_target_deps option_map]. unfold load_source_file.
  cbn [filter_input kind_filter_input find_dependencies kind_find_dependencies loader_compiler loader_use_target_deps map].
  unfold generic_tags. rewrite (result_name_eq f ext mode n F3 R), (print_name n On), (json_string_text n T).
  cbn [set_new]. change (obj_set (lit "name") (JString n) []) with [(lit "name", JString n)].
  change (obj_set (lit "target") (JObject [(lit "name", JString n)]) []) with [(lit "target", JObject [(lit "name", JString n)])].
  pose proof (RB _ (tags_valid n T)) as P. destruct (parse (print [(lit "target", JObject [(lit "name", JString n)])])) as [o|]; [|discriminate].
  cbn [option_map sort_keys insert_member] in P. injection P as ->.
  unfold get_targets at 1, get_use_deps at 1, get_child_target_use_deps at 1, get_dependencies, get_if, get_target, get.
  cbn - [make_target_name parse_path get_targets get_use_deps get_child_target_use_deps]. rewrite G, ST. reflexivity.
Qed.

Section Document.
  Context (search : str -> str -> bool) print parse (resolve : path -> option (path * origin))
    (configure : path -> compound -> option compound) script_tags cfg m s t d f c root
    (D : document parse print script_tags cfg m s t d f c root).
  Let src := append (inside s d) (mk_path false [f]).
  Let loads text := load_configured search print src s t parse resolve configure script_tags (dir_compiler cfg) m (Some text).

  Lemma doc_loaded text : exists info, loads text = Some info /\ compiler_default info = Some c /\
      (forall r, refers root r -> ~ usual_uri r -> In (resource_dependency src s t r) (use_deps info)) /\
      (forall x, In x (use_deps info) -> dep_name x = inside s d \/ dep_name x = recipe c \/
        exists r, refers root r /\ ~ usual_uri r /\ x = resource_dependency src s t r).
  Proof.
    destruct D as [RB [I1 I2] M [Hs Ht] [Hd Hf] (ext & mode & n & H & G & R & On & T) W (self & NS & ST)].
    destruct (document_loaded search print parse resolve configure script_tags cfg m s t d f text ext mode c n self root
                RB I1 I2 M Hs Ht Hd Hf H G R On T NS W ST) as (info & L & _ & C & _ & _ & A & B).
    exists info. split; [exact L|]. split; [exact C|]. split; [exact A|].
    intros x I. destruct (B x I) as [-> | [-> | H0]]; auto.
  Qed.

  Lemma dot_not_uri x : x <> [] -> ~ usual_uri (spelled (dot :: x)).
  Proof.
    intros N ([|a l] & rest & NL & F & E); [now elim NL|]. inversion F as [|? ? [A _]]; subst.
    destruct x as [|y x]; [now elim N|]. unfold spelled, path_string in E. cbn in E. injection E as <- _. cbv in A. now elim A.
  Qed.

  Lemma scheme_not_uri r : ~ has_scheme r -> ~ usual_uri r.
  Proof.
    intros N ([|a l] & rest & NL & F & ->); [now elim NL|]. inversion F; subst. apply N.
    exists a, l, ("/"%char :: "/"%char :: rest). split; [reflexivity|]. split; [right; assumption|].
    eapply Forall_impl; [|eassumption]. intros x X. left. right. exact X.
  Qed.

  Lemma plain_ordinary x : Forall plain_name x -> Forall ordinary x.
  Proof. apply Forall_impl. intros a [H _]. exact H. Qed.

  Lemma doc_depends text info r q : loads text = Some info -> refers root r -> points_to t d r q ->
    d = [] \/ (exists rest, r = lit "./" ++ rest) ->
    exists x, In x (use_deps info) /\ dep_name x = q /\ dep_origin x = Generated.
  Proof.
    intros L R P Q. destruct (doc_loaded text) as (info' & L' & _ & A & _). rewrite L in L'. injection L' as <-.
    destruct D as [_ _ _ [Hs Ht] [Hd Hf] _ _ _]. exists (resource_dependency src s t r).
    destruct P as [x O N|x O N NS]; apply plain_ordinary in O.
    - split; [apply A; [exact R|exact (dot_not_uri x N)]|]. split; [|reflexivity]. cbn [resource_dependency dep_name].
      rewrite parse_spelled by (try discriminate; auto using dot_pieces). apply (locations s t d f Hs Ht Hd x O N).
    - split; [apply A; [exact R|exact (scheme_not_uri _ NS)]|]. split; [|reflexivity]. cbn [resource_dependency dep_name].
      rewrite parse_spelled by auto using ordinary_pieces.
      destruct (locations s t d f Hs Ht Hd x O N) as (_ & _ & _ & _ & E). unfold src. rewrite E.
      destruct Q as [-> | [rest Q]]; [reflexivity|]. exfalso. pose proof (string_not_local x O) as X. fold (spelled x) in X.
      rewrite Q in X. discriminate X.
  Qed.

  Lemma doc_plain text info x : loads text = Some info -> refers root (spelled x) -> Forall plain_name x -> x <> [] -> ~ has_scheme (spelled x) ->
    exists y, In y (use_deps info) /\ dep_name y = inside t x /\ dep_origin y = Generated.
  Proof.
    intros L R O N NS. apply plain_ordinary in O. destruct (doc_loaded text) as (info' & L' & _ & A & _). rewrite L in L'. injection L' as <-.
    destruct D as [_ _ _ [Hs Ht] [Hd Hf] _ _ _]. exists (resource_dependency src s t (spelled x)).
    split; [apply A; [exact R|exact (scheme_not_uri _ NS)]|]. split; [|reflexivity]. cbn [resource_dependency dep_name].
    rewrite parse_spelled by auto using ordinary_pieces. apply (locations s t d f Hs Ht Hd x O N).
  Qed.

  Lemma doc_only text info x : loads text = Some info -> In x (use_deps info) ->
    dep_name x = inside s d \/ dep_name x = recipe c \/
    exists r, refers root r /\ ~ usual_uri r /\ dep_name x = prepend_search_path src s t (parse_path r) Generated.
  Proof.
    intros L I. destruct (doc_loaded text) as (info' & L' & _ & _ & B). rewrite L in L'. injection L' as <-.
    destruct (B x I) as [H|[H|(r & R & U & ->)]]; auto. right. right. exists r. auto.
  Qed.

  (** A reference that is no file of the project *)
  Lemma doc_unknown text info r fs : loads text = Some info -> refers root r -> ~ usual_uri r -> ordinary r ->
    scanned fs -> In (src, info) fs -> ~ available fs (inside t [r]) -> forall x, load_project fs <> Loaded x.
  Proof.
    intros L R U O S I NA x E. destruct (doc_loaded text) as (info' & L' & _ & A & _). rewrite L in L'. injection L' as <-.
    destruct D as [_ _ _ [Hs Ht] [Hd Hf] _ _ _].
    assert (dep_name (resource_dependency src s t r) = inside t [r]) as EN.
    { cbn [resource_dependency dep_name]. pose proof O as (A1 & A2 & A3 & A4). rewrite (parse_name r A1 A4).
      destruct (locations s t d f Hs Ht Hd [r]) as (_ & _ & _ & _ & EQ); [repeat constructor; assumption|discriminate|exact EQ]. }
    destruct (load_project_graph fs S) as [(_ & n & E1 & _)|[_ [(_ & E1)|[_ [(_ & E1)|(F & _)]]]]]; try congruence.
    apply NA. rewrite <- EN. apply F. exact (needed_by_source fs src info _ I (A r R U)).
  Qed.
End Document.
