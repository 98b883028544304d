From Coq Require Import Ascii String NArith Bool Arith Lia.
From Coq Require Import List.
From Verif Require Import Str Path PathProofs JsonModel JsonSpec JsonProofs DbModel ValueModel LoadModel LoadSpec LoadProofs LocProofs LexModel.
From Verif Require Import RecipeModel RecipeSpec RecipeProofs CfgModel CfgSpec CfgProofs TreeProofs Utf8Proofs KindModel KindSpec LoadSpec.
Import ListNotations.

(** ** Which loader handles a file *)

Lemma extension_same_length f e1 e2 : extension_of f e1 -> extension_of f e2 -> length e1 = length e2 -> e1 = e2.
Proof.
  intros (s1 & r1 & E1 & _) (s2 & r2 & E2 & _) L. rewrite E1 in E2.
  assert (length s1 = length s2) as LS by (apply (f_equal (@length ascii)) in E2; rewrite !app_length in E2; lia).
  clear E1 r1 r2 L. revert s2 E2 LS. induction s1 as [|c s1 IH]; intros [|c' s2] E LS; cbn in *; try discriminate; [assumption|].
  injection E as _ E. apply (IH s2); congruence.
Qed.

Lemma increasing_nodup {V} (m : list (str * V)) : increasing m -> forall k a b, In (k, a) m -> In (k, b) m -> a = b.
Proof.
  induction 1 as [|e m S IH F]; intros k a b A B; [destruct A|].
  rewrite Forall_forall in F. destruct A as [A|A], B as [B|B].
  - congruence.
  - subst e. specialize (F _ B). cbn in F. rewrite str_compare_refl in F. discriminate.
  - subst e. specialize (F _ A). cbn in F. rewrite str_compare_refl in F. discriminate.
  - exact (IH _ _ _ A B).
Qed.

Lemma loader_for_unique c e l1 l2 : increasing (file_info_loaders (tree_loader c)) -> increasing (info_loaders c) ->
  loader_for c e l1 -> loader_for c e l2 -> l1 = l2.
Proof.
  intros I1 I2 (n1 & A1 & B1) (n2 & A2 & B2). pose proof (increasing_nodup _ I1 _ _ _ A1 A2). subst n2.
  exact (increasing_nodup _ I2 _ _ _ B1 B2).
Qed.

Lemma handled_match c m p l :
  increasing (file_info_loaders (tree_loader c)) -> increasing (info_loaders c) -> map_loaders c = Some m ->
  handled_by c (filename p) l -> match_longest_extension p m = Some l.
Proof.
  intros I1 I2 M (e & X & L & H). pose proof (loader_of_file c m p I1 I2 M) as P.
  destruct (match_longest_extension p m) as [l'|].
  - destruct P as (e' & X' & L' & H'). f_equal.
    assert (e = e').
    { apply (extension_same_length (filename p)); [assumption..|]. pose proof (H _ _ X' L'). pose proof (H' _ _ X L). lia. }
    subst e'. exact (loader_for_unique c e _ _ I1 I2 L' L).
  - destruct (P e l X L).
Qed.

(** ** Names of results *)

Lemma dotted_eq ext e : dotted ext e ->
  match ext with [] => [] | c :: _ => if Ascii.eqb c "." then ext else "."%char :: ext end = e.
Proof.
  intros [E|e' E|c e' E N]; subst ext; cbn; [reflexivity|reflexivity|].
  destruct (Ascii.eqb_spec c "."); [congruence|reflexivity].
Qed.

Lemma stem_unique a b x y : a ++ "."%char :: x = b ++ "."%char :: y -> ~ In "."%char x -> ~ In "."%char y -> a = b.
Proof.
  revert b. induction a as [|c a IH]; intros [|d b] E NX NY; cbn in E.
  - reflexivity.
  - injection E as <- E. exfalso. apply NX. rewrite E. apply in_or_app. right. now left.
  - injection E as -> E. exfalso. apply NY. rewrite <- E. apply in_or_app. right. now left.
  - injection E as <- E. f_equal. exact (IH b E NX NY).
Qed.

Lemma result_name_eq f ext mode n : f <> lit ".." -> result_name f ext mode n -> generic_target_name f ext mode = n.
Proof.
  intros ND [|stem e (x & E & NE & NX) D|e N D]; cbn [generic_target_name].
  - reflexivity.
  - unfold replace_extension. rewrite (dotted_eq _ _ D). destruct (split_extension f) as [[st ex]|] eqn:S.
    + destruct (split_extension_some _ _ _ S) as (w & -> & E' & NW & _). rewrite E in E'.
      now rewrite (stem_unique _ _ _ _ E' NX NW).
    + destruct (split_extension_none _ S) as [S'|S']; [contradiction|]. destruct (NE (S' _ _ E)).
  - unfold replace_extension. rewrite (dotted_eq _ _ D). destruct (split_extension f) as [[st ex]|] eqn:S; [|reflexivity].
    destruct (split_extension_some _ _ _ S) as (w & -> & E' & NW & NS & _). destruct (N st). exists w. auto.
Qed.

(** ** Loading *)

Lemma file_name s d f : filename (append (inside s d) (mk_path false [f])) = f.
Proof. unfold filename, append. cbn [absolute comps]. cbn. apply last_last. Qed.

Lemma print_name n : ordinary n -> path_string (parse_path n) = n.
Proof.
  intros (A & _ & _ & B). rewrite (parse_name n A B). reflexivity.
Qed.

Lemma tags_valid n : is_text n -> valid_json (JObject [(lit "target", JObject [(lit "name", JString n)])]).
Proof.
  intro T.
  assert (TL : forall x, In x [lit "target"; lit "name"] -> is_text x).
  { intros x [<- | [<- | []]].
    - exists [116; 97; 114; 103; 101; 116]%N. split; [|reflexivity]. repeat constructor; left; reflexivity.
    - exists [110; 97; 109; 101]%N. split; [|reflexivity]. repeat constructor; left; reflexivity. }
  constructor; [repeat constructor; intros []|]. intros k v [E|[]]. injection E as <- <-. split; [apply TL; cbn; auto|].
  constructor; [repeat constructor; intros []|]. intros k v [E|[]]. injection E as <- <-. split; [apply TL; cbn; auto|].
  constructor. exact T.
Qed.

Lemma generic_loaded search print parse resolve configure script_tags cfg m s t d f text ext mode c n :
  reads_back parse print ->
  increasing (file_info_loaders (tree_loader cfg)) -> increasing (info_loaders cfg) -> map_loaders cfg = Some m ->
  directory_ok s -> directory_ok t -> Forall ordinary d -> ordinary f ->
  handled_by cfg f (KGeneric ext mode, c) -> use_get_tags c = false ->
  result_name f ext mode n -> ordinary n -> is_text n ->
  exists info,
    load_configured search print (append (inside s d) (mk_path false [f])) s t parse resolve configure script_tags
      (dir_compiler cfg) m (Some text) = Some info /\
    targets info = [mk_target_info (inside t (d ++ [n])) []] /\
    compiler_default info = Some c /\ si_compiler info = no_compiler /\
    (forall x, In x (use_deps info) -> dep_name x = inside s d \/ dep_name x = recipe c).
Proof.
  intros RB I1 I2 M Hs Ht Hd Hf H G R On T. pose proof Hf as (F1 & F2 & F3 & F4).
  set (src := append (inside s d) (mk_path false [f])).
  assert (filename src = f) as FN by apply file_name.
  assert (source_file_dir src = inside s d) as SD by (apply file_dir; assumption).
  assert (make_target_name src s t (parse_path n) = inside t (d ++ [n])) as TN.
  { destruct On as (A & B & C & D). rewrite (parse_name n A D).
    destruct (locations s t d f Hs Ht Hd [n]) as (_ & _ & E & _); [repeat constructor; assumption|discriminate|exact E]. }
  clearbody src.
  unfold load_configured. rewrite (handled_match cfg m src (KGeneric ext mode, c) I1 I2 M) by (rewrite FN; exact H).
  rewrite FN. cbn [configured_loader kind_use_target_deps option_map]. unfold load_source_file.
  cbn [filter_input kind_filter_input find_dependencies kind_find_dependencies loader_compiler loader_use_target_deps map].
  unfold generic_tags. rewrite (result_name_eq f ext mode n F3 R), (print_name n On), (json_string_text n T).
  cbn [set_new]. change (obj_set (lit "name") (JString n) []) with [(lit "name", JString n)].
  change (obj_set (lit "target") (JObject [(lit "name", JString n)]) []) with [(lit "target", JObject [(lit "name", JString n)])].
  pose proof (RB _ (tags_valid n T)) as P. destruct (parse (print [(lit "target", JObject [(lit "name", JString n)])])) as [o|]; [|discriminate].
  cbn [option_map sort_keys insert_member] in P. injection P as ->.
  unfold get_targets, get_use_deps, get_child_target_use_deps, get_dependencies, get_if, get_target, get.
  cbn - [make_target_name parse_path]. rewrite G. rewrite TN. cbn [app].
  eexists. split; [reflexivity|]. cbn [targets compiler_default si_compiler use_deps].
  repeat split. intros x X.
  apply in_app_or in X. destruct X as [X|X].
  - left. destruct (path_eqb s src || path_eqb src (recipe (dir_compiler cfg))); [destruct X|]. destruct X as [<- | []]. exact SD.
  - right. cbn in X. destruct (path_eqb (recipe c) empty_path); [destruct X|]. destruct X as [<- | []]. reflexivity.
Qed.

Lemma no_name_valid : valid_json (JObject [(lit "target", JObject [])]).
Proof.
  constructor; [repeat constructor; intros []|]. intros k v [E|[]]. injection E as <- <-. split.
  - exists [116; 97; 114; 103; 101; 116]%N. split; [|reflexivity]. repeat constructor; left; reflexivity.
  - constructor; [constructor|]. intros k v [].
Qed.

Lemma generic_not_text search print parse resolve configure script_tags cfg m s t d f text ext mode c n :
  reads_back parse print ->
  increasing (file_info_loaders (tree_loader cfg)) -> increasing (info_loaders cfg) -> map_loaders cfg = Some m ->
  ordinary f -> handled_by cfg f (KGeneric ext mode, c) ->
  result_name f ext mode n -> ordinary n -> ~ is_text n ->
  load_configured search print (append (inside s d) (mk_path false [f])) s t parse resolve configure script_tags
    (dir_compiler cfg) m (Some text) = None.
Proof.
  intros RB I1 I2 M Hf H R On T. pose proof Hf as (F1 & F2 & F3 & F4).
  set (src := append (inside s d) (mk_path false [f])).
  assert (filename src = f) as FN by apply file_name. clearbody src.
  unfold load_configured. rewrite (handled_match cfg m src (KGeneric ext mode, c) I1 I2 M) by (rewrite FN; exact H).
  rewrite FN. cbn [configured_loader kind_use_target_deps option_map]. unfold load_source_file.
  cbn [filter_input kind_filter_input find_dependencies kind_find_dependencies loader_compiler loader_use_target_deps map].
  unfold generic_tags. rewrite (result_name_eq f ext mode n F3 R), (print_name n On), (json_string_not_text n T).
  cbn [set_new]. change (obj_set (lit "target") (JObject []) []) with [(lit "target", JObject [])].
  pose proof (RB _ no_name_valid) as P. destruct (parse (print [(lit "target", JObject [])])) as [o|]; [|reflexivity].
  cbn [option_map sort_keys insert_member] in P. injection P as ->. reflexivity.
Qed.

Lemma append_apart (t : path) (d1 d2 : list str) (f1 f2 ext n1 n2 : str) :
  Forall ordinary d1 -> Forall ordinary d2 ->
  result_name f1 ext Append n1 -> result_name f2 ext Append n2 -> ordinary n1 -> ordinary n2 ->
  inside t (d1 ++ [n1]) = inside t (d2 ++ [n2]) -> d1 = d2 /\ f1 = f2.
Proof.
  intros D1 D2 R1 R2 O1 O2 E. apply inside_inj in E; [|apply Forall_app; split; auto..].
  apply app_inj_tail in E. destruct E as [E1 E2]. split; [exact E1|]. 
  assert (n1 = f1 ++ ext) as -> by (inversion R1; reflexivity). assert (n2 = f2 ++ ext) as -> by (inversion R2; reflexivity).
  exact (app_inv_tail _ _ _ E2).
Qed.

(** ** The configuration of a generic loader *)

Lemma generic_configured regex_ok o g k c : loader_of_json regex_ok (JObject o) = Some (k, c) ->
  obj_get (lit "loader") o = Some (JString (lit "generic")) -> obj_get (lit "config") o = Some (JObject g) ->
  exists ext mode, k = KGeneric ext mode /\ obj_get (lit "target_filename_ext") g = Some (JString ext) /\
    (mode = Replace <-> obj_get (lit "filename_ext_replacement_mode") g = Some (JString (lit "replace"))).
Proof.
  intros H L G. unfold loader_of_json in H. cbn [as_object] in H. unfold get at 1 in H. rewrite L in H. cbn [as_string] in H.
  destruct (get compiler_of_json (lit "compiler") o) as [c'|]; [|discriminate].
  change (str_eqb (lit "generic") (lit "app")) with false in H.
  change (str_eqb (lit "generic") (lit "cxx_src_loader")) with false in H.
  change (str_eqb (lit "generic") (lit "extension")) with false in H.
  change (str_eqb (lit "generic") (lit "maikerule")) with false in H.
  change (str_eqb (lit "generic") (lit "generic")) with true in H. cbv iota in H.
  unfold make_instance, get_if in H. rewrite G in H. unfold generic_of_json in H. cbn [as_object] in H.
  unfold get, get_if in H. destruct (obj_get (lit "target_filename_ext") g) as [[]|]; try discriminate. cbn [as_string] in H.
  destruct (obj_get (lit "filename_ext_replacement_mode") g) as [j|].
  - destruct j; try discriminate. cbn [as_string] in H. unfold ext_mode_of_string in H.
    destruct (str_eqb s0 (lit "append")) eqn:N1; [apply str_eqb_eq in N1; subst s0|].
    + cbn in H. injection H as <- <-. eexists _, _. split; [reflexivity|]. split; [reflexivity|]. split; [discriminate|].
      intro X. discriminate X.
    + destruct (str_eqb s0 (lit "replace")) eqn:N2; [apply str_eqb_eq in N2; subst s0|discriminate].
      cbn in H. injection H as <- <-. eexists _, _. split; [reflexivity|]. split; [reflexivity|]. split; reflexivity.
  - cbn in H. injection H as <- <-. eexists _, _. split; [reflexivity|]. split; [reflexivity|]. split; discriminate.
Qed.
