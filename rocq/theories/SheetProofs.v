(** Proofs about the pages made from documents. *)

From Coq Require Import Ascii String Bool Lia.
From Coq Require Import List.
From Verif Require Import Str PathProofs DocModel SheetModel SheetSpec.
Import ListNotations.

(** * Lists *)

Lemma sub_nil {A} (m : list A) : subsequence [] m.
Proof. induction m; [apply sub_end|now apply sub_skip]. Qed.

Lemma sub_refl {A} (m : list A) : subsequence m m.
Proof. induction m; [apply sub_end|now apply sub_take]. Qed.

Lemma sub_app {A} (a b c d : list A) : subsequence a b -> subsequence c d -> subsequence (a ++ c) (b ++ d).
Proof.
  intros H K. induction H; cbn.
  - exact K.
  - now apply sub_skip.
  - now apply sub_take.
Qed.

Lemma sub_right {A} (a b c : list A) : subsequence a b -> subsequence a (c ++ b).
Proof. intro H. exact (sub_app [] c a b (sub_nil c) H). Qed.

Lemma sub_left {A} (a b c : list A) : subsequence a b -> subsequence a (b ++ c).
Proof. intro H. rewrite <- (app_nil_r a). apply sub_app; [exact H|apply sub_nil]. Qed.

Lemma sub_flat {A B} (f g : A -> list B) l : (forall k, In k l -> subsequence (f k) (g k)) ->
  subsequence (flat_map f l) (flat_map g l).
Proof. induction l as [|x l IH]; cbn; intro H; [apply sub_end|]. apply sub_app; [apply H; now left|apply IH; intros k K; apply H; now right]. Qed.

Lemma flat_flat {A B C} (f : B -> list C) (g : A -> list B) l : flat_map f (flat_map g l) = flat_map (fun k => flat_map f (g k)) l.
Proof. induction l as [|x l IH]; [reflexivity|]. cbn. now rewrite flat_map_app, IH. Qed.

Lemma visible_app a b : visible (a ++ b) = visible a ++ visible b.
Proof. apply filter_app. Qed.

Lemma visible_flat {A} (f : A -> list str) l : visible (flat_map f l) = flat_map (fun k => visible (f k)) l.
Proof. induction l as [|x l IH]; [reflexivity|]. cbn [flat_map]. now rewrite visible_app, IH. Qed.

(** * Names *)

Lemma named_iff s name : named s name = true <-> name = lit s.
Proof. apply str_eqb_eq. Qed.

Lemma named_no s name : name <> lit s -> named s name = false.
Proof. intro N. apply not_true_is_false. now rewrite named_iff. Qed.

Lemma one_of_iff l name : one_of l name = true <-> among l name.
Proof.
  unfold one_of, among. rewrite existsb_exists, in_map_iff. split.
  - intros (s & I & E). apply named_iff in E. now exists s.
  - intros (s & E & I). exists s. split; [exact I|]. now apply named_iff.
Qed.

Lemma one_of_no l name : ~ among l name -> one_of l name = false.
Proof. intro N. apply not_true_is_false. now rewrite one_of_iff. Qed.

Lemma blank_visible s : blank s -> visible [s] = [].
Proof.
  intro B. unfold visible. cbn. replace (blankb s) with true; [reflexivity|]. symmetry. apply forallb_forall. intros c I.
  apply existsb_exists. exists c. split; [exact (B c I)|apply Ascii.eqb_refl].
Qed.

Definition usual (above : list str) : Prop := below "property-list" above = false /\ below "enum" above = false.

Lemma usual_cons name above : name <> lit "property-list" -> name <> lit "enum" -> usual (name :: above).
Proof. intros A B. split; cbn; now apply named_no. Qed.

Lemma other_not s name : among special (lit s) -> ~ among special name -> name <> lit s.
Proof. intros I N ->. contradiction. Qed.

Ltac in_list := cbn; repeat (first [left; reflexivity | right]); fail.
Ltac special_name := unfold among, special, sections; cbn [map app]; repeat first [left; reflexivity | right].

Lemma usual_other name above : ~ among special name -> usual (name :: above).
Proof. intro N. apply usual_cons; apply other_not; [special_name|exact N|special_name|exact N]. Qed.

Lemma appendix_other name above : ~ among special name -> in_appendix (name :: above) = in_appendix above.
Proof. intro N. cbn. rewrite named_no; [reflexivity|]. apply other_not; [special_name|exact N]. Qed.

Lemma choose_other above name : ~ among special name -> usual above ->
  choose above name = TCopy \/ choose above name = TCaption.
Proof.
  intros N [U1 U2]. unfold choose. rewrite U1, U2, !andb_false_r.
  rewrite (named_no "document"), (named_no "property-list"), (named_no "enum"), (named_no "manpage"), (named_no "ref"),
    (named_no "tableofcontents"); try (apply other_not; [special_name|exact N]).
  rewrite (one_of_no section_names), (one_of_no ["prelims"; "main"; "appendix"]%string).
  - cbn [andb]. destruct (named "caption" name && below "figure" above); [now right|now left].
  - intros I. apply N. cbn in I. destruct I as [<-|[<-|[<-|[]]]]; special_name.
  - intros I. apply N. unfold among, special. rewrite map_app. apply in_or_app. now left.
Qed.

Lemma section_cases (P : str -> Prop) : P (lit "chapter") -> P (lit "section") -> P (lit "subsection") -> P (lit "subsubsection") ->
  P (lit "paragraph") -> forall name, among sections name -> P name.
Proof. intros A B C D E name I. cbn in I. now destruct I as [<-|[<-|[<-|[<-|[<-|[]]]]]]. Qed.

Lemma choose_section above name : among sections name -> choose above name = TSection.
Proof. revert name. apply section_cases; reflexivity. Qed.

Lemma usual_section name above : among sections name -> usual (name :: above).
Proof. revert name. apply section_cases; now split. Qed.

Lemma appendix_section name above : among sections name -> in_appendix (name :: above) = in_appendix above.
Proof. revert name. apply section_cases; reflexivity. Qed.

(** * Texts *)

Lemma text_texts s a : visible (attribute_texts [s] a) = visible (flat_map texts (text (value_of s a))).
Proof. unfold attribute_texts, value_of. cbn. destruct (attribute (lit s) a) as [[|c v]|]; reflexivity. Qed.

Definition shown (above : list str) (root n : node) : Prop :=
  subsequence (visible (pieces (hd [] above) n)) (visible (flat_map texts (apply Plain root above n))).

Lemma shown_all above root kids : (forall k, In k kids -> shown above root k) ->
  subsequence (visible (flat_map (pieces (hd [] above)) kids)) (visible (flat_map texts (flat_map (apply Plain root above) kids))).
Proof. intro H. rewrite flat_flat, !visible_flat. apply sub_flat. exact H. Qed.

Lemma shown_some above root (f : node -> bool) kids : (forall k, In k kids -> f k = true -> shown above root k) ->
  (forall k, In k kids -> f k = false -> exists s, k = Text s /\ blank s) ->
  subsequence (visible (flat_map (pieces (hd [] above)) kids))
              (visible (flat_map texts (flat_map (fun k => if f k then apply Plain root above k else []) kids))).
Proof.
  intros H K. rewrite flat_flat, !visible_flat. apply sub_flat. intros k I. destruct (f k) eqn:E; [exact (H k I E)|].
  destruct (K k I E) as (s & -> & B). cbn [pieces]. rewrite (blank_visible s B). apply sub_end.
Qed.

Lemma not_element k : is_element k = false -> exists s, k = Text s.
Proof. destruct k; try discriminate. eauto. Qed.

Lemma blanks_only kids k : only_blanks kids -> In k kids -> is_element k = false -> exists s, k = Text s /\ blank s.
Proof. intros B I E. destruct (not_element _ E) as (s & ->). eauto. Qed.

Lemma section_texts name suffix a content :
  flat_map texts [section_of name suffix a content] = flat_map texts (text (value_of "title" a)) ++ flat_map texts content.
Proof. cbn. now rewrite !app_nil_r. Qed.

Lemma shown_attr_section parent name : among sections name -> shown_attributes parent name = ["title"%string].
Proof. revert name. apply section_cases; reflexivity. Qed.

Lemma shown_attr_other parent name : ~ among special name -> parent <> lit "property-list" -> parent <> lit "enum" ->
  shown_attributes parent name = [].
Proof.
  intros N P1 P2. unfold shown_attributes.
  replace (existsb (str_eqb name) (map lit ("document"%string :: sections))) with false.
  - change (str_eqb name (lit "manpage")) with (named "manpage" name). rewrite named_no by (apply other_not; [special_name|exact N]).
    change (str_eqb parent (lit "property-list")) with (named "property-list" parent). rewrite named_no by assumption.
    change (str_eqb parent (lit "enum")) with (named "enum" parent). rewrite (named_no "enum") by assumption. now rewrite !andb_false_r.
  - symmetry. apply not_true_is_false. rewrite existsb_exists. intros (x & I & E). apply str_eqb_eq in E. subst x. apply N.
    unfold among, special. rewrite map_app. apply in_or_app. destruct I as [<-|I]; [right; special_name|now left].
Qed.

Lemma usual_parent above : usual above -> hd [] above <> lit "property-list" /\ hd [] above <> lit "enum".
Proof.
  intros [A B]. destruct above as [|p above]; [split; discriminate|]. cbn in *. split; intros ->; discriminate.
Qed.

Lemma section_appendix root above name a kids : among sections name ->
  flat_map texts (apply Appendix root above (Elem name a kids)) = flat_map texts (apply Plain root above (Elem name a kids)).
Proof.
  intro S. cbn [apply]. rewrite (choose_section _ _ S).
  replace (one_of section_names name) with true by (symmetry; now apply one_of_iff). now rewrite !section_texts.
Qed.

Lemma own_text s kids : In (Text s) kids -> s <> [] -> flat_map string_value kids <> [].
Proof.
  intros I N E. apply N. destruct s as [|c s]; [reflexivity|]. exfalso.
  assert (J : In c (flat_map string_value kids)) by (apply in_flat_map; exists (Text (c :: s)); split; [exact I|now left]).
  rewrite E in J. destruct J.
Qed.

Lemma shown_cell s a : visible (attribute_texts [s] a) = visible (flat_map texts (text (value_of s a)) ++ []).
Proof. now rewrite app_nil_r, text_texts. Qed.

(** ** What is as in HTML *)

Lemma markup_name name a kids : markup (Elem name a kids) -> ~ among special name /\ forall k, In k kids -> markup k.
Proof. inversion 1; subst. now split. Qed.

Lemma appendix_markup root above name a kids : ~ among special name ->
  apply Appendix root above (Elem name a kids) = [HElem name a (flat_map (apply Appendix root (name :: above)) kids)].
Proof.
  intro N. cbn [apply]. destruct (one_of section_names name) eqn:E; [|reflexivity]. exfalso. apply N. apply one_of_iff in E.
  unfold among, special. rewrite map_app. apply in_or_app. now left.
Qed.

Lemma flat_texts (f g : node -> list html) l : (forall k, In k l -> flat_map texts (f k) = flat_map texts (g k)) ->
  flat_map texts (flat_map f l) = flat_map texts (flat_map g l).
Proof.
  intro H. rewrite !flat_flat. induction l as [|k l IH]; [reflexivity|]. cbn [flat_map]. rewrite (H k (or_introl eq_refl)). f_equal.
  apply IH. intros x I. apply H. now right.
Qed.

Lemma markup_texts n : markup n -> forall root above root' above', usual above ->
  flat_map texts (apply Appendix root' above' n) = flat_map texts (apply Plain root above n).
Proof.
  induction 1 as [s|name a kids N K IH]; intros root above root' above' U; [reflexivity|].
  rewrite (appendix_markup _ _ _ _ _ N). cbn [apply].
  assert (E : flat_map texts (flat_map (apply Appendix root' (name :: above')) kids) = flat_map texts (flat_map (apply Plain root (name :: above)) kids)).
  { apply flat_texts. intros k I. exact (IH k I root (name :: above) root' (name :: above') (usual_other _ _ N)). }
  destruct (choose_other above name N U) as [C|C]; rewrite C; cbn [flat_map texts]; now rewrite E.
Qed.

Lemma flow_shown app n : flow app n -> forall root above, usual above -> in_appendix above = app -> shown above root n.
Proof.
  induction 1 as [app s|app name a kids N _ IH|app name a kids S B _ IH|app a kids C _ IH|app a|app a|app a kids B P _ IH|
    app a kids B P _ IH|app a a' kids B _ IH G];
    intros root above U A; unfold shown.
  - apply sub_refl.
  - destruct (usual_parent _ U) as [P1 P2]. cbn [pieces]. rewrite (shown_attr_other _ _ N P1 P2). cbn [attribute_texts flat_map List.app].
    pose proof (shown_all (name :: above) root kids (fun k I => IH k I root (name :: above) (usual_other _ above N)
      (eq_trans (appendix_other _ above N) A))) as H. cbn [hd] in H.
    cbn [apply]. destruct (choose_other above name N U) as [-> | ->]; cbn [flat_map texts]; rewrite app_nil_r; exact H.
  - cbn [pieces]. rewrite (shown_attr_section _ _ S), visible_app, text_texts. cbn [apply]. rewrite (choose_section above name S), section_texts, visible_app.
    apply sub_app; [apply sub_refl|]. apply (shown_some (name :: above)).
    + intros k I E. apply (IH k I); [now apply usual_section|]. now rewrite appendix_section.
    + intros k I E. exact (blanks_only kids k B I E).
  - cbn [pieces]. change (shown_attributes (hd [] above) (lit "ref")) with (@nil string). cbn [attribute_texts flat_map List.app].
    assert (H := shown_all (lit "ref" :: above) root kids (fun k I => IH k I root (lit "ref" :: above) (conj eq_refl eq_refl) A)).
    cbn [hd] in H. cbn [apply]. change (choose above (lit "ref")) with TRef. cbn [flat_map texts]. rewrite app_nil_r.
    destruct kids as [|k kids]; [apply sub_nil|].
    destruct C as (s & I & Ns); [discriminate|]. pose proof (own_text s _ I Ns) as Nt.
    destruct (flat_map string_value (k :: kids)); [contradiction|exact H].
  - cbn [pieces apply]. change (choose above (lit "manpage")) with TManpage.
    change (shown_attributes (hd [] above) (lit "manpage")) with ["name"; "section"]%string.
    cbn [flat_map texts]. rewrite !app_nil_r, flat_map_app.
    replace (attribute_texts ["name"; "section"]%string a) with (attribute_texts ["name"]%string a ++ attribute_texts ["section"]%string a)
      by (unfold attribute_texts; now rewrite <- flat_map_app).
    rewrite visible_app, !text_texts, !visible_app. apply sub_app; [apply sub_refl|]. apply sub_right. apply sub_left. apply sub_refl.
  - apply sub_nil.
  - cbn [pieces apply]. change (choose above (lit "property-list")) with TPropertyList.
    change (shown_attributes (hd [] above) (lit "property-list")) with (@nil string). cbn [attribute_texts flat_map List.app texts].
    rewrite app_nil_r, visible_app. apply sub_right. apply (shown_some (lit "property-list" :: above) root (is_named "property") kids).
    + intros k I E. assert (El : is_element k = true) by (destruct k; [reflexivity|discriminate|discriminate]).
      destruct (P k I El) as (b & types & descs & -> & B' & Ty & De). unfold shown.
      cbn [hd pieces apply]. change (choose (lit "property-list" :: above) (lit "property")) with TProperty.
      change (shown_attributes (lit "property-list") (lit "property")) with ["name"%string].
      assert (Q : forall t, In t (types ++ descs) -> shown (lit "property" :: lit "property-list" :: above) root t).
      { intros t J. exact (IH b (types ++ descs) t I J root (lit "property" :: lit "property-list" :: above) (conj eq_refl eq_refl) A). }
      assert (Bl : forall t, In t (types ++ descs) -> is_element t = false -> exists s, t = Text s /\ blank s)
        by (intros t; apply blanks_only; exact B').
      assert (X : forall s l m, (forall t, In t l -> is_element t = true -> exists a ks, t = Elem (lit m) a ks) ->
        (forall t, In t l -> In t (types ++ descs)) -> named s (lit m) = true ->
        subsequence (visible (flat_map (pieces (lit "property")) l))
          (visible (flat_map texts (flat_map (fun k => if is_named s k then apply Plain root (lit "property" :: lit "property-list" :: above) k else []) l)))).
      { intros s l m Hm Hl Hn. apply (shown_some (lit "property" :: lit "property-list" :: above)).
        - intros t J _. exact (Q t (Hl t J)).
        - intros t J F. apply (Bl t (Hl t J)). destruct (is_element t) eqn:Et; [|reflexivity].
          destruct (Hm t J Et) as (c & ks & ->). cbn in F. congruence. }
      unfold td. cbn [flat_map texts]. rewrite !app_nil_r, !visible_app. rewrite text_texts. apply sub_app; [apply sub_refl|].
      rewrite !flat_map_app, !visible_app.
      apply sub_app.
      * apply sub_left. apply (X "type"%string types "type"%string Ty); [|reflexivity]. intros t J. apply in_or_app. now left.
      * apply sub_right. apply (X "desc"%string descs "desc"%string De); [|reflexivity]. intros t J. apply in_or_app. now right.
    + intros k I E. apply (blanks_only kids k B I). destruct (is_element k) eqn:El; [|reflexivity].
      destruct (P k I El) as (b & types & descs & -> & _). discriminate.
  - cbn [pieces apply]. change (choose above (lit "enum")) with TEnum.
    change (shown_attributes (hd [] above) (lit "enum")) with (@nil string). cbn [attribute_texts flat_map List.app texts].
    rewrite app_nil_r, visible_app. apply sub_right. apply (shown_some (lit "enum" :: above) root (is_named "item") kids).
    + intros k I E. assert (El : is_element k = true) by (destruct k; [reflexivity|discriminate|discriminate]).
      destruct (P k I El) as (b & ks & ->). unfold shown.
      cbn [hd pieces apply]. change (choose (lit "enum" :: above) (lit "item")) with TItem.
      change (shown_attributes (lit "enum") (lit "item")) with ["name"%string].
      unfold td. cbn [flat_map texts]. rewrite !app_nil_r, !visible_app, text_texts. apply sub_app; [apply sub_refl|].
      apply (shown_all (lit "item" :: lit "enum" :: above)). intros t J. exact (IH b ks t I J root (lit "item" :: lit "enum" :: above) (conj eq_refl eq_refl) A).
    + intros k I E. apply (blanks_only kids k B I). destruct (is_element k) eqn:El; [|reflexivity].
      destruct (P k I El) as (b & ks & ->). discriminate.
  - cbn [pieces apply]. change (named "content" (lit "content")) with true. cbv iota.
    rewrite flat_flat, !visible_flat. apply sub_flat. intros k I. destruct (is_element k) eqn:El.
    + assert (H := IH k I (Elem (lit "content") a' kids) [lit "content"] (conj eq_refl eq_refl) eq_refl). unfold shown in H. cbn [hd] in H.
      destruct (in_appendix above) eqn:Ap; [|exact H]. destruct (G (eq_sym A) k I El) as [(name & b & ks & -> & S)|Mk].
      * now rewrite (section_appendix _ _ _ _ _ S).
      * rewrite (markup_texts k Mk (Elem (lit "content") a' kids) [lit "content"] _ _ (conj eq_refl eq_refl)). exact H.
    + destruct (blanks_only kids k B I El) as (s & -> & Bs). cbn [pieces]. rewrite (blank_visible s Bs). apply sub_end.
Qed.

(** ** The whole document *)

Lemma lit_inj s t : lit s = lit t -> s = t.
Proof. intro E. unfold lit in E. rewrite <- (string_of_list_ascii_of_string s), <- (string_of_list_ascii_of_string t). now rewrite E. Qed.

Lemma part_other name app kids (f : node -> list html) s : part name app kids -> s <> name ->
  flat_map (fun k => if is_named s k then f k else []) kids = [].
Proof.
  intros [_ P] N. induction kids as [|k kids IH]; [reflexivity|]. cbn [flat_map].
  rewrite IH; [|intros x I; apply P; now right]. rewrite app_nil_r. destruct (is_element k) eqn:El.
  - destruct (P k (or_introl eq_refl) El) as (a & ks & -> & _). cbn. rewrite named_no; [reflexivity|]. intro E. apply N. now apply lit_inj in E.
  - destruct (not_element _ El) as (t & ->). reflexivity.
Qed.

Lemma choose_part above name : name = "prelims"%string \/ name = "main"%string \/ name = "appendix"%string ->
  choose above (lit name) = TVisit.
Proof. now intros [-> | [-> | ->]]. Qed.

Lemma part_shown name app kids root : part name app kids -> choose [lit "document"] (lit name) = TVisit ->
  in_appendix [lit name] = app -> usual [lit name] -> shown_attributes (lit "document") (lit name) = [] ->
  subsequence (visible (flat_map (pieces (lit "document")) kids))
    (visible (flat_map texts (flat_map (fun k => if is_named name k then apply Plain root [lit "document"] k else []) kids))).
Proof.
  intros [B P] C Ap U At. apply (shown_some [lit "document"]).
  - intros k I E. assert (El : is_element k = true) by (destruct k; [reflexivity|reflexivity|discriminate]).
    destruct (P k I El) as (a & ks & -> & F). unfold shown. cbn [hd pieces apply]. rewrite C, At. cbn [attribute_texts flat_map List.app].
    apply (shown_all [lit name; lit "document"]). intros x J. apply (flow_shown app); [exact (F x J)|split; apply U|].
    cbn in *. exact Ap.
  - intros k I E. apply (blanks_only kids k B I). destruct (is_element k) eqn:El; [|reflexivity].
    destruct (P k I El) as (a & ks & -> & _). cbn in E. unfold named in E. rewrite str_eqb_refl in E. discriminate.
Qed.

Definition resources_of (root : node) (kids : list node) : list html :=
  flat_map (fun k => match k with
                     | Elem n' a ks =>
                         if named "resources" n'
                         then flat_map (fun r => if is_element r then apply Plain root [n'; lit "document"] r else []) ks
                         else []
                     | _ => []
                     end) kids.

Lemma page_document a kids : page (Elem (lit "document") a kids) =
  let root := Elem (lit "document") a kids in
  let selected s := flat_map (fun k => if is_named s k then apply Plain root [lit "document"] k else []) kids in
  [HElem (lit "html") []
    [HElem (lit "head") [] (HElem (lit "title") [] (text (value_of "title" a)) :: resources_of root kids);
     HElem (lit "body") [] (heading (value_of "title" a) :: selected "prelims"%string ++ selected "main"%string ++ selected "appendix"%string)]].
Proof. reflexivity. Qed.

Lemma resources_none name app kids root : part name app kids -> name <> "resources"%string -> resources_of root kids = [].
Proof.
  intros [_ P] N. unfold resources_of. induction kids as [|k kids IH]; [reflexivity|]. cbn [flat_map].
  rewrite IH; [|intros x I; apply P; now right]. rewrite app_nil_r. destruct (is_element k) eqn:El.
  - destruct (P k (or_introl eq_refl) El) as (a & ks & -> & _). rewrite named_no; [reflexivity|]. intro E. apply N. now apply lit_inj in E.
  - destruct (not_element _ El) as (t & ->). reflexivity.
Qed.

Lemma about_name k : about k -> match k with Elem name _ _ => among ["copyright"; "author"; "year"]%string name | Include _ _ _ => False | Text _ => True end.
Proof. now destruct 1. Qed.

Lemma about_other kids (f : node -> list html) s : (forall k, In k kids -> about k) -> ~ among ["copyright"; "author"; "year"]%string (lit s) ->
  flat_map (fun k => if is_named s k then f k else []) kids = [].
Proof.
  intros H N. induction kids as [|k kids IH]; [reflexivity|]. cbn [flat_map].
  rewrite IH; [|intros x I; apply H; now right]. rewrite app_nil_r. pose proof (about_name k (H k (or_introl eq_refl))) as K.
  destruct k as [name a ks|a ks l|t]; [|destruct K|reflexivity]. cbn [is_named]. rewrite named_no; [reflexivity|]. now intros ->.
Qed.

Lemma about_resources kids root : (forall k, In k kids -> about k) -> resources_of root kids = [].
Proof.
  intros H. unfold resources_of. induction kids as [|k kids IH]; [reflexivity|]. cbn [flat_map].
  rewrite IH; [|intros x I; apply H; now right]. rewrite app_nil_r. pose proof (about_name k (H k (or_introl eq_refl))) as K.
  destruct k as [name a ks|a ks l|t]; [|destruct K|reflexivity]. rewrite named_no; [reflexivity|]. intros ->.
  destruct K as [K|[K|[K|[]]]]; discriminate.
Qed.

Lemma about_shown k : about k -> forall parent, visible (pieces parent k) = [].
Proof.
  induction 1 as [s B|name a kids Na _ K IH]; intro parent.
  - cbn [pieces]. exact (blank_visible s B).
  - cbn [pieces]. replace (shown_attributes parent name) with (@nil string).
    + cbn [attribute_texts flat_map List.app]. rewrite visible_flat. clear K. induction kids as [|k kids IHk]; [reflexivity|]. cbn [flat_map].
      rewrite (IH k (or_introl eq_refl)). apply IHk. intros x I. apply IH. now right.
    + destruct Na as [<-|[<-|[<-|[]]]]; reflexivity.
Qed.

Ltac no_about := intros [H|[H|[H|[]]]]; discriminate.

Lemma page_parts a Ab R P M A (d := Elem (lit "document") a (Ab ++ R ++ P ++ M ++ A)) :
  (forall k, In k Ab -> about k) ->
  part "resources" false R -> part "prelims" false P -> part "main" false M -> part "appendix" true A ->
  let selected s kids := flat_map (fun k => if is_named s k then apply Plain d [lit "document"] k else []) kids in
  page d =
  [HElem (lit "html") []
    [HElem (lit "head") [] (HElem (lit "title") [] (text (value_of "title" a)) :: resources_of d R);
     HElem (lit "body") [] (heading (value_of "title" a) :: selected "prelims"%string P ++ selected "main"%string M ++ selected "appendix"%string A)]].
Proof.
  intros HN HR HP HM HA selected. unfold d at 1. rewrite page_document. cbv zeta. fold d. unfold selected.
  assert (X : resources_of d (Ab ++ R ++ P ++ M ++ A) = resources_of d R).
  { unfold resources_of. rewrite !flat_map_app. fold (resources_of d Ab). fold (resources_of d P). fold (resources_of d M). fold (resources_of d A).
    rewrite (about_resources Ab d HN), (resources_none _ _ P d HP), (resources_none _ _ M d HM), (resources_none _ _ A d HA), !app_nil_r by discriminate. reflexivity. }
  rewrite X, !flat_map_app. rewrite (about_other Ab _ "prelims" HN), (about_other Ab _ "main" HN), (about_other Ab _ "appendix" HN) by no_about.
  rewrite (part_other _ _ R _ "prelims" HR), (part_other _ _ M _ "prelims" HM), (part_other _ _ A _ "prelims" HA),
    (part_other _ _ R _ "main" HR), (part_other _ _ P _ "main" HP), (part_other _ _ A _ "main" HA),
    (part_other _ _ R _ "appendix" HR), (part_other _ _ P _ "appendix" HP), (part_other _ _ M _ "appendix" HM) by discriminate.
  now rewrite !app_nil_r.
Qed.

Lemma document_shown d : document d -> subsequence (visible (pieces [] d)) (visible (flat_map texts (page d))).
Proof.
  intros [a Ab R P M A HN HR BR HP HM HA]. rewrite page_parts by assumption. set (d0 := Elem _ _ _).
  change (pieces [] d0) with
    (attribute_texts ["title"%string] a ++ flat_map (pieces (lit "document")) (Ab ++ R ++ P ++ M ++ A)).
  cbn [flat_map texts]. rewrite !app_nil_r, !flat_map_app, !visible_app, text_texts.
  rewrite <- !app_assoc. apply sub_app; [apply sub_refl|].
  replace (visible (flat_map (pieces (lit "document")) Ab)) with (@nil str).
  2:{ symmetry. rewrite visible_flat. clear - HN. induction Ab as [|k Ab IH]; [reflexivity|]. cbn [flat_map].
      rewrite (about_shown k (HN k (or_introl eq_refl))). apply IH. intros x I. apply HN. now right. }
  cbn [List.app]. apply sub_app.
  - destruct HR as [B HR]. unfold resources_of. rewrite flat_flat, !visible_flat. apply sub_flat. intros k I.
    destruct (is_element k) eqn:El.
    + destruct (HR k I El) as (b & ks & -> & F). change (named "resources" (lit "resources")) with true. cbv iota.
      change (pieces (lit "document") (Elem (lit "resources") b ks)) with (flat_map (pieces (lit "resources")) ks).
      apply (shown_some [lit "resources"; lit "document"] d0 is_element ks).
      * intros x J _. apply (flow_shown false); [exact (F x J)|now split|reflexivity].
      * intros x J E. exact (blanks_only ks x (BR _ _ I) J E).
    + destruct (blanks_only R k B I El) as (t & -> & Bt). cbn [pieces]. rewrite (blank_visible t Bt). apply sub_nil.
  - apply sub_right. apply sub_app; [|apply sub_app].
    + now apply (part_shown "prelims" false).
    + now apply (part_shown "main" false).
    + now apply (part_shown "appendix" true).
Qed.

Lemma filter_part name app l : part name app l -> name <> "resources"%string ->
  filter (fun k => match k with Elem n _ _ => negb (str_eqb n (lit "resources")) | _ => true end) l = l.
Proof.
  intros [_ P] N. induction l as [|k l IH]; [reflexivity|]. cbn [filter]. rewrite IH; [|intros x I; apply P; now right].
  destruct (is_element k) eqn:El.
  - destruct (P k (or_introl eq_refl) El) as (a & ks & -> & _). fold (named "resources" (lit name)). rewrite named_no; [reflexivity|].
    intro E. apply N. now apply lit_inj in E.
  - destruct (not_element _ El) as (t & ->). reflexivity.
Qed.

Lemma filter_about l : (forall k, In k l -> about k) ->
  filter (fun k => match k with Elem n _ _ => negb (str_eqb n (lit "resources")) | _ => true end) l = l.
Proof.
  intros H. induction l as [|k l IH]; [reflexivity|]. cbn [filter]. rewrite IH; [|intros x I; apply H; now right].
  pose proof (about_name k (H k (or_introl eq_refl))) as K. destruct k as [name a ks|a ks o|t]; [|destruct K|reflexivity].
  fold (named "resources" name). rewrite named_no; [reflexivity|]. intros ->. destruct K as [K|[K|[K|[]]]]; discriminate.
Qed.

Lemma filter_blank l : part "resources" false l -> forall k,
  In k (filter (fun k => match k with Elem n _ _ => negb (str_eqb n (lit "resources")) | _ => true end) l) -> exists t, k = Text t /\ blank t.
Proof.
  intros [B P] k I. apply filter_In in I. destruct I as [I E]. destruct (is_element k) eqn:El; [|exact (blanks_only _ _ B I El)].
  destruct (P k I El) as (a & ks & -> & _). cbn in E. discriminate.
Qed.

Lemma about_visible l : (forall k, In k l -> about k) -> visible (flat_map (pieces (lit "document")) l) = [].
Proof.
  intro H. rewrite visible_flat. induction l as [|k l IH]; [reflexivity|]. cbn [flat_map].
  rewrite (about_shown k (H k (or_introl eq_refl))). apply IH. intros x I. apply H. now right.
Qed.

Lemma body_shown d : document d -> exists head body, page d = [HElem (lit "html") [] [HElem (lit "head") [] head; HElem (lit "body") [] body]] /\
  subsequence (visible (pieces [] (without_resources d))) (visible (flat_map texts body)) /\
  forall a kids, d = Elem (lit "document") a kids -> In (HElem (lit "title") [] (text (value_of "title" a))) head.
Proof.
  intros [a Ab R P M A HN HR BR HP HM HA]. rewrite page_parts by assumption. set (d0 := Elem _ _ _). eexists _, _. split; [reflexivity|].
  split; [|intros b kids E; injection E as <- <-; now left].
  unfold without_resources, d0 at 1. rewrite !filter_app, (filter_about Ab HN), (filter_part _ _ P HP), (filter_part _ _ M HM), (filter_part _ _ A HA) by discriminate.
  set (Rb := filter _ R). change (pieces [] (Elem (lit "document") a ?l)) with
    (attribute_texts ["title"%string] a ++ flat_map (pieces (lit "document")) l).
  cbn [flat_map texts]. rewrite !flat_map_app, !visible_app, text_texts. apply sub_app; [unfold heading; cbn [texts]; apply sub_refl|].
  rewrite (about_visible Ab HN). replace (visible (flat_map (pieces (lit "document")) Rb)) with (@nil str).
  - cbn [List.app]. apply sub_app; [|apply sub_app].
    + now apply (part_shown "prelims" false).
    + now apply (part_shown "main" false).
    + now apply (part_shown "appendix" true).
  - symmetry. apply about_visible. intros k I. destruct (filter_blank R HR k I) as (t & -> & B). now constructor.
Qed.
