(** Proofs about tables of contents. *)

From Coq Require Import Ascii String Bool Lia.
From Coq Require Import List.
From Verif Require Import Str PathProofs DocModel SheetModel SheetSpec SheetProofs SheetLinks.
Import ListNotations.

(** * The table of contents on a page *)

Definition contents_in (n : node) : Prop := exists a, part_of (Elem (lit "tableofcontents") a []) n.

Definition contents_included (n : node) : Prop :=
  exists a kids f, part_of (Include a kids (Some f)) n /\ contents_in f.

Definition no_nav (n : node) : Prop := forall a kids, ~ part_of (Elem (lit "nav") a kids) n.

Definition nav_ok (root n : node) (a : list (str * str)) (kids : list html) : Prop :=
  (HElem (lit "nav") a kids = table_of_contents root /\ contents_in n) \/ contents_included n.

Lemma nav_kid root name b l k a kids : In k l -> nav_ok root k a kids -> nav_ok root (Elem name b l) a kids.
Proof.
  intros I [[E (c & P)]|(c & l' & f & P & C)].
  - left. split; [exact E|]. exists c. exact (part_kid _ _ _ _ k I P).
  - right. exists c, l', f. split; [|exact C]. exact (part_kid _ _ _ _ k I P).
Qed.

Lemma no_nav_kid name a kids k : no_nav (Elem name a kids) -> In k kids -> no_nav k.
Proof. intros N I b l P. exact (N b l (part_kid _ _ _ _ k I P)). Qed.

Lemma nav_other n a kids name b l : on_page (HElem n a kids) [HElem name b l] -> name <> n -> on_page (HElem n a kids) l.
Proof. intros O N. destruct (on_page_one _ _ _ _ O) as [E|H]; [|exact H]. injection E as E _ _. congruence. Qed.

Lemma nav_table n a kids b rows (cells : list string) c : n <> lit "table" -> n <> lit "tr" -> n <> lit "th" ->
  on_page (HElem n a kids) [HElem (lit "table") c (HElem (lit "tr") b (map th cells) :: rows)] -> on_page (HElem n a kids) rows.
Proof.
  intros N1 N2 N3 O. apply nav_other in O; [|congruence]. apply on_page_cons in O. destruct O as [O|O]; [|exact O].
  apply nav_other in O; [|congruence]. exfalso. induction cells as [|s cells IH]; cbn [map] in O; [now apply on_page_nil in O|].
  apply on_page_cons in O. destruct O as [O|O]; [|exact (IH O)]. apply nav_other in O; [now apply on_page_text in O|congruence].
Qed.

Lemma toc_no_nav n : forall a kids, ~ on_page (HElem (lit "nav") a kids) (toc n).
Proof.
  assert (L : forall a kids b, ~ on_page (HElem (lit "nav") a kids) [toc_link b]).
  { intros a kids b O. apply nav_other in O; [now apply on_page_texts in O|discriminate]. }
  induction n as [name b l IH|b l o IH|s] using node_ind2; intros a kids O; cbn [toc] in O.
  - assert (All : ~ on_page (HElem (lit "nav") a kids) (flat_map toc l)).
    { intro H. apply on_page_flat in H. destruct H as (k & I & H). exact (IH k I a kids H). }
    assert (Some' : forall f, ~ on_page (HElem (lit "nav") a kids) (flat_map (fun k => if is_named f k then toc k else []) l)).
    { intros f H. apply on_page_some in H. destruct H as (k & I & _ & H). exact (IH k I a kids H). }
    destruct (named "subsection" name); [apply nav_other in O; [exact (L _ _ _ O)|discriminate]|].
    destruct (named "section" name).
    { apply nav_other in O; [|discriminate]. apply on_page_cons in O. destruct O as [O|O]; [exact (L _ _ _ O)|].
      apply nav_other in O; [exact (Some' _ O)|discriminate]. }
    destruct (named "chapter" name).
    { apply nav_other in O; [|discriminate]. apply on_page_cons in O. destruct O as [O|O]; [exact (L _ _ _ O)|].
      apply nav_other in O; [exact (Some' _ O)|discriminate]. }
    destruct (named "main" name); [apply nav_other in O; [exact (All O)|discriminate]|].
    destruct (named "appendix" name); [apply nav_other in O; [exact (All O)|discriminate]|]. exact (All O).
  - apply on_page_flat in O. destruct O as (k & I & H). exact (IH k I a kids H).
  - now apply on_page_text in O.
Qed.

Lemma contents_nav root a kids : on_page (HElem (lit "nav") a kids) [table_of_contents root] -> HElem (lit "nav") a kids = table_of_contents root.
Proof.
  intro O. destruct (on_page_one _ _ _ _ O) as [E|H]; [exact E|]. exfalso. apply on_page_cons in H.
  destruct H as [H|H]; [apply nav_other in H; [now apply on_page_text in H|discriminate]|].
  destruct root as [name b l|b l o|s]; try now apply on_page_nil in H. destruct (named "document" name); [|now apply on_page_nil in H].
  apply on_page_app in H. destruct H as [H|H]; apply on_page_some in H; destruct H as (k & _ & _ & H); now apply toc_no_nav in H.
Qed.

Lemma markup_nav n : markup n -> no_nav n -> forall root above a kids, ~ on_page (HElem (lit "nav") a kids) (apply Appendix root above n).
Proof.
  induction 1 as [s|name b l N K IH]; intros NN root above a kids O; [now apply on_page_text in O|].
  rewrite (appendix_markup _ _ _ _ _ N) in O. apply nav_other in O; [|intros ->; exact (NN _ _ (part_here _))].
  apply on_page_flat in O. destruct O as (k & I & O). exact (IH k I (no_nav_kid _ _ _ _ NN I) _ _ _ _ O).
Qed.

Lemma flow_nav app n : flow app n -> no_nav n -> forall root above, usual above -> in_appendix above = app -> forall a kids,
  on_page (HElem (lit "nav") a kids) (apply Plain root above n) -> nav_ok root n a kids.
Proof.
  induction 1 as [app s|app name b l N FK IH|app name b l S B FK IH|app b l C FK IH|app b|app b|app b l B P FK IH|
    app b l B P FK IH|app b b' l B FK IH G];
    intros NN root above U A a kids O.
  - now apply on_page_text in O.
  - destruct (copied above name root b l N U) as (name' & E & Hn); rewrite E in O.
    assert (X : name' <> lit "nav") by (destruct Hn as [-> | [_ ->]]; [intros ->; exact (NN _ _ (part_here _))|discriminate]).
    apply nav_other in O; [|exact X]. apply on_page_flat in O. destruct O as (k & I & O). apply (nav_kid root name b l k a kids I).
    exact (IH k I (no_nav_kid _ _ _ _ NN I) root (name :: above) (usual_other _ _ N) (eq_trans (appendix_other _ above N) A) a kids O).
  - rewrite (section_made above name root b l S) in O. apply nav_other in O; [|discriminate]. apply on_page_cons in O.
    destruct O as [O|O]; [apply nav_other in O; [now apply on_page_texts in O|discriminate]|]. apply on_page_some in O.
    destruct O as (k & I & _ & O). apply (nav_kid root name b l k a kids I).
    exact (IH k I (no_nav_kid _ _ _ _ NN I) root (name :: above) (usual_section _ _ S) (eq_trans (appendix_section _ above S) A) a kids O).
  - cbn [apply] in O. change (choose above (lit "ref")) with TRef in O. apply nav_other in O; [|discriminate].
    destruct (flat_map string_value l); [now apply on_page_texts in O|]. apply on_page_flat in O. destruct O as (k & I & O).
    apply (nav_kid root _ b l k a kids I).
    exact (IH k I (no_nav_kid _ _ _ _ NN I) root (lit "ref" :: above) (conj eq_refl eq_refl) A a kids O).
  - cbn [apply] in O. change (choose above (lit "manpage")) with TManpage in O. exfalso. apply nav_other in O; [|discriminate].
    apply on_page_cons in O. destruct O as [O|O]; [apply nav_other in O; [now apply on_page_texts in O|discriminate]|].
    apply on_page_cons in O. destruct O as [O|O]; [now apply on_page_text in O|]. apply on_page_app in O.
    destruct O as [O|O]; [now apply on_page_texts in O|now apply on_page_text in O].
  - left. split; [exact (contents_nav _ _ _ O)|]. exists b. apply part_here.
  - cbn [apply] in O. change (choose above (lit "property-list")) with TPropertyList in O.
    apply (nav_table _ _ _ _ _ ["Name"; "Type"; "Description"]%string) in O; try discriminate. apply on_page_some in O.
    destruct O as (k & I & E & O). assert (El : is_element k = true) by (destruct k; [reflexivity|reflexivity|discriminate]).
    destruct (P k I El) as (c & types & descs & -> & _). cbn [apply] in O.
    change (choose (lit "property-list" :: above) (lit "property")) with TProperty in O.
    assert (K : exists t, In t (types ++ descs) /\ on_page (HElem (lit "nav") a kids) (apply Plain root (lit "property" :: lit "property-list" :: above) t)).
    { apply nav_other in O; [|discriminate]. apply on_page_cons in O. destruct O as [O|O].
      - apply nav_other in O; [now apply on_page_texts in O|discriminate].
      - apply on_page_cons in O. destruct O as [O|O]; (apply nav_other in O; [|discriminate]); apply on_page_some in O;
          destruct O as (t & J & _ & O); now exists t. }
    destruct K as (t & J & K). apply (nav_kid root _ b l _ a kids I). apply (nav_kid root _ c _ t a kids J).
    exact (IH c _ t I J (no_nav_kid _ _ _ _ (no_nav_kid _ _ _ _ NN I) J) root (lit "property" :: lit "property-list" :: above) (conj eq_refl eq_refl) A a kids K).
  - cbn [apply] in O. change (choose above (lit "enum")) with TEnum in O.
    apply (nav_table _ _ _ _ _ ["Value"; "Description"]%string) in O; try discriminate. apply on_page_some in O. destruct O as (k & I & E & O).
    assert (El : is_element k = true) by (destruct k; [reflexivity|reflexivity|discriminate]).
    destruct (P k I El) as (c & ks & ->). cbn [apply] in O. change (choose (lit "enum" :: above) (lit "item")) with TItem in O.
    apply nav_other in O; [|discriminate]. apply on_page_cons in O. destruct O as [O|O]; [apply nav_other in O; [now apply on_page_texts in O|discriminate]|].
    apply nav_other in O; [|discriminate]. apply on_page_flat in O. destruct O as (t & J & O).
    apply (nav_kid root _ b l _ a kids I). apply (nav_kid root _ c _ t a kids J).
    exact (IH c _ t I J (no_nav_kid _ _ _ _ (no_nav_kid _ _ _ _ NN I) J) root (lit "item" :: lit "enum" :: above) (conj eq_refl eq_refl) A a kids O).
  - cbn [apply] in O. change (named "content" (lit "content")) with true in O. cbv iota in O. apply on_page_some in O.
    destruct O as (k & I & El & O). right.
    assert (NNk : no_nav k) by (intros c ks Q; exact (NN c ks (part_included _ _ _ _ _ _ k I Q))).
    assert (R : nav_ok (Elem (lit "content") b' l) k a kids).
    { apply (IH k I NNk (Elem (lit "content") b' l) [lit "content"] (conj eq_refl eq_refl) eq_refl).
      destruct (in_appendix above); [|exact O]. destruct (G (eq_sym A) k I El) as [(name & c & ks & -> & S)|Mk].
      2: destruct (markup_nav k Mk NNk _ _ _ _ O).
      rewrite (section_made_appendix _ _ _ _ _ S) in O. rewrite (section_made _ _ _ _ _ S).
      destruct (on_page_one _ _ _ _ O) as [H|H]; [discriminate|]. now apply on_page_elem. }
    destruct R as [[_ (c & Q)]|(c & ks & f & Q & Cf)].
    + exists b, [], (Elem (lit "content") b' l). split; [apply part_here|]. exists c. exact (part_kid _ _ _ _ k I Q).
    + exists c, ks, f. split; [exact (part_included _ _ _ _ _ _ k I Q)|exact Cf].
Qed.

Lemma page_nav d a kids : document d -> no_nav d -> contents_on_top d -> on_page (HElem (lit "nav") a kids) (page d) ->
  HElem (lit "nav") a kids = table_of_contents d.
Proof.
  intros D NN Top O.
  assert (Y : nav_ok d d a kids).
  2: { destruct Y as [[E _]|(c & ks & f & P & b & Q)]; [exact E|]. exfalso. exact (Top c ks f b P Q). }
  clear Top. revert NN O. destruct D as [b Ab R P M A HN HR BR HP HM HA]. rewrite page_parts by assumption.
  set (d0 := Elem (lit "document") b (Ab ++ R ++ P ++ M ++ A)). intros NN O.
  assert (K : forall s app l k, part s app l -> In k l -> is_named s k = true -> choose [lit "document"] (lit s) = TVisit ->
    usual [lit s; lit "document"] -> in_appendix [lit s; lit "document"] = app -> In k (Ab ++ R ++ P ++ M ++ A) ->
    on_page (HElem (lit "nav") a kids) (apply Plain d0 [lit "document"] k) -> nav_ok d0 d0 a kids).
  { intros s app l k [_ H] I E C U Ap I0 L'. assert (El : is_element k = true) by (destruct k; [reflexivity|reflexivity|discriminate]).
    destruct (H k I El) as (c & ks & -> & F). cbn [apply] in L'. rewrite C in L'. apply on_page_flat in L'. destruct L' as (t & J & L').
    apply (nav_kid d0 _ b _ _ a kids I0). apply (nav_kid d0 _ c _ t a kids J).
    exact (flow_nav app t (F t J) (no_nav_kid _ _ _ _ (no_nav_kid _ _ _ _ NN I0) J) d0 [lit s; lit "document"] U Ap a kids L'). }
  apply nav_other in O; [|discriminate]. apply on_page_cons in O. destruct O as [O|O].
  - apply nav_other in O; [|discriminate]. apply on_page_cons in O. destruct O as [O|O]; [apply nav_other in O; [now apply on_page_texts in O|discriminate]|].
    unfold resources_of in O. apply on_page_flat in O. destruct O as (k & I & O). destruct k as [n c ks| |]; try now apply on_page_nil in O.
    destruct (named "resources" n) eqn:E; [|now apply on_page_nil in O]. apply named_iff in E. subst n. apply on_page_some in O.
    destruct O as (t & J & _ & O). destruct HR as [_ HR]. destruct (HR _ I eq_refl) as (c' & ks' & Eq & F). injection Eq as <- <-.
    assert (I0 : In (Elem (lit "resources") c ks) (Ab ++ R ++ P ++ M ++ A)) by (rewrite !in_app_iff; auto).
    apply (nav_kid d0 _ b _ _ a kids I0). apply (nav_kid d0 _ c _ t a kids J).
    exact (flow_nav false t (F t J) (no_nav_kid _ _ _ _ (no_nav_kid _ _ _ _ NN I0) J) d0 [lit "resources"; lit "document"] (conj eq_refl eq_refl) eq_refl a kids O).
  - apply nav_other in O; [|discriminate]. apply on_page_cons in O. destruct O as [O|O]; [apply nav_other in O; [now apply on_page_texts in O|discriminate]|].
    apply on_page_app in O. destruct O as [O|O]; [|apply on_page_app in O; destruct O as [O|O]]; apply on_page_some in O; destruct O as (k & I & E & O).
    + apply (K "prelims"%string false P k HP I E); try reflexivity; try exact O; [now split|]. rewrite !in_app_iff. auto.
    + apply (K "main"%string false M k HM I E); try reflexivity; try exact O; [now split|]. rewrite !in_app_iff. auto.
    + apply (K "appendix"%string true A k HA I E); try reflexivity; try exact O; [now split|]. rewrite !in_app_iff. auto.
Qed.

(** * Sections that are not listed *)

Lemma flat_none {A B} (f : A -> list B) l : (forall k, In k l -> f k = []) -> flat_map f l = [].
Proof. induction l as [|x l IH]; intro H; [reflexivity|]. cbn. rewrite (H x (or_introl eq_refl)). apply IH. intros k I. apply H. now right. Qed.

Lemma flat_same {A B} (f g : A -> list B) l : (forall k, In k l -> f k = g k) -> flat_map f l = flat_map g l.
Proof. induction l as [|x l IH]; intro H; [reflexivity|]. cbn. rewrite (H x (or_introl eq_refl)). f_equal. apply IH. intros k I. apply H. now right. Qed.

Lemma headings_texts s : flat_map headings (text s) = [].
Proof. now destruct s. Qed.

Lemma headings_toc n : flat_map headings (toc n) = [].
Proof.
  assert (L : forall a, headings (toc_link a) = []) by (intro a; cbn; now rewrite headings_texts).
  induction n as [name a kids IH|a kids l IH|s] using node_ind2; cbn [toc].
  - assert (Al : flat_map headings (flat_map toc kids) = []) by (rewrite flat_flat; exact (flat_none _ _ IH)).
    assert (So : forall f, flat_map headings (flat_map (fun k => if is_named f k then toc k else []) kids) = []).
    { intro f. rewrite flat_flat. apply flat_none. intros k I. destruct (is_named f k); [exact (IH k I)|reflexivity]. }
    destruct (named "subsection" name); [cbn [flat_map headings]; now rewrite L|].
    destruct (named "section" name); [cbn [flat_map headings]; now rewrite L, So|].
    destruct (named "chapter" name); [cbn [flat_map headings]; now rewrite L, So|].
    destruct (named "main" name); [cbn [flat_map headings]; now rewrite Al|].
    destruct (named "appendix" name); [cbn [flat_map headings]; now rewrite Al|]. exact Al.
  - rewrite flat_flat. exact (flat_none _ _ IH).
  - reflexivity.
Qed.

Lemma headings_contents root : headings (table_of_contents root) = [].
Proof.
  unfold table_of_contents. cbn [headings flat_map]. destruct root as [name a kids| |]; try reflexivity. destruct (named "document" name); [|reflexivity].
  rewrite flat_map_app. change (str_eqb (lit "nav") (lit "section")) with false. change (str_eqb (lit "h1") (lit "section")) with false.
  cbn [List.app]. rewrite !flat_flat, !flat_none; try reflexivity;
    intros k _; match goal with |- context[if ?b then _ else _] => destruct b end; try reflexivity; apply headings_toc.
Qed.

Lemma leaf_kid name a kids k : leaf (Elem name a kids) -> In k kids -> leaf k.
Proof. intros L I n b l P. exact (L n b l (part_kid _ _ _ _ k I P)). Qed.

Lemma leaf_here name a kids : leaf (Elem name a kids) -> ~ among levels name /\ name <> lit "nav".
Proof. intro L. exact (L name a kids (part_here _)). Qed.

Lemma leaf_level s n : among levels (lit s) -> leaf n -> is_named s n = false.
Proof.
  intros S L. destruct n as [name a kids|a kids l|t]; [| |reflexivity].
  - apply (named_no s name). intros ->. now destruct (leaf_here _ _ _ L).
  - apply (named_no s (lit "include")). intro E. rewrite <- E in S. destruct S as [S|[S|[S|[]]]]; discriminate.
Qed.

Lemma section_level name suffix : among sections name -> ~ among levels name -> suffix = [] \/ suffix = lit "_appendix" ->
  class_level (name ++ suffix) = None.
Proof.
  intros S N H. revert N. revert name S.
  apply (section_cases (fun name => ~ among levels name -> class_level (name ++ suffix) = None)); intro N; try (exfalso; apply N; unfold among, levels; cbn [map]; repeat first [left; reflexivity | right]; fail);
    destruct H as [-> | ->]; reflexivity.
Qed.

Lemma headings_section name suffix a content : among sections name -> ~ among levels name -> suffix = [] \/ suffix = lit "_appendix" ->
  headings (section_of name suffix a content) = flat_map headings content.
Proof.
  intros S N H. unfold section_of. cbn [headings attribute].
  change (str_eqb (lit "section") (lit "section")) with true. change (str_eqb (lit "class") (lit "class")) with true.
  change (str_eqb (lit "class") (lit "id")) with false. change (str_eqb (lit "id") (lit "id")) with true. cbv iota.
  rewrite (section_level name suffix S N H). unfold heading. cbn [flat_map headings]. now rewrite headings_texts.
Qed.

Lemma suffix_cases (b : bool) : (if b then lit "_appendix" else []) = [] \/ (if b then lit "_appendix" else []) = lit "_appendix".
Proof. destruct b; auto. Qed.

Lemma some_none {B} (f : node -> bool) (g : node -> list B) l : (forall k, In k l -> g k = []) ->
  flat_map (fun k => if f k then g k else []) l = [].
Proof. intro H. apply flat_none. intros k I. destruct (f k); [exact (H k I)|reflexivity]. Qed.

Lemma headings_flat {A} (f : A -> list html) l : (forall k, In k l -> flat_map headings (f k) = []) -> flat_map headings (flat_map f l) = [].
Proof. intro H. rewrite flat_flat. now apply flat_none. Qed.

Lemma headings_some (f : node -> bool) (g : node -> list html) l : (forall k, In k l -> f k = true -> flat_map headings (g k) = []) ->
  flat_map headings (flat_map (fun k => if f k then g k else []) l) = [].
Proof. intro H. apply headings_flat. intros k I. destruct (f k) eqn:E; [exact (H k I E)|reflexivity]. Qed.

Lemma markup_headings n : markup n -> forall root above, flat_map headings (apply Appendix root above n) = [].
Proof.
  induction 1 as [s|name b l N K IH]; intros root above; [reflexivity|]. rewrite (appendix_markup _ _ _ _ _ N). cbn [flat_map headings]. rewrite app_nil_r.
  replace (str_eqb name (lit "section")) with false; [|symmetry; apply (named_no "section"); apply other_not; [special_name|exact N]].
  cbn [List.app]. apply headings_flat. intros k I. exact (IH k I root (name :: above)).
Qed.

Lemma leaf_headings app n : flow app n -> leaf n -> forall root above, usual above -> in_appendix above = app ->
  flat_map headings (apply Plain root above n) = [].
Proof.
  induction 1 as [app s|app name b l N FK IH|app name b l S B FK IH|app b l C FK IH|app b|app b|app b l B P FK IH|
    app b l B P FK IH|app b b' l B FK IH G];
    intros L root above U A.
  - reflexivity.
  - destruct (copied above name root b l N U) as (name' & -> & Hn). cbn [flat_map headings]. rewrite app_nil_r.
    replace (str_eqb name' (lit "section")) with false.
    + cbn [List.app]. apply headings_flat. intros k I.
      exact (IH k I (leaf_kid _ _ _ _ L I) root (name :: above) (usual_other _ _ N) (eq_trans (appendix_other _ above N) A)).
    + symmetry. destruct Hn as [-> | [_ ->]]; [|reflexivity]. apply (named_no "section"). apply other_not; [special_name|exact N].
  - rewrite (section_made above name root b l S). cbn [flat_map]. rewrite app_nil_r, headings_section; [|exact S| |apply suffix_cases].
    + apply headings_some. intros k I _.
      exact (IH k I (leaf_kid _ _ _ _ L I) root (name :: above) (usual_section _ _ S) (eq_trans (appendix_section _ above S) A)).
    + exact (proj1 (leaf_here _ _ _ L)).
  - cbn [apply]. change (choose above (lit "ref")) with TRef. cbn [flat_map headings]. rewrite app_nil_r. cbn [List.app str_eqb].
    change (str_eqb (lit "a") (lit "section")) with false. cbn [List.app].
    destruct (flat_map string_value l); [apply headings_texts|]. apply headings_flat. intros k I.
    exact (IH k I (leaf_kid _ _ _ _ L I) root (lit "ref" :: above) (conj eq_refl eq_refl) A).
  - cbn [apply]. change (choose above (lit "manpage")) with TManpage. cbn [flat_map headings]. rewrite app_nil_r.
    change (str_eqb (lit "a") (lit "section")) with false. change (str_eqb (lit "code") (lit "section")) with false. cbn [List.app].
    rewrite headings_texts, flat_map_app, headings_texts. reflexivity.
  - cbn [apply]. change (choose above (lit "tableofcontents")) with TContents. cbn [flat_map]. now rewrite headings_contents.
  - cbn [apply]. change (choose above (lit "property-list")) with TPropertyList. cbn [flat_map headings th]. rewrite app_nil_r.
    change (str_eqb (lit "table") (lit "section")) with false. change (str_eqb (lit "tr") (lit "section")) with false. cbn [List.app].
    apply headings_some. intros k I E. assert (El : is_element k = true) by (destruct k; [reflexivity|reflexivity|discriminate]).
    destruct (P k I El) as (c & types & descs & -> & _). cbn [apply].
    change (choose (lit "property-list" :: above) (lit "property")) with TProperty. unfold td. cbn [flat_map headings]. rewrite !app_nil_r.
    change (str_eqb (lit "tr") (lit "section")) with false. change (str_eqb (lit "td") (lit "section")) with false. cbn [List.app].
    rewrite headings_texts. cbn [List.app].
    assert (Q : forall t, In t (types ++ descs) -> flat_map headings (apply Plain root (lit "property" :: lit "property-list" :: above) t) = []).
    { intros t J. exact (IH c _ t I J (leaf_kid _ _ _ _ (leaf_kid _ _ _ _ L I) J) root (lit "property" :: lit "property-list" :: above) (conj eq_refl eq_refl) A). }
    rewrite !headings_some; try reflexivity; intros t J _; exact (Q t J).
  - cbn [apply]. change (choose above (lit "enum")) with TEnum. cbn [flat_map headings th]. rewrite app_nil_r.
    change (str_eqb (lit "table") (lit "section")) with false. change (str_eqb (lit "tr") (lit "section")) with false. cbn [List.app].
    apply headings_some. intros k I E. assert (El : is_element k = true) by (destruct k; [reflexivity|reflexivity|discriminate]).
    destruct (P k I El) as (c & ks & ->). cbn [apply].
    change (choose (lit "enum" :: above) (lit "item")) with TItem. unfold td. cbn [flat_map headings]. rewrite !app_nil_r.
    change (str_eqb (lit "tr") (lit "section")) with false. change (str_eqb (lit "td") (lit "section")) with false. cbn [List.app].
    rewrite headings_texts. cbn [List.app]. apply headings_flat. intros t J.
    exact (IH c _ t I J (leaf_kid _ _ _ _ (leaf_kid _ _ _ _ L I) J) root (lit "item" :: lit "enum" :: above) (conj eq_refl eq_refl) A).
  - cbn [apply]. change (named "content" (lit "content")) with true. cbv iota. apply headings_some. intros k I El.
    assert (Lk : leaf k) by (intros n c ks Q; exact (L n c ks (part_included _ _ _ _ _ _ k I Q))).
    pose proof (IH k I Lk (Elem (lit "content") b' l) [lit "content"] (conj eq_refl eq_refl) eq_refl) as H.
    destruct (in_appendix above); [|exact H]. destruct (G (eq_sym A) k I El) as [(name & c & ks & -> & S)|Mk].
    2: exact (markup_headings k Mk _ _).
    pose proof (proj1 (leaf_here _ _ _ Lk)) as Nl.
    rewrite (section_made_appendix _ _ _ _ _ S). rewrite (section_made _ _ _ _ _ S) in H. cbn [flat_map] in *. rewrite app_nil_r in *.
    rewrite headings_section in *; auto; apply suffix_cases.
Qed.

(** * Sections that are listed *)

Lemma leaf_links n : leaf n -> forall app depth, flat_map (links app depth) (toc n) = [].
Proof.
  induction n as [name a kids IH|a kids l IH|s] using node_ind2; intros L app depth.
  - destruct (leaf_here _ _ _ L) as [N _]. cbn [toc].
    rewrite (named_no "subsection"), (named_no "section"), (named_no "chapter") by (intros ->; apply N; unfold among, levels; cbn [map]; cbv [In]; auto).
    assert (Al : forall app depth, flat_map (links app depth) (flat_map toc kids) = []).
    { intros b n. rewrite flat_flat. apply flat_none. intros k I. exact (IH k I (leaf_kid _ _ _ _ L I) b n). }
    destruct (named "main" name); [|destruct (named "appendix" name); [|apply Al]]; cbn [flat_map links]; rewrite app_nil_r; apply Al.
  - cbn [toc]. rewrite flat_flat. apply flat_none. intros k I. apply (IH k I). intros n b m P. exact (L n b m (part_own _ _ _ _ k I P)).
  - reflexivity.
Qed.

Lemma links_link app depth a : links app depth (toc_link a) = [(app, depth, value_of "id" a, concat (flat_map texts (text (value_of "title" a))))].
Proof. reflexivity. Qed.

Lemma headings_listed name suffix (app : bool) (lvl : nat) a content :
  class_level (name ++ suffix) = Some (app, lvl) ->
  headings (section_of name suffix a content) =
  (app, lvl, value_of "id" a, concat (flat_map texts (text (value_of "title" a)))) :: flat_map headings content.
Proof.
  intros C. unfold section_of. cbn [headings attribute].
  change (str_eqb (lit "section") (lit "section")) with true. change (str_eqb (lit "class") (lit "class")) with true.
  change (str_eqb (lit "class") (lit "id")) with false. change (str_eqb (lit "id") (lit "id")) with true. cbv iota.
  rewrite C. unfold heading. cbn [flat_map headings heading_text]. now rewrite headings_texts.
Qed.

Lemma outlined_end n : outlined [] n -> leaf n.
Proof. inversion 1. assumption. Qed.

Lemma outlined_at s l n : outlined (s :: l) n -> leaf n \/ exists a kids, n = Elem (lit s) a kids /\ forall k, In k kids -> outlined l k.
Proof. inversion 1; subst; [now left|right]. eauto. Qed.

Lemma level_section s : In s levels -> among sections (lit s).
Proof. unfold among, sections. cbn [levels In map]. intros [<-|[<-|[<-|[]]]]; auto. Qed.

(** What is listed for the elements below a section is what is made of them. *)
Definition matches (l : list string) (app : bool) (lvl : nat) (n : node) : Prop :=
  outlined l n -> flow app n -> forall root above, usual above -> in_appendix above = app ->
  flat_map (links app lvl) (toc n) = flat_map headings (apply Plain root above n).

Lemma selected_matches s l app lvl kids root above : (forall k, In k kids -> matches (s :: l) app lvl k) ->
  (forall k, In k kids -> outlined (s :: l) k) -> (forall k, In k kids -> flow app k) -> usual above -> in_appendix above = app ->
  among levels (lit s) ->
  flat_map (links app lvl) (flat_map (fun k => if is_named s k then toc k else []) kids) =
  flat_map headings (flat_map (fun k => if is_element k then apply Plain root above k else []) kids).
Proof.
  intros Ma O F U A Le. rewrite !flat_flat. apply flat_same. intros k I. destruct (outlined_at _ _ _ (O k I)) as [L|(a & ks & -> & _)].
  - rewrite (leaf_level s k Le L). destruct (is_element k); [|reflexivity]. symmetry. exact (leaf_headings app k (F k I) L root above U A).
  - cbn [is_named is_element]. unfold named. rewrite str_eqb_refl. exact (Ma _ I (O _ I) (F _ I) root above U A).
Qed.

Lemma subsection_matches app n : matches ["subsection"%string] app 3 n.
Proof.
  intros O F root above U A. destruct (outlined_at _ _ _ O) as [L|(a & kids & -> & K)].
  - now rewrite (leaf_links n L), (leaf_headings app n F L root above U A).
  - assert (S : among sections (lit "subsection")) by (apply level_section; cbn; auto).
    destruct (flow_in_section _ _ _ _ S F) as [_ FK]. rewrite (section_made above _ root a kids S), A. cbn [flat_map]. rewrite app_nil_r.
    rewrite headings_listed with (app := app) (lvl := 3) by now destruct app. change (toc _) with [HElem (lit "li") [] [toc_link a]].
    rewrite headings_some; [reflexivity|]. intros k I _.
    exact (leaf_headings app k (FK k I) (outlined_end _ (K k I)) root _ (usual_section _ _ S) (eq_trans (appendix_section _ above S) A)).
Qed.

Lemma section_matches app n : matches ["section"; "subsection"]%string app 2 n.
Proof.
  intros O F root above U A. destruct (outlined_at _ _ _ O) as [L|(a & kids & -> & K)].
  - now rewrite (leaf_links n L), (leaf_headings app n F L root above U A).
  - assert (S : among sections (lit "section")) by (apply level_section; cbn; auto).
    destruct (flow_in_section _ _ _ _ S F) as [_ FK]. rewrite (section_made above _ root a kids S), A. cbn [flat_map]. rewrite app_nil_r.
    rewrite headings_listed with (app := app) (lvl := 2) by now destruct app.
    change (toc _) with [HElem (lit "li") [] [toc_link a; HElem (lit "ol") [] (flat_map (fun k => if is_named "subsection" k then toc k else []) kids)]].
    rewrite <- (selected_matches "subsection" [] app 3 kids root (lit "section" :: above)); trivial.
    + cbn [flat_map]. rewrite app_nil_r. change (links app 2 (HElem (lit "li") [] ?l)) with (flat_map (links app 2) l). cbn [flat_map].
      now rewrite links_link, app_nil_r.
    + intros k _. apply subsection_matches.
    + exact (usual_section _ _ S).
    + unfold among, levels. cbn [map]. cbv [In]. auto.
Qed.

Lemma chapter_matches app n : matches levels app 1 n.
Proof.
  intros O F root above U A. destruct (outlined_at _ _ _ O) as [L|(a & kids & -> & K)].
  - now rewrite (leaf_links n L), (leaf_headings app n F L root above U A).
  - assert (S : among sections (lit "chapter")) by (apply level_section; cbn; auto).
    destruct (flow_in_section _ _ _ _ S F) as [_ FK]. rewrite (section_made above _ root a kids S), A. cbn [flat_map]. rewrite app_nil_r.
    rewrite headings_listed with (app := app) (lvl := 1) by now destruct app.
    change (toc _) with [HElem (lit "li") [] [toc_link a; HElem (lit "ol") [] (flat_map (fun k => if is_named "section" k then toc k else []) kids)]].
    rewrite <- (selected_matches "section" ["subsection"%string] app 2 kids root (lit "chapter" :: above)); trivial.
    + cbn [flat_map]. rewrite app_nil_r. change (links app 1 (HElem (lit "li") [] ?l)) with (flat_map (links app 1) l). cbn [flat_map].
      now rewrite links_link, app_nil_r.
    + intros k _. apply section_matches.
    + exact (usual_section _ _ S).
    + unfold among, levels. cbn [map]. cbv [In]. auto.
Qed.

(** * The sections of a document *)

Section NodeInd.
  Variable P : node -> Prop.
  Hypothesis on_elem : forall name a kids, (forall k, In k kids -> P k) -> P (Elem name a kids).
  Hypothesis on_include : forall a kids loaded, (forall n b ks, loaded = Some (Elem n b ks) -> forall k, In k ks -> P k) -> P (Include a kids loaded).
  Hypothesis on_text : forall s, P (Text s).

  Fixpoint node_ind3 (n : node) : P n :=
    let all := (fix all (l : list node) : forall k, In k l -> P k :=
      match l with
      | [] => fun k I => match I with end
      | x :: l' => fun k I => match I with
                              | or_introl E => eq_ind x P (node_ind3 x) k E
                              | or_intror J => all l' k J
                              end
      end) in
    match n with
    | Elem name a kids => on_elem name a kids (all kids)
    | Include a kids loaded =>
        on_include a kids loaded
          match loaded as o return forall n b ks, o = Some (Elem n b ks) -> forall k, In k ks -> P k with
          | Some (Elem n' b' ks') => fun n b ks E =>
              match E in _ = o return match o with Some (Elem _ _ l) => forall k, In k l -> P k | _ => True end with
              | eq_refl => all ks'
              end
          | _ => fun n b ks E => match E in _ = o return match o with Some (Elem _ _ l) => forall k, In k l -> P k | _ => True end with
                                 | eq_refl => I
                                 end
          end
    | Text s => on_text s
    end.
End NodeInd.

Lemma leaf_outline n : leaf n -> forall app, outline app n = [].
Proof.
  induction n as [name a kids IH|a kids loaded IH|s] using node_ind3; intros L app.
  - destruct (leaf_here _ _ _ L) as [N _]. cbn [outline]. fold (named "chapter" name) (named "section" name) (named "subsection" name).
    rewrite (named_no "subsection"), (named_no "section"), (named_no "chapter") by (intros ->; apply N; unfold among, levels; cbn [map]; cbv [In]; auto).
    cbn [List.app]. apply flat_none. intros k I. exact (IH k I (leaf_kid _ _ _ _ L I) _).
  - destruct loaded as [[name b ks| |]|]; try reflexivity. cbn [outline]. apply flat_none. intros k I. apply (IH name b ks eq_refl k I).
    intros n c l P. exact (L n c l (part_included _ _ _ _ _ _ k I P)).
  - reflexivity.
Qed.

Lemma selected_outline s l app lvl kids :
  (forall k, In k kids -> outlined (s :: l) k -> flat_map (links app lvl) (toc k) = outline app k) ->
  (forall k, In k kids -> outlined (s :: l) k) -> among levels (lit s) ->
  flat_map (links app lvl) (flat_map (fun k => if is_named s k then toc k else []) kids) = flat_map (outline app) kids.
Proof.
  intros Ma O Le. rewrite flat_flat. apply flat_same. intros k I. destruct (outlined_at _ _ _ (O k I)) as [L|(a & ks & -> & _)].
  - now rewrite (leaf_level s k Le L), (leaf_outline k L).
  - cbn [is_named]. unfold named. rewrite str_eqb_refl. exact (Ma _ I (O _ I)).
Qed.

Lemma title_text s : concat (flat_map texts (text s)) = s.
Proof. destruct s; [reflexivity|]. cbn. now rewrite app_nil_r. Qed.

Lemma subsection_outline app n : outlined ["subsection"%string] n -> flat_map (links app 3) (toc n) = outline app n.
Proof.
  intro O. destruct (outlined_at _ _ _ O) as [L|(a & kids & -> & K)]; [now rewrite (leaf_links n L), (leaf_outline n L)|].
  change (toc _) with [HElem (lit "li") [] [toc_link a]]. change (flat_map _ _) with (links app 3 (toc_link a)).
  change (outline app _) with ((app, 3, value_of "id" a, value_of "title" a) :: flat_map (outline (app || false)) kids).
  rewrite links_link, title_text. f_equal. symmetry. apply flat_none. intros k I. exact (leaf_outline k (outlined_end _ (K k I)) _).
Qed.

Lemma section_outline app n : outlined ["section"; "subsection"]%string n -> flat_map (links app 2) (toc n) = outline app n.
Proof.
  intro O. destruct (outlined_at _ _ _ O) as [L|(a & kids & -> & K)]; [now rewrite (leaf_links n L), (leaf_outline n L)|].
  change (toc _) with [HElem (lit "li") [] [toc_link a; HElem (lit "ol") [] (flat_map (fun k => if is_named "subsection" k then toc k else []) kids)]].
  change (outline app _) with ((app, 2, value_of "id" a, value_of "title" a) :: flat_map (outline (app || false)) kids). rewrite orb_false_r.
  rewrite <- (selected_outline "subsection" [] app 3 kids); trivial.
  - cbn [flat_map]. rewrite app_nil_r. change (links app 2 (HElem (lit "li") [] ?l)) with (flat_map (links app 2) l). cbn [flat_map].
    now rewrite links_link, title_text, app_nil_r.
  - intros k _. apply subsection_outline.
  - unfold among, levels. cbn [map]. cbv [In]. auto.
Qed.

Lemma chapter_outline app n : outlined levels n -> flat_map (links app 1) (toc n) = outline app n.
Proof.
  intro O. destruct (outlined_at _ _ _ O) as [L|(a & kids & -> & K)]; [now rewrite (leaf_links n L), (leaf_outline n L)|].
  change (toc _) with [HElem (lit "li") [] [toc_link a; HElem (lit "ol") [] (flat_map (fun k => if is_named "section" k then toc k else []) kids)]].
  change (outline app _) with ((app, 1, value_of "id" a, value_of "title" a) :: flat_map (outline (app || false)) kids). rewrite orb_false_r.
  rewrite <- (selected_outline "section" ["subsection"%string] app 2 kids); trivial.
  - cbn [flat_map]. rewrite app_nil_r. change (links app 1 (HElem (lit "li") [] ?l)) with (flat_map (links app 1) l). cbn [flat_map].
    now rewrite links_link, title_text, app_nil_r.
  - intros k _. apply section_outline.
  - unfold among, levels. cbn [map]. cbv [In]. auto.
Qed.

(** * The document *)

Lemma part_of_elem n b ks name a kids : part_of (Elem n b ks) (Elem name a kids) -> n = name \/ exists k, In k kids /\ part_of (Elem n b ks) k.
Proof. intro P. inversion P; subst; [now left|right]. eauto. Qed.

Lemma outlined_no_nav l n : (forall s, In s l -> In s levels) -> outlined l n -> no_nav n.
Proof.
  intros Le O. induction O as [l n L|s l a kids K IH]; intros b ks P.
  - now destruct (L _ _ _ P).
  - destruct (part_of_elem _ _ _ _ _ _ P) as [E|(k & I & Q)].
    + specialize (Le s (or_introl eq_refl)). cbn [levels In] in Le. destruct Le as [<-|[<-|[<-|[]]]]; discriminate.
    + refine (IH k I _ _ _ Q). intros t J. apply Le. now right.
Qed.

Lemma organized_no_nav d : organized d -> no_nav d.
Proof.
  intros (a & kids & -> & _ & K) b ks P. destruct (part_of_elem _ _ _ _ _ _ P) as [E|(k & I & Q)]; [discriminate|].
  destruct (K k I) as [L|(s & c & l & S & -> & O)]; [now destruct (L _ _ _ Q)|].
  destruct (part_of_elem _ _ _ _ _ _ Q) as [E|(x & J & X)]; [destruct S as [-> | ->]; discriminate|].
  exact (outlined_no_nav levels x (fun s I => I) (O x J) _ _ X).
Qed.

Lemma in_part s app l k : part s app l -> In k l -> is_named s k = true -> exists a kids, k = Elem (lit s) a kids /\ forall x, In x kids -> flow app x.
Proof. intros [_ H] I E. apply (H k I). destruct k; [reflexivity|reflexivity|discriminate]. Qed.

Lemma part_listed s app l root :
  part s app l -> (s = "main"%string /\ app = false \/ s = "appendix"%string /\ app = true) ->
  (forall k, In k l -> leaf k \/
     exists s a' ks, (s = "main" \/ s = "appendix")%string /\ k = Elem (lit s) a' ks /\ forall x, In x ks -> outlined levels x) ->
  flat_map (links false 0) (flat_map (fun k => if is_named s k then toc k else []) l) =
  flat_map headings (flat_map (fun k => if is_named s k then apply Plain root [lit "document"] k else []) l).
Proof.
  intros HP C Or. rewrite !flat_flat. apply flat_same. intros k I. destruct (is_named s k) eqn:E; [|reflexivity].
  destruct (in_part _ _ _ _ HP I E) as (a & kids & -> & F).
  assert (T : toc (Elem (lit s) a kids) = [HElem (lit "ol") [(lit "class", lit s)] (flat_map toc kids)]) by (destruct C as [[-> _]|[-> _]]; reflexivity).
  assert (Ap : apply Plain root [lit "document"] (Elem (lit s) a kids) = flat_map (apply Plain root [lit s; lit "document"]) kids)
    by (destruct C as [[-> _]|[-> _]]; reflexivity).
  assert (U : usual [lit s; lit "document"]) by (destruct C as [[-> _]|[-> _]]; now split).
  assert (Ia : in_appendix [lit s; lit "document"] = app) by (destruct C as [[-> ->]|[-> ->]]; reflexivity).
  assert (Li : forall l, flat_map (links false 0) [HElem (lit "ol") [(lit "class", lit s)] l] = flat_map (links app 1) l)
    by (intro l0; destruct C as [[-> ->]|[-> ->]]; cbn [flat_map]; apply app_nil_r).
  rewrite T, Ap, Li, !flat_flat. apply flat_same. intros x J.
  assert (O : outlined levels x).
  { destruct (Or _ I) as [L|(s' & c & ks & _ & Eq & O)].
    - apply outlined_leaf. exact (leaf_kid _ _ _ _ L J).
    - injection Eq as _ _ <-. exact (O x J). }
  exact (chapter_matches app x O (F x J) root _ U Ia).
Qed.

Lemma leaf_part s app l root : part s app l -> usual [lit s; lit "document"] -> in_appendix [lit s; lit "document"] = app ->
  choose [lit "document"] (lit s) = TVisit ->
  (forall k, In k l -> is_named s k = true -> leaf k) ->
  flat_map headings (flat_map (fun k => if is_named s k then apply Plain root [lit "document"] k else []) l) = [].
Proof.
  intros HP U Ia C L. apply headings_some. intros k I E. specialize (L k I E). destruct (in_part _ _ _ _ HP I E) as (a & kids & -> & F).
  cbn [apply]. rewrite C. apply headings_flat. intros x J. exact (leaf_headings app x (F x J) (leaf_kid _ _ _ _ L J) root _ U Ia).
Qed.

Lemma links_skip name a kids : name <> lit "a" -> name <> lit "ol" -> links false 0 (HElem name a kids) = flat_map (links false 0) kids.
Proof. intros A B. cbn [links]. fold (named "a" name) (named "ol" name). now rewrite !named_no. Qed.

Lemma headings_skip name a kids : name <> lit "section" -> headings (HElem name a kids) = flat_map headings kids.
Proof. intros A. cbn [headings]. fold (named "section" name). now rewrite named_no. Qed.

Lemma contents_listed d : document d -> organized d -> links false 0 (table_of_contents d) = flat_map headings (page d).
Proof.
  intros D (a & kids & Eq & _ & Or). destruct D as [b Ab R P M A HN HR BR HP HM HA]. injection Eq as <- <-. rewrite page_parts by assumption.
  set (d0 := Elem (lit "document") b (Ab ++ R ++ P ++ M ++ A)).
  assert (T : table_of_contents d0 = HElem (lit "nav") [(lit "id", lit "toc")] (HElem (lit "h1") [] [HText (lit "Table of contents")] ::
    flat_map (fun k => if is_named "main" k then toc k else []) M ++ flat_map (fun k => if is_named "appendix" k then toc k else []) A)).
  { unfold table_of_contents, d0. change (named "document" (lit "document")) with true. cbv iota. rewrite !flat_map_app.
    rewrite (about_other Ab _ "main" HN), (about_other Ab _ "appendix" HN) by no_about.
    rewrite (part_other _ _ R _ "main" HR), (part_other _ _ P _ "main" HP), (part_other _ _ A _ "main" HA),
      (part_other _ _ R _ "appendix" HR), (part_other _ _ P _ "appendix" HP), (part_other _ _ M _ "appendix" HM) by discriminate.
    now rewrite !app_nil_r. }
  assert (Lf : forall k s, In k (Ab ++ R ++ P ++ M ++ A) -> is_named s k = true -> s <> "main"%string -> s <> "appendix"%string -> leaf k).
  { intros k s I E N1 N2. destruct (Or k I) as [L|(s' & c & ks & S & -> & _)]; [exact L|]. exfalso. cbn [is_named] in E.
    apply named_iff in E. apply lit_inj in E. subst s'. tauto. }
  rewrite T, links_skip by discriminate. cbn [flat_map]. rewrite flat_map_app, app_nil_r.
  change (links false 0 (HElem (lit "h1") [] [HText (lit "Table of contents")])) with (@nil entry). cbn [List.app].
  rewrite (part_listed "main" false M d0 HM), (part_listed "appendix" true A d0 HA); auto.
  2, 3: intros k I; apply Or; rewrite !in_app_iff; auto.
  rewrite (headings_skip (lit "html")) by discriminate. cbn [flat_map]. rewrite !(headings_skip (lit "head")), !(headings_skip (lit "body")) by discriminate.
  cbn [flat_map]. rewrite (headings_skip (lit "title")) by discriminate. unfold heading. rewrite (headings_skip (lit "h1")) by discriminate.
  rewrite headings_texts. cbn [List.app]. rewrite !flat_map_app, app_nil_r.
  rewrite (leaf_part "prelims" false P d0 HP); trivial.
  2: now split.
  2: { intros k I E. apply (Lf k "prelims"%string); try assumption; try discriminate. rewrite !in_app_iff. auto. }
  replace (flat_map headings (resources_of d0 R)) with (@nil entry); [reflexivity|]. symmetry. unfold resources_of. apply headings_flat. intros k I.
  destruct k as [n c ks| |]; try reflexivity. destruct (named "resources" n) eqn:E; [|reflexivity].
  assert (L : leaf (Elem n c ks)) by (apply (Lf _ "resources"%string); [rewrite !in_app_iff; auto|exact E|discriminate|discriminate]).
  destruct (in_part _ _ _ _ HR I E) as (c' & ks' & Eq & F). injection Eq as -> <- <-. apply headings_some. intros x J _.
  exact (leaf_headings false x (F x J) (leaf_kid _ _ _ _ L J) d0 [lit "resources"; lit "document"] (conj eq_refl eq_refl) eq_refl).
Qed.

Definition kid_ok (k : node) : Prop := leaf k \/
  exists s a' ks, (s = "main" \/ s = "appendix")%string /\ k = Elem (lit s) a' ks /\ forall x, In x ks -> outlined levels x.

Lemma part_outline s app l :
  part s app l -> (s = "main"%string /\ app = false \/ s = "appendix"%string /\ app = true) -> (forall k, In k l -> kid_ok k) ->
  flat_map (links false 0) (flat_map (fun k => if is_named s k then toc k else []) l) = flat_map (outline false) l.
Proof.
  intros HP C Or. rewrite !flat_flat. apply flat_same. intros k I. destruct (is_named s k) eqn:E.
  - destruct (in_part _ _ _ _ HP I E) as (a & kids & -> & F).
    assert (T : toc (Elem (lit s) a kids) = [HElem (lit "ol") [(lit "class", lit s)] (flat_map toc kids)]) by (destruct C as [[-> _]|[-> _]]; reflexivity).
    assert (Li : forall l, flat_map (links false 0) [HElem (lit "ol") [(lit "class", lit s)] l] = flat_map (links app 1) l)
      by (intro l0; destruct C as [[-> ->]|[-> ->]]; cbn [flat_map]; apply app_nil_r).
    assert (Ou : outline false (Elem (lit s) a kids) = flat_map (outline app) kids) by (destruct C as [[-> ->]|[-> ->]]; reflexivity).
    rewrite T, Li, Ou, flat_flat. apply flat_same. intros x J. apply chapter_outline.
    destruct (Or _ I) as [L|(s' & c & ks & _ & Eq & O)].
    + apply outlined_leaf. exact (leaf_kid _ _ _ _ L J).
    + injection Eq as _ _ <-. exact (O x J).
  - destruct (is_element k) eqn:El; [|now destruct (not_element _ El) as (t & ->)]. destruct HP as [_ HP].
    destruct (HP k I El) as (a & kids & -> & _). cbn [is_named] in E. unfold named in E. rewrite str_eqb_refl in E. discriminate.
Qed.

Lemma other_outline l : (forall k, In k l -> kid_ok k) -> (forall k, In k l -> is_named "main" k = false /\ is_named "appendix" k = false) ->
  flat_map (outline false) l = [].
Proof.
  intros Or N. apply flat_none. intros k I. destruct (Or k I) as [L|(s & a & ks & S & -> & _)]; [exact (leaf_outline k L false)|].
  destruct (N _ I) as [N1 N2]. destruct S as [-> | ->]; discriminate.
Qed.

Lemma contents_outline d : document d -> organized d -> links false 0 (table_of_contents d) = outline false d.
Proof.
  intros D (a & kids & Eq & _ & Or). destruct D as [b Ab R P M A HN HR BR HP HM HA]. injection Eq as <- <-.
  set (d0 := Elem (lit "document") b (Ab ++ R ++ P ++ M ++ A)).
  assert (T : table_of_contents d0 = HElem (lit "nav") [(lit "id", lit "toc")] (HElem (lit "h1") [] [HText (lit "Table of contents")] ::
    flat_map (fun k => if is_named "main" k then toc k else []) M ++ flat_map (fun k => if is_named "appendix" k then toc k else []) A)).
  { unfold table_of_contents, d0. change (named "document" (lit "document")) with true. cbv iota. rewrite !flat_map_app.
    rewrite (about_other Ab _ "main" HN), (about_other Ab _ "appendix" HN) by no_about.
    rewrite (part_other _ _ R _ "main" HR), (part_other _ _ P _ "main" HP), (part_other _ _ A _ "main" HA),
      (part_other _ _ R _ "appendix" HR), (part_other _ _ P _ "appendix" HP), (part_other _ _ M _ "appendix" HM) by discriminate.
    now rewrite !app_nil_r. }
  assert (Np : forall s app l, part s app l -> s <> "main"%string -> s <> "appendix"%string -> forall k, In k l -> is_named "main" k = false /\ is_named "appendix" k = false).
  { intros s app l [_ H] N1 N2 k I. destruct (is_element k) eqn:El; [|now destruct (not_element _ El) as (t & ->)].
    destruct (H k I El) as (c & ks & -> & _). cbn [is_named]. split; apply named_no; intro E; apply lit_inj in E; contradiction. }
  rewrite T, links_skip by discriminate. cbn [flat_map]. rewrite flat_map_app.
  change (links false 0 (HElem (lit "h1") [] [HText (lit "Table of contents")])) with (@nil entry). cbn [List.app].
  rewrite (part_outline "main" false M HM), (part_outline "appendix" true A HA); auto.
  2, 3: intros k I; apply Or; rewrite !in_app_iff; auto.
  change (outline false d0) with (flat_map (outline false) (Ab ++ R ++ P ++ M ++ A)). rewrite !flat_map_app.
  rewrite (other_outline Ab), (other_outline R), (other_outline P); try reflexivity; try (intros k I; apply Or; rewrite !in_app_iff; auto; fail);
    try (eapply Np; [eassumption|discriminate|discriminate]).
  intros k I. pose proof (about_name k (HN k I)) as K. destruct k as [name c ks|c ks l|t]; [|destruct K|now split]. cbn [is_named].
  split; apply named_no; intros ->; destruct K as [K|[K|[K|[]]]]; discriminate.
Qed.

Lemma contents_complete d a kids : document d -> organized d -> on_page (HElem (lit "nav") a kids) (page d) ->
  links false 0 (HElem (lit "nav") a kids) = outline false d /\ flat_map headings (page d) = outline false d.
Proof.
  intros D O P. assert (Top : contents_on_top d) by (destruct O as (b & ks & -> & T & _); exact T).
  rewrite (page_nav d a kids D (organized_no_nav d O) Top P). rewrite <- (contents_listed d D O). split; exact (contents_outline d D O).
Qed.

Lemma page_outline d : document d -> organized d -> flat_map headings (page d) = outline false d.
Proof. intros D O. rewrite <- (contents_listed d D O). exact (contents_outline d D O). Qed.

Lemma contents_made d a : document d -> inside (Elem (lit "tableofcontents") a []) d -> on_page (table_of_contents d) (page d).
Proof.
  intros D I. set (x := Elem (lit "tableofcontents") a []) in *.
  assert (B : below_root x d).
  { destruct D as [b Ab R P M A]. inversion I as [|n b' ks k J K|]. eexists _, _, _, k. eauto. }
  destruct (document_rendered d D x) as (above & U & F & C).
  - split; discriminate.
  - split; [|intros _]; intro H; cbn in H; repeat (destruct H as [H|H]; [discriminate|]); destruct H.
  - exact B.
  - apply C. eexists. split; [now left|apply within_here].
Qed.

(** * Sections on the page *)

Lemma shallow_kid name a kids k : shallow (Elem name a kids) -> In k kids -> shallow k.
Proof. intros S I b l f c m n e ks x J. exact (S b l f c m n e ks x (inside_kid _ _ _ _ k I J)). Qed.

Lemma headings_same {A} (f : A -> list html) (g : A -> list entry) l : (forall k, In k l -> flat_map headings (f k) = g k) ->
  flat_map headings (flat_map f l) = flat_map g l.
Proof. intro H. rewrite flat_flat. now apply flat_same. Qed.

Lemma outline_other app name a kids : ~ among levels name -> name <> lit "appendix" -> outline app (Elem name a kids) = flat_map (outline app) kids.
Proof.
  intros N1 N2. cbn [outline]. fold (named "chapter" name) (named "section" name) (named "subsection" name) (named "appendix" name).
  rewrite (named_no "appendix") by exact N2. rewrite orb_false_r.
  now rewrite (named_no "subsection"), (named_no "section"), (named_no "chapter") by (intros ->; apply N1; unfold among, levels; cbn [map]; cbv [In]; auto).
Qed.

Lemma special_levels name : ~ among special name -> ~ among levels name /\ name <> lit "appendix".
Proof.
  intro N. split.
  - intro L. apply N. unfold among, levels in L. cbn [map] in L. destruct L as [<-|[<-|[<-|[]]]]; special_name.
  - intros ->. apply N. special_name.
Qed.

Lemma some_elements {B} (g : node -> list B) l : (forall s, g (Text s) = []) ->
  flat_map (fun k => if is_element k then g k else []) l = flat_map g l.
Proof. intro H. apply flat_same. intros k _. destruct k; cbn [is_element]; auto. Qed.

Lemma headings_elements (f : node -> list html) (g : node -> list entry) l : (forall k, In k l -> is_element k = true -> flat_map headings (f k) = g k) ->
  (forall s, g (Text s) = []) -> flat_map headings (flat_map (fun k => if is_element k then f k else []) l) = flat_map g l.
Proof.
  intros H T. apply headings_same. intros k I. destruct (is_element k) eqn:E; [exact (H k I E)|].
  destruct (not_element _ E) as (t & ->). now rewrite T.
Qed.

Lemma headings_named s (f : node -> list html) (g : node -> list entry) l : (forall k, In k l -> is_named s k = true -> flat_map headings (f k) = g k) ->
  (forall k, In k l -> is_named s k = false -> g k = []) -> flat_map headings (flat_map (fun k => if is_named s k then f k else []) l) = flat_map g l.
Proof. intros H T. apply headings_same. intros k I. destruct (is_named s k) eqn:E; [exact (H k I E)|]. symmetry. now apply T. Qed.

Lemma section_headings name (app : bool) a kids (content : list html) : among sections name ->
  flat_map headings content = flat_map (outline app) kids ->
  headings (section_of name (if app then lit "_appendix" else []) a content) = outline app (Elem name a kids).
Proof.
  intros S H. revert name S. apply section_cases;
    try (rewrite headings_section; [rewrite outline_other; [exact H| |discriminate]| | |apply suffix_cases]; try special_name;
         intro L; unfold among, levels in L; cbn [map] in L; destruct L as [L|[L|[L|[]]]]; discriminate).
  - rewrite headings_listed with (app := app) (lvl := 1) by now destruct app. rewrite title_text, H.
    change (outline app _) with ((app, 1, value_of "id" a, value_of "title" a) :: flat_map (outline (app || false)) kids). now rewrite orb_false_r.
  - rewrite headings_listed with (app := app) (lvl := 2) by now destruct app. rewrite title_text, H.
    change (outline app _) with ((app, 2, value_of "id" a, value_of "title" a) :: flat_map (outline (app || false)) kids). now rewrite orb_false_r.
  - rewrite headings_listed with (app := app) (lvl := 3) by now destruct app. rewrite title_text, H.
    change (outline app _) with ((app, 3, value_of "id" a, value_of "title" a) :: flat_map (outline (app || false)) kids). now rewrite orb_false_r.
Qed.

Lemma markup_outline n : markup n -> forall app, outline app n = [].
Proof.
  induction 1 as [s|name a kids N K IH]; intro app; [reflexivity|]. destruct (special_levels name N) as [N1 N2]. rewrite outline_other by assumption.
  apply flat_none. intros k I. exact (IH k I app).
Qed.

Lemma flow_outline app n : flow app n -> (app = true -> shallow n) -> forall root above, usual above -> in_appendix above = app ->
  flat_map headings (apply Plain root above n) = outline app n.
Proof.
  induction 1 as [app s|app name b l N FK IH|app name b l S B FK IH|app b l C FK IH|app b|app b|app b l B P FK IH|
    app b l B P FK IH|app b b' l B FK IH G];
    intros Sh root above U A.
  - reflexivity.
  - destruct (special_levels name N) as [N1 N2]. rewrite outline_other by assumption.
    destruct (copied above name root b l N U) as (name' & -> & Hn). cbn [flat_map]. rewrite app_nil_r, headings_skip.
    + apply headings_same. intros k I. exact (IH k I (fun E => shallow_kid _ _ _ _ (Sh E) I) root (name :: above) (usual_other _ _ N) (eq_trans (appendix_other _ above N) A)).
    + destruct Hn as [-> | [_ ->]]; [|discriminate]. apply other_not; [special_name|exact N].
  - rewrite (section_made above name root b l S), A. cbn [flat_map]. rewrite app_nil_r. apply (section_headings name app b l _ S).
    apply headings_elements; [|reflexivity]. intros k I _.
    exact (IH k I (fun E => shallow_kid _ _ _ _ (Sh E) I) root (name :: above) (usual_section _ _ S) (eq_trans (appendix_section _ above S) A)).
  - cbn [apply]. change (choose above (lit "ref")) with TRef. cbn [flat_map]. rewrite app_nil_r, headings_skip by discriminate.
    rewrite outline_other; [|intro H; unfold among, levels in H; cbn [map] in H; destruct H as [H|[H|[H|[]]]]; discriminate|discriminate].
    destruct l as [|x l'] eqn:El; [apply headings_texts|]. rewrite <- El in *.
    destruct C as (s & Is & Ns); [now rewrite El|]. pose proof (own_text s _ Is Ns) as Nt. destruct (flat_map string_value l); [contradiction|].
    apply headings_same. intros k I. exact (IH k I (fun E => shallow_kid _ _ _ _ (Sh E) I) root (lit "ref" :: above) (conj eq_refl eq_refl) A).
  - cbn [apply]. change (choose above (lit "manpage")) with TManpage. cbn [flat_map headings]. rewrite app_nil_r.
    change (str_eqb (lit "a") (lit "section")) with false. change (str_eqb (lit "code") (lit "section")) with false. cbn [List.app].
    rewrite headings_texts, flat_map_app, headings_texts. reflexivity.
  - cbn [apply]. change (choose above (lit "tableofcontents")) with TContents. cbn [flat_map]. now rewrite headings_contents.
  - cbn [apply]. change (choose above (lit "property-list")) with TPropertyList. cbn [flat_map headings th]. rewrite app_nil_r.
    change (str_eqb (lit "table") (lit "section")) with false. change (str_eqb (lit "tr") (lit "section")) with false. cbn [List.app].
    rewrite outline_other; [|intro H; unfold among, levels in H; cbn [map] in H; destruct H as [H|[H|[H|[]]]]; discriminate|discriminate].
    apply headings_named.
    2:{ intros k I E. destruct (is_element k) eqn:El; [destruct (P k I El) as (c & types & descs & -> & _); discriminate|].
        now destruct (not_element _ El) as (t & ->). }
    intros k I E. assert (El : is_element k = true) by (destruct k; [reflexivity|reflexivity|discriminate]).
    destruct (P k I El) as (c & types & descs & -> & B' & Ty & De). cbn [apply].
    change (choose (lit "property-list" :: above) (lit "property")) with TProperty. unfold td. cbn [flat_map headings]. rewrite !app_nil_r.
    change (str_eqb (lit "tr") (lit "section")) with false. change (str_eqb (lit "td") (lit "section")) with false. cbn [List.app].
    rewrite headings_texts. cbn [List.app].
    rewrite outline_other; [|intro H; unfold among, levels in H; cbn [map] in H; destruct H as [H|[H|[H|[]]]]; discriminate|discriminate].
    rewrite !flat_map_app.
    assert (Q : forall t, In t (types ++ descs) -> flat_map headings (apply Plain root (lit "property" :: lit "property-list" :: above) t) = outline app t).
    { intros t J. exact (IH c _ t I J (fun E => shallow_kid _ _ _ _ (shallow_kid _ _ _ _ (Sh E) I) J) root (lit "property" :: lit "property-list" :: above) (conj eq_refl eq_refl) A). }
    assert (No : forall s s' l, (forall t, In t l -> is_element t = true -> exists a'' ks, t = Elem (lit s') a'' ks) -> s <> s' ->
      flat_map (fun t => if is_named s t then apply Plain root (lit "property" :: lit "property-list" :: above) t else []) l = []).
    { intros s s' l0 H Ns. apply flat_none. intros t J. destruct (is_element t) eqn:Et; [|now destruct (not_element _ Et) as (x & ->)].
      destruct (H t J Et) as (x & y & ->). cbn [is_named]. rewrite named_no; [reflexivity|]. intro X. apply Ns. symmetry. now apply lit_inj. }
    rewrite (No "type"%string "desc"%string descs De), (No "desc"%string "type"%string types Ty) by discriminate. cbn [flat_map]. rewrite app_nil_r. cbn [List.app].
    rewrite (headings_named "type" _ (outline app) types), (headings_named "desc" _ (outline app) descs); try reflexivity;
      try (intros t J _; apply Q; apply in_or_app; auto; fail);
      intros t J X; (destruct (is_element t) eqn:Et; [|now destruct (not_element _ Et) as (x & ->)]).
    + destruct (De t J Et) as (x & y & ->). discriminate.
    + destruct (Ty t J Et) as (x & y & ->). discriminate.
  - cbn [apply]. change (choose above (lit "enum")) with TEnum. cbn [flat_map headings th]. rewrite app_nil_r.
    change (str_eqb (lit "table") (lit "section")) with false. change (str_eqb (lit "tr") (lit "section")) with false. cbn [List.app].
    rewrite outline_other; [|intro H; unfold among, levels in H; cbn [map] in H; destruct H as [H|[H|[H|[]]]]; discriminate|discriminate].
    apply headings_named.
    2:{ intros k I E. destruct (is_element k) eqn:El; [destruct (P k I El) as (c & ks & ->); discriminate|].
        now destruct (not_element _ El) as (t & ->). }
    intros k I E. assert (El : is_element k = true) by (destruct k; [reflexivity|reflexivity|discriminate]).
    destruct (P k I El) as (c & ks & ->). cbn [apply].
    change (choose (lit "enum" :: above) (lit "item")) with TItem. unfold td. cbn [flat_map headings]. rewrite !app_nil_r.
    change (str_eqb (lit "tr") (lit "section")) with false. change (str_eqb (lit "td") (lit "section")) with false. cbn [List.app].
    rewrite headings_texts. cbn [List.app].
    rewrite outline_other; [|intro H; unfold among, levels in H; cbn [map] in H; destruct H as [H|[H|[H|[]]]]; discriminate|discriminate].
    apply headings_same. intros t J.
    exact (IH c _ t I J (fun E => shallow_kid _ _ _ _ (shallow_kid _ _ _ _ (Sh E) I) J) root (lit "item" :: lit "enum" :: above) (conj eq_refl eq_refl) A).
  - cbn [apply]. change (named "content" (lit "content")) with true. cbv iota. cbn [outline]. apply headings_elements; [|reflexivity]. intros k I El.
    destruct (in_appendix above) eqn:Ap.
    + subst app. destruct (G eq_refl k I El) as [(name & c & ks & -> & S)|Mk].
      * rewrite (section_made_appendix _ _ _ _ _ S). cbn [flat_map]. rewrite app_nil_r.
        apply (section_headings name true c ks _ S).
        destruct (flow_in_section _ _ _ _ S (FK _ I)) as [_ FT].
        assert (Lk : forall t, In t ks -> leaf t) by (intros t J; exact (Sh eq_refl _ _ _ _ _ _ _ _ t (inside_here _) I J)).
        transitivity (@nil entry); [|symmetry; apply flat_none; intros t J; exact (leaf_outline t (Lk t J) true)].
        apply headings_some. intros t J _.
        exact (leaf_headings false t (FT t J) (Lk t J) _ _ (usual_section _ _ S) (appendix_section name [lit "content"] S)).
      * rewrite (markup_outline k Mk true). exact (markup_headings k Mk _ _).
    + subst app. apply (IH k I); [discriminate|now split|reflexivity].
Qed.

Lemma page_headings d : document d -> (forall a kids k, d = Elem (lit "document") a kids -> In k kids -> is_named "appendix" k = true -> shallow k) ->
  flat_map headings (page d) = outline false d.
Proof.
  intros D Sh. destruct D as [b Ab R P M A HN HR BR HP HM HA]. rewrite page_parts by assumption.
  set (d0 := Elem (lit "document") b (Ab ++ R ++ P ++ M ++ A)) in *.
  change (outline false d0) with (flat_map (outline false) (Ab ++ R ++ P ++ M ++ A)). rewrite !flat_map_app.
  replace (flat_map (outline false) Ab) with (@nil entry).
  2:{ symmetry. apply flat_none. intros k I. generalize (HN k I). clear. induction 1 as [s Bl|name a kids Na E K IH]; [reflexivity|].
      rewrite outline_other; [apply flat_none; exact IH|..].
      - intro H. unfold among, levels in H. cbn [map] in H. destruct H as [<-|[<-|[<-|[]]]]; destruct Na as [Na|[Na|[Na|[]]]]; discriminate.
      - intros ->. destruct Na as [Na|[Na|[Na|[]]]]; discriminate. }
  cbn [List.app flat_map]. rewrite app_nil_r, (headings_skip (lit "html")) by discriminate. cbn [flat_map].
  rewrite app_nil_r, (headings_skip (lit "head")), (headings_skip (lit "body")) by discriminate.
  cbn [flat_map]. rewrite (headings_skip (lit "title")) by discriminate. unfold heading. rewrite (headings_skip (lit "h1")) by discriminate.
  rewrite headings_texts. cbn [List.app]. rewrite !flat_map_app.
  assert (Pt : forall s app l, part s app l -> (s = "prelims"%string /\ app = false \/ s = "main"%string /\ app = false \/ s = "appendix"%string /\ app = true) ->
    (app = true -> forall k, In k l -> is_named s k = true -> shallow k) ->
    flat_map headings (flat_map (fun k => if is_named s k then apply Plain d0 [lit "document"] k else []) l) = flat_map (outline false) l).
  { intros s app l [Bl H] C Sl. apply headings_named.
    - intros k I E. destruct (H k I) as (a & ks & -> & F); [destruct k; [reflexivity|reflexivity|discriminate]|].
      assert (Ap : apply Plain d0 [lit "document"] (Elem (lit s) a ks) = flat_map (apply Plain d0 [lit s; lit "document"]) ks)
        by (destruct C as [[-> _]|[[-> _]|[-> _]]]; reflexivity).
      assert (U : usual [lit s; lit "document"]) by (destruct C as [[-> _]|[[-> _]|[-> _]]]; now split).
      assert (Ia : in_appendix [lit s; lit "document"] = app) by (destruct C as [[-> ->]|[[-> ->]|[-> ->]]]; reflexivity).
      assert (Ou : outline false (Elem (lit s) a ks) = flat_map (outline app) ks) by (destruct C as [[-> ->]|[[-> ->]|[-> ->]]]; reflexivity).
      rewrite Ap, Ou. apply headings_same. intros x J. apply flow_outline; [exact (F x J)| |exact U|exact Ia].
      intro T. exact (shallow_kid _ _ _ _ (Sl T _ I E) J).
    - intros k I E. destruct (is_element k) eqn:El; [|now destruct (not_element _ El) as (t & ->)].
      destruct (H k I El) as (a & ks & -> & _). cbn [is_named] in E. unfold named in E. rewrite str_eqb_refl in E. discriminate. }
  rewrite (Pt "prelims"%string false P HP), (Pt "main"%string false M HM), (Pt "appendix"%string true A HA); try tauto; try discriminate.
  2:{ intros _ k I E. apply (Sh b _ k eq_refl); [rewrite !in_app_iff; auto|exact E]. }
  f_equal. unfold resources_of. destruct HR as [Bl HR]. apply headings_same. intros k I.
  destruct (is_element k) eqn:El; [|now destruct (not_element _ El) as (t & ->)].
  destruct (HR k I El) as (a & ks & -> & F). change (named "resources" (lit "resources")) with true. cbv iota.
  change (outline false (Elem (lit "resources") a ks)) with (flat_map (outline false) ks). apply headings_elements; [|reflexivity].
  intros x J _. apply (flow_outline false x (F x J)); [discriminate|now split|reflexivity].
Qed.
