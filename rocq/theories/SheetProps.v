(** The pages that recipes/doc2html.xsl makes from documents: C111, C112 and C113. *)

From Coq Require Import Ascii String Bool.
From Coq Require Import List.
From Verif Require Import Str PathProofs DocModel SheetModel SheetSpec SheetProofs SheetLinks SheetContents.
Import ListNotations.

(** * C111 *)

(** The table of contents lists the chapters, the sections and the subsections with their
    titles, each of them once, in order and on its level, and they are found on the page in
    the same way. *)
Theorem C111_contents : forall d a kids, document d -> organized d -> on_page (HElem (lit "nav") a kids) (page d) ->
  links false 0 (HElem (lit "nav") a kids) = outline false d /\ flat_map headings (page d) = outline false d.
Proof. intros d a kids. exact (contents_complete d a kids). Qed.

(** A document that asks for a table of contents gets one. *)
Theorem C111_made : forall d a, document d -> inside (Elem (lit "tableofcontents") a []) d ->
  exists a' kids, on_page (HElem (lit "nav") a' kids) (page d).
Proof. intros d a D I. eexists _, _. exact (contents_made d a D I). Qed.

(** Also in documents with other tables of contents, or with none, the chapters, sections
    and subsections are on the page, in order, with those of the files that are included. *)
Theorem C111_sections : forall d, document d ->
  (forall a kids k, d = Elem (lit "document") a kids -> In k kids -> is_named "appendix" k = true -> shallow k) ->
  flat_map headings (page d) = outline false d.
Proof. exact page_headings. Qed.

(** * C112 *)

(** The texts of a document, the titles of its sections and what else is to be seen of its
    attributes are on the page, in order, with those of the files that are included. *)
Theorem C112_text : forall d, document d -> subsequence (visible (pieces [] d)) (visible (flat_map texts (page d))).
Proof. exact document_shown. Qed.

(** All of them are in the body of the page, and its title is also that of the page. *)
Theorem C112_body : forall d, document d -> exists head body, page d = [HElem (lit "html") [] [HElem (lit "head") [] head; HElem (lit "body") [] body]] /\
  subsequence (visible (pieces [] (without_resources d))) (visible (flat_map texts body)) /\
  forall a kids, d = Elem (lit "document") a kids -> In (HElem (lit "title") [] (text (value_of "title" a))) head.
Proof. exact body_shown. Qed.

(** Elements that are as in HTML are on the page, with all their attributes. *)
Theorem C112_copied : forall d name a kids, document d -> part_of (Elem name a kids) d ->
  ~ among (special ++ ["property"; "item"; "resources"; "copyright"; "author"; "year"]%string) name ->
  exists name' content, on_page (HElem name' a content) (page d) /\ (name' = name \/ (name = lit "caption" /\ name' = lit "figcaption")).
Proof. exact copied_made. Qed.

(** Resources are put into the head of the page. *)
Theorem C112_resources : forall d a kids b rs name c l, document d -> d = Elem (lit "document") a kids -> In (Elem (lit "resources") b rs) kids ->
  In (Elem name c l) rs -> ~ among special name ->
  exists head body content, page d = [HElem (lit "html") [] [HElem (lit "head") [] head; body]] /\ In (HElem name c content) head.
Proof. exact resources_copied. Qed.

(** * C113 *)

(** If everything that is referred to exists, then no link on the page leads nowhere. *)
Theorem C113_links : forall d, document d -> (forall x, refers_to d x -> has_item d x) -> forall x, link_to (page d) x -> target (page d) x.
Proof. exact no_dead_links. Qed.

(** A reference is made a link. The text of the link is the title of what is referred to,
    unless the reference has a text of its own. *)
Theorem C113_reference : forall d f a kids, document d -> file_of d f -> inside (Elem (lit "ref") a kids) f ->
  exists content, on_page (HElem (lit "a") [(lit "href", lit "#" ++ value_of "item" a)] content) (page d) /\
    (kids = [] -> forall x t, attribute (lit "item") a = Some x -> item_title f x t -> concat (flat_map texts content) = t) /\
    subsequence (visible (flat_map (pieces (lit "ref")) kids)) (visible (flat_map texts content)).
Proof. exact reference_made. Qed.

(** * Examples *)

Definition el (name : string) (a : list (string * string)) (kids : list node) : node :=
  Elem (lit name) (map (fun x => (lit (fst x), lit (snd x))) a) kids.
Definition tx (s : string) : node := Text (lit s).
Definition inc (src : string) (kids : list node) : node := Include [(lit "src", lit src)] [] (Some (el "content" [] kids)).
Arguments el name%string_scope a%list_scope kids%list_scope.
Arguments tx s%string_scope.
Arguments inc src%string_scope kids%list_scope.

Definition named_section (name title id : string) (kids : list node) : node := el name [("title", title); ("id", id)]%string kids.
Arguments named_section (name title id)%string_scope kids%list_scope.

Definition a_guide (main appendix : list node) : node :=
  el "document" [("title", "Maike 2.0 user guide")]%string
    ([el "copyright" [] [el "author" [("name", "Torbjorn Rathsman")]%string [el "year" [("value", "2021")]%string []]]] ++
     [el "resources" [] [el "link" [("rel", "stylesheet"); ("href", "./format.css")]%string []]] ++
     [el "prelims" [] [el "tableofcontents" [] []]] ++
     [el "main" [] main] ++ [el "appendix" [] appendix]).

(** Parts of doc/maike.doc.xml *)
Definition introduction : list node :=
  [named_section "chapter" "Introduction" "Introduction"
     [el "p" [] [tx "Maike is a build system based on scanning of source files."];
      named_section "section" "Limitations" "limitations"
        [el "p" [] [tx "Maike separates the scanning phase from the compilation phase, see "; el "ref" [("item", "algo")]%string []; tx "."]]];
   named_section "chapter" "Mapping filename extensions to recipes" "mappings"
     [el "p" [] [tx "Mappings are specified in the "; el "ref" [("item", "defaultcfg")]%string [tx "project configuration file"]]]].

Definition options : list node :=
  [named_section "chapter" "Command line options" "cmdlineopts" [inc "./cmdlineopts.xml" [el "p" [] [tx "Options are"]]];
   named_section "chapter" "Default configuration" "defaultcfg"
     [named_section "section" "Dependency" "deps"
        [el "property-list" []
           [el "property" [("name", "origin")]%string
              [el "type" [] [tx "string"]; el "desc" [] [tx "One of"; el "enum" [] [el "item" [("name", "generated")]%string [tx "Generated"]]]]];
         el "manpage" [("name", "pkg-config"); ("section", "1")]%string []]];
   named_section "chapter" "Schematics" "schematics"
     [named_section "section" "Components" "components" [];
      named_section "section" "Algorithm" "algo" [named_section "subsection" "Compile" "compile" []]]].

Definition guide : node := a_guide introduction options.

Lemma other_name s : existsb (String.eqb s) special = false -> ~ among special (lit s).
Proof.
  intros E I. unfold among in I. apply in_map_iff in I. destruct I as (t & L & I). apply lit_inj in L. subst t.
  assert (X : existsb (String.eqb s) special = true) by (apply existsb_exists; exists s; split; [exact I|apply String.eqb_refl]).
  rewrite X in E. discriminate.
Qed.

Lemma section_name s : existsb (String.eqb s) sections = true -> among sections (lit s).
Proof. intro E. apply existsb_exists in E. destruct E as (t & I & E). apply String.eqb_eq in E. subst t. now apply in_map. Qed.

Ltac each := let k := fresh "k" in let I := fresh "I" in intros k I; repeat (destruct I as [<-|I]); try destruct I.
Ltac no_text := let s := fresh "s" in let I := fresh "I" in intros s I; cbn in I; repeat (destruct I as [I|I]; [discriminate|]); destruct I.
Ltac a_flow :=
  lazymatch goal with
  | |- flow _ (tx _) => apply flow_text
  | |- flow _ (el "ref" _ _) => apply flow_ref; [let H := fresh in intro H; solve [exfalso; apply H; reflexivity | eexists; split; [left; reflexivity|discriminate]]|each; a_flow]
  | |- flow _ (el "manpage" _ _) => apply flow_manpage
  | |- flow _ (el "tableofcontents" _ _) => apply flow_contents
  | |- flow _ (inc _ _) => apply flow_include; [no_text|each; a_flow|]
  | |- flow _ (named_section _ _ _ _) => apply flow_section; [apply section_name; reflexivity|no_text|each; a_flow]
  | |- flow _ (el "property-list" _ _) => idtac
  | |- flow _ (el "enum" _ _) => idtac
  | |- flow _ (el _ _ _) => apply flow_other; [apply other_name; reflexivity|each; a_flow]
  end.
Ltac a_part := split; [no_text|]; each; intros _; eexists _, _; (split; [reflexivity|]); each; a_flow.

Lemma guide_document main appendix :
  (forall x, In x main -> flow false x) -> (forall x, In x appendix -> flow true x) -> document (a_guide main appendix).
Proof.
  intros HM HA. unfold a_guide. apply a_document.
  - each. apply about_this; [left; reflexivity|reflexivity|]. each. apply about_this; [right; left; reflexivity|reflexivity|]. each.
    apply about_this; [right; right; left; reflexivity|reflexivity|]. each.
  - a_part.
  - intros a ks [I|[]]. injection I as _ <-. no_text.
  - a_part.
  - split; [no_text|]. each. intros _. eexists _, _. split; [reflexivity|]. exact HM.
  - split; [no_text|]. each. intros _. eexists _, _. split; [reflexivity|]. exact HA.
Qed.

Example guide_is_document : document guide.
Proof.
  apply guide_document.
  - each; a_flow.
  - each; a_flow.
    + intros _. each. intros _. right. apply markup_elem; [apply other_name; reflexivity|]. each. apply markup_text.
    + apply flow_properties; [no_text| |].
      * each. intros _. exists [(lit "name", lit "origin")], [el "type" [] [tx "string"]], [el "desc" [] [tx "One of"; el "enum" [] [el "item" [("name", "generated")]%string [tx "Generated"]]]].
        split; [reflexivity|]. split; [no_text|]. split; each; intros _; eexists _, _; reflexivity.
      * intros a ks t [I|[]] J. injection I as <- <-. revert t J. each.
        -- apply flow_other; [apply other_name; reflexivity|]. each. a_flow.
        -- apply flow_other; [apply other_name; reflexivity|]. each; [a_flow|]. apply flow_enum; [no_text| |].
           ++ each. intros _. eexists _, _. reflexivity.
           ++ intros a ks t [I|[]] J. injection I as <- <-. revert t J. each. a_flow.
Qed.

(** Whether something is a leaf can be found out. *)
Fixpoint leafb (n : node) : bool :=
  match n with
  | Elem name _ kids => negb (one_of ["chapter"; "section"; "subsection"; "nav"]%string name) && forallb leafb kids
  | Include _ kids (Some (Elem _ _ ks)) => forallb leafb kids && forallb leafb ks
  | Include _ kids _ => forallb leafb kids
  | Text _ => true
  end.

Lemma leafb_leaf n : leafb n = true -> leaf n.
Proof.
  intros H name a kids P. revert H. induction P as [|name' b l k I P IH|b l o k I P IH|b l name' c ks k I P IH]; intro H.
  - cbn [leafb] in H. apply andb_true_iff in H. destruct H as [H _]. apply negb_true_iff in H. split.
    + intro A. assert (X : one_of ["chapter"; "section"; "subsection"; "nav"]%string name = true); [|congruence].
      apply existsb_exists. unfold among, levels in A. apply in_map_iff in A. destruct A as (s & <- & A). exists s.
      split; [cbn in A |- *; tauto|]. unfold named. apply str_eqb_refl.
    + intros ->. discriminate.
  - cbn [leafb] in H. apply andb_true_iff in H. rewrite forallb_forall in H. now apply IH, H.
  - apply IH. destruct o as [[n' c ks|c ks o'|s]|]; cbn [leafb] in H; [apply andb_true_iff in H; destruct H as [H _]|..];
      rewrite forallb_forall in H; now apply H.
  - cbn [leafb] in H. apply andb_true_iff in H. destruct H as [_ H]. rewrite forallb_forall in H. now apply IH, H.
Qed.

(** Whether there is a table of contents, or an include *)
Fixpoint no_contents (n : node) : bool :=
  match n with
  | Elem name _ kids => negb (named "tableofcontents" name) && forallb no_contents kids
  | Include _ kids (Some (Elem _ _ ks)) => forallb no_contents kids && forallb no_contents ks
  | Include _ kids _ => forallb no_contents kids
  | Text _ => true
  end.

Fixpoint top_contents (n : node) : bool :=
  match n with
  | Elem name _ kids => forallb top_contents kids
  | Include _ kids (Some f) => forallb top_contents kids && no_contents f && top_contents f
  | Include _ kids None => forallb top_contents kids
  | Text _ => true
  end.

Lemma no_contents_right n a : no_contents n = true -> ~ part_of (Elem (lit "tableofcontents") a []) n.
Proof.
  intros H P. revert H. induction P as [|name' b l k I P IH|b l o k I P IH|b l name' c ks k I P IH]; intro H.
  - discriminate.
  - cbn [no_contents] in H. apply andb_true_iff in H. rewrite forallb_forall in H. now apply IH, H.
  - apply IH. destruct o as [[n' c ks|c ks o'|s]|]; cbn [no_contents] in H; [apply andb_true_iff in H; destruct H as [H _]|..];
      rewrite forallb_forall in H; now apply H.
  - cbn [no_contents] in H. apply andb_true_iff in H. destruct H as [_ H]. rewrite forallb_forall in H. now apply IH, H.
Qed.

Lemma top_contents_right n : top_contents n = true -> contents_on_top n.
Proof.
  intros H a kids f a' P. revert H. induction P as [|name' b l k I P IH|b l o k I P IH|b l name' c ks k I P IH]; intro H.
  - cbn [top_contents] in H. rewrite !andb_true_iff in H. now apply no_contents_right.
  - cbn [top_contents] in H. rewrite forallb_forall in H. now apply IH, H.
  - apply IH. destruct o; cbn [top_contents] in H; rewrite ?andb_true_iff in H; rewrite forallb_forall in H; now apply H.
  - cbn [top_contents] in H. rewrite !andb_true_iff in H. destruct H as [_ H]. rewrite forallb_forall in H. now apply IH, H.
Qed.

Ltac an_outline :=
  try unfold levels;
  lazymatch goal with
  | |- outlined (?s :: _) (named_section ?s _ _ _) => apply outlined_level; each; an_outline
  | |- _ => apply outlined_leaf, leafb_leaf; reflexivity
  end.

Lemma guide_organized main appendix :
  contents_on_top (a_guide main appendix) -> (forall x, In x main -> outlined levels x) -> (forall x, In x appendix -> outlined levels x) ->
  organized (a_guide main appendix).
Proof.
  intros T HM HA. eexists _, _. split; [reflexivity|]. split; [exact T|]. cbn [List.app]. each; try (left; apply leafb_leaf; reflexivity).
  - right. exists "main"%string, [], main. auto.
  - right. exists "appendix"%string, [], appendix. auto.
Qed.

Example guide_is_organized : organized guide.
Proof. apply guide_organized; [apply top_contents_right; reflexivity|each; an_outline|each; an_outline]. Qed.

Example guide_contents : exists a kids, on_page (HElem (lit "nav") a kids) (page guide) /\
  links false 0 (HElem (lit "nav") a kids) =
  [(false, 1, lit "Introduction", lit "Introduction"); (false, 2, lit "limitations", lit "Limitations");
   (false, 1, lit "mappings", lit "Mapping filename extensions to recipes");
   (true, 1, lit "cmdlineopts", lit "Command line options"); (true, 1, lit "defaultcfg", lit "Default configuration");
   (true, 2, lit "deps", lit "Dependency"); (true, 1, lit "schematics", lit "Schematics"); (true, 2, lit "components", lit "Components");
   (true, 2, lit "algo", lit "Algorithm"); (true, 3, lit "compile", lit "Compile")].
Proof.
  destruct (C111_made guide [] guide_is_document) as (a & kids & O).
  - eapply inside_kid; [right; right; left; reflexivity|]. eapply inside_kid; [left; reflexivity|]. apply inside_here.
  - exists a, kids. split; [exact O|]. now destruct (C111_contents guide a kids guide_is_document guide_is_organized O) as [-> _].
Qed.

(** The references of the guide, to algo and defaultcfg *)
Fixpoint referred (n : node) : list str :=
  match n with
  | Elem name a kids =>
      (if named "ref" name then [value_of "item" a] else []) ++
      (if named "a" name then match attribute (lit "href") a with Some v => [skipn 1 v] | None => [] end else []) ++ flat_map referred kids
  | Include _ kids (Some (Elem _ _ ks)) => flat_map referred kids ++ flat_map referred ks
  | Include _ kids _ => flat_map referred kids
  | Text _ => []
  end.

Lemma referred_right n x : refers_to n x -> In x (referred n).
Proof.
  assert (Go : forall y m, part_of y m -> In x (referred y) -> In x (referred m)).
  { intros y m P H. induction P as [|name' b l k I P IH|b l o k I P IH|b l name' c ks k I P IH]; [exact H|..].
    - cbn [referred]. rewrite !in_app_iff, in_flat_map. eauto.
    - assert (X : In x (flat_map referred l)) by (apply in_flat_map; eauto).
      destruct o as [[n' c ks|c ks o'|s]|]; cbn [referred]; rewrite ?in_app_iff; auto.
    - cbn [referred]. rewrite in_app_iff, !in_flat_map. right. eauto. }
  intros [a kids P E|a kids P E]; apply (Go _ _ P); cbn [referred].
  - left. exact E.
  - apply in_or_app. right. rewrite E. left. reflexivity.
Qed.

Example guide_references : (forall x, refers_to guide x -> has_item guide x) /\ link_to (page guide) (lit "algo") /\ target (page guide) (lit "algo").
Proof.
  assert (H : forall x, refers_to guide x -> has_item guide x).
  { intros x R. apply referred_right in R. cbn in R. destruct R as [<-|[<-|[]]].
    - exists (lit "section"), [(lit "title", lit "Algorithm"); (lit "id", lit "algo")], [named_section "subsection" "Compile" "compile" []].
      split; [|split; [reflexivity|left; apply section_name; reflexivity]].
      eapply part_kid; [do 4 right; left; reflexivity|]. eapply part_kid; [do 2 right; left; reflexivity|].
      eapply part_kid; [right; left; reflexivity|]. apply part_here.
    - eexists (lit "chapter"), [(lit "title", lit "Default configuration"); (lit "id", lit "defaultcfg")], _.
      split; [|split; [reflexivity|left; apply section_name; reflexivity]].
      eapply part_kid; [do 4 right; left; reflexivity|]. eapply part_kid; [right; left; reflexivity|]. apply part_here. }
  split; [exact H|].
  assert (L : link_to (page guide) (lit "algo")).
  { destruct (C113_reference guide guide [(lit "item", lit "algo")] [] guide_is_document (file_top _)) as (content & O & _).
    - eapply inside_kid; [do 3 right; left; reflexivity|]. eapply inside_kid; [left; reflexivity|]. eapply inside_kid; [right; left; reflexivity|].
      eapply inside_kid; [left; reflexivity|]. eapply inside_kid; [right; left; reflexivity|]. apply inside_here.
    - exists [(lit "href", lit "#" ++ lit "algo")], content. split; [exact O|reflexivity]. }
  split; [exact L|]. exact (C113_links guide guide_is_document H _ L).
Qed.

Example guide_text : In (lit "Algorithm") (flat_map texts (page guide)) /\ In (lit "Options are") (flat_map texts (page guide)) /\
  In (lit "pkg-config") (flat_map texts (page guide)).
Proof. vm_compute. intuition. Qed.

Example guide_stylesheet : exists head body, page guide = [HElem (lit "html") [] [HElem (lit "head") [] head; body]] /\
  In (HElem (lit "link") [(lit "rel", lit "stylesheet"); (lit "href", lit "./format.css")] []) head.
Proof. eexists _, _. split; [reflexivity|]. right. left. reflexivity. Qed.

(** A chapter that is included into the appendix *)
Example included_chapter : exists d, document d /\
  (forall a kids k, d = Elem (lit "document") a kids -> In k kids -> is_named "appendix" k = true -> shallow k) /\
  flat_map headings (page d) = [(true, 1, lit "options", lit "Options")].
Proof.
  set (appendix := [inc "options.xml" [named_section "chapter" "Options" "options" [el "p" [] [tx "None"]]]]).
  assert (D : document (a_guide [] appendix)).
  { apply guide_document; [each|]. each; a_flow. intros _. each. intros _. left. eexists _, _, _. split; [reflexivity|]. apply section_name. reflexivity. }
  exists (a_guide [] appendix). split; [exact D|].
  assert (S : forall a kids k, a_guide [] appendix = Elem (lit "document") a kids -> In k kids -> is_named "appendix" k = true -> shallow k).
  { intros a kids k E I N. injection E as _ <-. repeat (destruct I as [<-|I]; [try discriminate N|]); [|destruct I].
    intros b l f c m name e ks x J K L. inversion J as [|n' b' ks' t T Q|]; subst. destruct T as [<-|[]]. inversion Q as [| |? ? ? t T Q']; subst; [|destruct T].
    destruct K as [K|[]]. injection K as <- <- <-. destruct L as [<-|[]]. apply leafb_leaf. reflexivity. }
  split; [exact S|]. now rewrite (C111_sections _ D S).
Qed.

(** * Where it goes wrong *)

Lemma guide_nav main appendix : (forall x, In x main -> flow false x) -> (forall x, In x appendix -> flow true x) ->
  on_page (table_of_contents (a_guide main appendix)) (page (a_guide main appendix)).
Proof.
  intros HM HA. apply (contents_made _ []).
  - now apply guide_document.
  - eapply inside_kid; [right; right; left; reflexivity|]. eapply inside_kid; [left; reflexivity|]. apply inside_here.
Qed.

(** A chapter of a file that is included is on the page, but not in the table of contents. *)
Theorem C111_included_refuted : exists d a kids, document d /\ contents_on_top d /\ on_page (HElem (lit "nav") a kids) (page d) /\
  flat_map headings (page d) = outline false d /\ links false 0 (HElem (lit "nav") a kids) <> flat_map headings (page d).
Proof.
  set (main := [inc "intro.xml" [named_section "chapter" "Introduction" "intro" []]]).
  assert (F : forall x, In x main -> flow false x) by (each; a_flow; discriminate).
  assert (G : forall x, In x [] -> flow true x) by each.
  exists (a_guide main []), [(lit "id", lit "toc")]. eexists. split; [now apply guide_document|]. split; [apply top_contents_right; reflexivity|].
  split; [exact (guide_nav main [] F G)|]. split; [reflexivity|]. discriminate.
Qed.

(** A section within a section, as in doc/maike.doc.xml:68-224, is on the page, but not in
    the table of contents. *)
Theorem C111_nested_refuted : exists d a kids, document d /\ contents_on_top d /\ on_page (HElem (lit "nav") a kids) (page d) /\
  flat_map headings (page d) = outline false d /\ links false 0 (HElem (lit "nav") a kids) <> flat_map headings (page d).
Proof.
  set (main := [named_section "chapter" "Using Maike" "newproj"
    [named_section "section" "Creating a C++ application" "cxxapp" [named_section "section" "Converting files" "fileconv" []]]]).
  assert (F : forall x, In x main -> flow false x) by (each; a_flow).
  assert (G : forall x, In x [] -> flow true x) by each.
  exists (a_guide main []), [(lit "id", lit "toc")]. eexists. split; [now apply guide_document|]. split; [apply top_contents_right; reflexivity|].
  split; [exact (guide_nav main [] F G)|]. split; [reflexivity|]. discriminate.
Qed.

(** In a file that is included into the appendix, a section within a chapter is shown like
    one of the main part. *)
Theorem C111_appendix_refuted : exists d, document d /\ contents_on_top d /\
  outline false d = [(true, 1, lit "options", lit "Options"); (true, 2, lit "names", lit "Names")] /\
  flat_map headings (page d) = [(true, 1, lit "options", lit "Options"); (false, 2, lit "names", lit "Names")].
Proof.
  set (appendix := [inc "options.xml" [named_section "chapter" "Options" "options" [named_section "section" "Names" "names" []]]]).
  exists (a_guide [] appendix). split; [|split; [apply top_contents_right; reflexivity|split; reflexivity]].
  apply guide_document; [each|]. each; a_flow. intros _. each. intros _. left. eexists _, _, _. split; [reflexivity|]. apply section_name. reflexivity.
Qed.

(** Text that is directly in a section does not appear. *)
Theorem C112_section_refuted : exists d s, In s (visible (pieces [] d)) /\ ~ In s (flat_map texts (page d)) /\
  d = a_guide [named_section "chapter" "Introduction" "intro" [tx "Maike is a build system."]] [].
Proof.
  eexists _, (lit "Maike is a build system."). split; [|split; [|reflexivity]]; vm_compute.
  - auto.
  - intros H. repeat (destruct H as [H|H]; [discriminate|]). destruct H.
Qed.

(** A reference to what is in another file of the document, or to a paragraph, is without
    a text. *)
Theorem C113_titles_refuted :
  (exists d, document d /\ part_of (named_section "section" "Names" "names" []) d /\ inside (el "ref" [("item", "names")]%string []) d /\
     forall content, on_page (HElem (lit "a") [(lit "href", lit "#names")] content) (page d) -> content = []) /\
  (exists d, document d /\ inside (named_section "paragraph" "Names" "names" []) d /\ inside (el "ref" [("item", "names")]%string []) d /\
     forall content, on_page (HElem (lit "a") [(lit "href", lit "#names")] content) (page d) -> content = []).
Proof.
  assert (Search : forall content p, on_page (HElem (lit "a") [(lit "href", lit "#names")] content) p ->
    In content ((fix all (h : list html) := match h with [] => [] | x :: l => (fix go (h : html) := match h with
      | HText _ => []
      | HElem n a kids => (if named "a" n && match a with [(_, v)] => str_eqb v (lit "#names") | _ => false end then [kids] else []) ++ flat_map go kids
      end) x ++ all l end) p)).
  { intros content p (h & I & W). induction p as [|x p IH]; [destruct I|]. apply in_or_app. destruct I as [-> | I]; [left|right; now apply IH].
    clear IH. induction W as [|n a kids k I W IH]; [now left|]. apply in_or_app. right. apply in_flat_map. exists k. split; [exact I|exact IH]. }
  split.
  - set (main := [named_section "chapter" "Options" "options" [el "p" [] [el "ref" [("item", "names")]%string []];
                    inc "names.xml" [named_section "section" "Names" "names" []]]]).
    exists (a_guide main []). split; [apply guide_document; [each; a_flow; discriminate|each]|]. split; [|split].
    + eapply part_kid; [do 3 right; left; reflexivity|]. eapply part_kid; [left; reflexivity|]. eapply part_kid; [right; left; reflexivity|].
      eapply part_included; [left; reflexivity|]. apply part_here.
    + eapply inside_kid; [do 3 right; left; reflexivity|]. eapply inside_kid; [left; reflexivity|]. eapply inside_kid; [left; reflexivity|].
      eapply inside_kid; [left; reflexivity|]. apply inside_here.
    + intros content O. apply Search in O. vm_compute in O. destruct O as [O|[]]. now symmetry.
  - set (main := [named_section "chapter" "Options" "options" [el "p" [] [el "ref" [("item", "names")]%string []];
                    named_section "paragraph" "Names" "names" []]]).
    exists (a_guide main []). split; [apply guide_document; [each; a_flow|each]|]. split; [|split].
    + eapply inside_kid; [do 3 right; left; reflexivity|]. eapply inside_kid; [left; reflexivity|]. eapply inside_kid; [right; left; reflexivity|].
      apply inside_here.
    + eapply inside_kid; [do 3 right; left; reflexivity|]. eapply inside_kid; [left; reflexivity|]. eapply inside_kid; [left; reflexivity|].
      eapply inside_kid; [left; reflexivity|]. apply inside_here.
    + intros content O. apply Search in O. vm_compute in O. destruct O as [O|[]]. now symmetry.
Qed.

(** The link to a chapter without an identifier, as in doc/maike.doc.xml:258, is one to the
    top of the page. *)
Theorem C113_unnamed_refuted : exists d a kids, document d /\ organized d /\ (forall x, ~ refers_to d x) /\
  on_page (HElem (lit "nav") a kids) (page d) /\ links false 0 (HElem (lit "nav") a kids) = [(true, 1, [], lit "Known record types")].
Proof.
  set (appendix := [el "chapter" [("title", "Known record types")]%string []]).
  assert (F : forall x, In x [] -> flow false x) by each.
  assert (G : forall x, In x appendix -> flow true x).
  { each. apply flow_section; [apply section_name; reflexivity|no_text|each]. }
  exists (a_guide [] appendix), [(lit "id", lit "toc")]. eexists. split; [now apply guide_document|]. split; [|split; [|split]].
  - apply guide_organized; [apply top_contents_right; reflexivity|each|]. each. apply outlined_level. each.
  - intros x R. apply referred_right in R. destruct R.
  - exact (guide_nav [] appendix F G).
  - reflexivity.
Qed.

Print Assumptions C111_contents.
Print Assumptions C111_made.
Print Assumptions C111_sections.
Print Assumptions C112_text.
Print Assumptions C112_body.
Print Assumptions C112_copied.
Print Assumptions C112_resources.
Print Assumptions C113_links.
Print Assumptions C113_reference.
Print Assumptions C111_included_refuted.
Print Assumptions C111_nested_refuted.
Print Assumptions C111_appendix_refuted.
Print Assumptions C112_section_refuted.
Print Assumptions C113_titles_refuted.
Print Assumptions C113_unnamed_refuted.
