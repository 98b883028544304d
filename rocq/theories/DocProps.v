(** Property C83: references in documents. *)

From Coq Require Import Ascii String NArith.
From Coq Require Import List.
From Verif Require Import Str Path SMap JsonModel DbModel ValueModel LoadModel CfgModel CfgSpec RecipeSpec KindModel KindSpec.
From Verif Require Import DepGraphSpec FileListModel FileListSpec DocModel FoundSpec DocSpec DocProofs LoadSpec.
From Verif Require Import KindProps.
Import ListNotations.

(** C83. The tags of a document ask exactly for its references, apart from those that
    are usual URIs. *)
Theorem C83_tags : forall self file root tags r, file <> self -> proper_document root ->
    doc2html_get_tags self file (Some root) = Some tags ->
    asks_for tags r <-> refers root r /\ ~ usual_uri r.
Proof. exact document_tags. Qed.
Print Assumptions C83_tags.

(** A document depends on the files that are referred to. Missing: references that do not
    start with "./", in documents that are not at the top of the project. *)
Theorem C83_depends_partial : forall search print parse resolve configure script_tags cfg m s t d f c root text info r q,
    document parse print script_tags cfg m s t d f c root ->
    load_configured search print (append (inside s d) (mk_path false [f])) s t parse resolve configure script_tags
      (dir_compiler cfg) m (Some text) = Some info ->
    refers root r -> points_to t d r q -> d = [] \/ (exists rest, r = lit "./" ++ rest) ->
    exists x, In x (use_deps info) /\ dep_name x = q /\ dep_origin x = Generated.
Proof. intros search print parse resolve configure script_tags cfg m s t d f c root text info r q D. exact (doc_depends search print parse resolve configure script_tags cfg m s t d f c root D text info r q). Qed.
Print Assumptions C83_depends_partial.

(** It depends on nothing else, apart from its directory, and the recipe. *)
Theorem C83_only : forall search print parse resolve configure script_tags cfg m s t d f c root text info x,
    document parse print script_tags cfg m s t d f c root ->
    load_configured search print (append (inside s d) (mk_path false [f])) s t parse resolve configure script_tags
      (dir_compiler cfg) m (Some text) = Some info ->
    In x (use_deps info) ->
    dep_name x = inside s d \/ dep_name x = recipe c \/
    exists r, refers root r /\ ~ usual_uri r /\
      dep_name x = prepend_search_path (append (inside s d) (mk_path false [f])) s t (parse_path r) Generated.
Proof. intros search print parse resolve configure script_tags cfg m s t d f c root text info x D. exact (doc_only search print parse resolve configure script_tags cfg m s t d f c root D text info x). Qed.
Print Assumptions C83_only.

(** If a reference, which is not a usual URI, is not known in the project, then the project
    can not be loaded. *)
Theorem C83_unknown : forall search print parse resolve configure script_tags cfg m s t d f c root text info r fs,
    document parse print script_tags cfg m s t d f c root ->
    load_configured search print (append (inside s d) (mk_path false [f])) s t parse resolve configure script_tags
      (dir_compiler cfg) m (Some text) = Some info ->
    refers root r -> ~ usual_uri r -> ordinary r ->
    scanned fs -> In (append (inside s d) (mk_path false [f]), info) fs -> ~ available fs (inside t [r]) ->
    forall x, load_project fs <> Loaded x.
Proof. intros search print parse resolve configure script_tags cfg m s t d f c root text info r fs D. exact (doc_unknown search print parse resolve configure script_tags cfg m s t d f c root D text info r fs). Qed.
Print Assumptions C83_unknown.

(** A document that is not XML is reported: the file can not be loaded. *)
Theorem C83_malformed : forall search print parse resolve configure script_tags cfg m s t d f text ext mode c n self,
    reads_back parse print ->
    increasing (file_info_loaders (tree_loader cfg)) -> increasing (info_loaders cfg) -> map_loaders cfg = Some m ->
    directory_ok s -> directory_ok t -> Forall ordinary d -> ordinary f ->
    handled_by cfg f (KGeneric ext mode, c) -> use_get_tags c = true ->
    result_name f ext mode n -> ordinary n -> is_text n ->
    path_string (append (inside s d) (mk_path false [f])) <> self ->
    script_tags c (append (inside s d) (mk_path false [f])) =
      doc2html_get_tags self (path_string (append (inside s d) (mk_path false [f]))) None ->
    load_configured search print (append (inside s d) (mk_path false [f])) s t parse resolve configure script_tags
      (dir_compiler cfg) m (Some text) = None.
Proof. exact document_rejected. Qed.
Print Assumptions C83_malformed.

(** * Examples and counterexamples *)

Local Open Scope string_scope.
Local Open Scope list_scope.

Definition doc_compiler : compiler := mk_compiler (mk_path false [lit "recipes"; lit "doc2html.py"]) (Some Project) [] true.

Definition doc_config : config :=
  mk_config (mk_tree_config [] [] [(lit ".xml", lit "doc2html")] true) [(lit "doc2html", (KGeneric (lit ".html") Replace, doc_compiler))] no_compiler.

Definition doc_loaders : list (str * (loader_kind * compiler)) := [(lit ".xml", (KGeneric (lit ".html") Replace, doc_compiler))].

(** A document that refers to [r], and to https://example.org/ *)
Definition doc_root (r : str) : xml :=
  Element (lit "document") [] [Element (lit "p") [] [Element (lit "img") [(lit "src", r)] []];
                               Element (lit "a") [(lit "href", lit "https://example.org/")] []].

Definition doc_scripts (root : xml) (c : compiler) (src : path) : option compound :=
  doc2html_get_tags (lit "recipes/doc2html.py") (path_string src) (Some root).

Lemma doc_proper r : proper_document (doc_root r).
Proof.
  unfold doc_root. constructor; [constructor|]. intros c [<- | [<- | []]].
  - constructor; [constructor|]. intros c [<- | []]. constructor; [repeat constructor; intros []|intros c []].
  - constructor; [repeat constructor; intros []|intros c []].
Qed.

Lemma doc_refers r : refers (doc_root r) r /\ refers (doc_root r) (lit "https://example.org/").
Proof.
  split.
  - eapply refers_below; [left; reflexivity|]. eapply refers_below; [left; reflexivity|]. eapply refers_here; [left; reflexivity|now left].
  - eapply refers_below; [right; left; reflexivity|]. eapply refers_here; [left; reflexivity|now right].
Qed.

(** doc/a.xml *)
Lemma doc_example parse print r d : reads_back parse print -> (d = [] \/ d = [lit "doc"]) ->
  document parse print (doc_scripts (doc_root r)) doc_config doc_loaders (mk_path false [dot]) (mk_path false [lit "out"]) d (lit "a.xml")
    doc_compiler (doc_root r).
Proof.
  intros RB D. split.
  - exact RB.
  - split; repeat constructor.
  - reflexivity.
  - split; [left; reflexivity|]. right. split; [|right; discriminate]. exists 0, [lit "out"]. repeat split. constructor; [name_ok|constructor].
  - split; [destruct D as [-> | ->]; [constructor|constructor; [name_ok|constructor]]|name_ok].
  - exists (lit ".html"), Replace, (lit "a" ++ lit ".html"). split; [|split; [reflexivity|split; [|split]]].
    + exists (lit ".xml"). split; [|split].
      * exists (lit "a"), (lit "xml"). split; [reflexivity|]. split; [reflexivity|]. split; [discriminate|].
        split; intro X; [discriminate X|destruct X as [X _]; discriminate X].
      * exists (lit "doc2html"). split; left; reflexivity.
      * intros e' l' _ (n & I & _). destruct I as [I|[]]. injection I as <- _. apply le_n.
    + apply result_replaced.
      * exists (lit "xml"). split; [reflexivity|]. split; [discriminate|]. cbn. intuition discriminate.
      * apply (dotted_already (lit ".html") (lit "html")). reflexivity.
    + apply (name_ok "a.html"); [reflexivity|discriminate..].
    + apply (text_ok "a.html" [97; 46; 104; 116; 109; 108]%N); reflexivity.
  - apply doc_proper.
  - exists (lit "recipes/doc2html.py"). split; [|reflexivity]. destruct D as [-> | ->]; discriminate.
Qed.

(** doc/a.xml, if it is not XML *)
Example malformed_document : forall search print parse resolve configure text, reads_back parse print ->
    load_configured search print (parse_path (lit "doc/a.xml")) (parse_path (lit ".")) (parse_path (lit "out"))
      parse resolve configure (fun _ src => doc2html_get_tags (lit "recipes/doc2html.py") (path_string src) None)
      no_compiler doc_loaders (Some text) = None.
Proof.
  intros search print parse resolve configure text RB.
  destruct (doc_example parse print (lit "x") [lit "doc"] RB (or_intror eq_refl)) as [_ [S1 S2] L [D1 D2] [N1 N2] (ext & mode & n & H & G & R & O & T) _ _].
  exact (C83_malformed search print parse resolve configure (fun _ src => doc2html_get_tags (lit "recipes/doc2html.py") (path_string src) None)
    doc_config doc_loaders _ _ _ _ text ext mode doc_compiler n (lit "recipes/doc2html.py") RB S1 S2 L D1 D2 N1 N2 H G R O T ltac:(discriminate) eq_refl).
Qed.

Lemma plain_ok (s : string) : List.forallb (fun c => negb (existsb (Ascii.eqb c) ["/"; "#"; "?"; "%"]%char)) (lit s) = true ->
  lit s <> [] -> lit s <> lit "." -> lit s <> lit ".." -> plain_name (lit s).
Proof.
  intros H A B C. rewrite forallb_forall in H. split; [repeat split; auto|].
  - intro I. apply H in I. discriminate I.
  - intros a Ia I. apply H in I. cbn in Ia. destruct Ia as [<- | [<- | [<- | []]]]; discriminate I.
Qed.

(** "./b.svg" in doc/a.xml is out/doc/b.svg. *)
Example local_reference : forall search print parse resolve configure text, reads_back parse print -> exists info x,
    load_configured search print (parse_path (lit "doc/a.xml")) (parse_path (lit ".")) (parse_path (lit "out"))
      parse resolve configure (doc_scripts (doc_root (lit "./b.svg"))) no_compiler doc_loaders (Some text) = Some info /\
    In x (use_deps info) /\ dep_name x = parse_path (lit "out/doc/b.svg").
Proof.
  intros search print parse resolve configure text RB.
  pose proof (doc_example parse print (lit "./b.svg") [lit "doc"] RB (or_intror eq_refl)) as D.
  destruct (doc_loaded search print parse resolve configure _ _ _ _ _ _ _ _ _ D text) as (info & L & _).
  destruct (C83_depends_partial search print parse resolve configure _ _ _ _ _ _ _ _ _ text info (lit "./b.svg")
              (mk_path false [lit "out"; lit "doc"; lit "b.svg"]) D L) as (x & I & N & _).
  - apply doc_refers.
  - apply (points_dot (mk_path false [lit "out"]) [lit "doc"] [lit "b.svg"]); [|discriminate].
    constructor; [apply plain_ok; [reflexivity|discriminate..]|constructor].
  - right. exists (lit "b.svg"). reflexivity.
  - exists info, x. split; [exact L|]. split; [exact I|exact N].
Qed.

Lemma no_scheme (s : string) : existsb (Ascii.eqb ":") (lit s) = false -> ~ has_scheme (lit s).
Proof.
  intros H (c & l & rest & E & _). assert (existsb (Ascii.eqb ":") (lit s) = true) as X.
  { rewrite E. apply existsb_exists. exists ":"%char. split; [|reflexivity]. right. apply in_or_app. right. now left. }
  congruence.
Qed.

(** "b.svg" in doc/a.xml is out/doc/b.svg as well, but the document depends on out/b.svg. *)
Theorem C83_depends_refuted : exists (d : list str) (r : str) (q : path), points_to (mk_path false [lit "out"]) d r q /\
  forall search print parse resolve configure text, reads_back parse print -> exists root info,
    document parse print (doc_scripts root) doc_config doc_loaders (mk_path false [dot]) (mk_path false [lit "out"]) d (lit "a.xml")
      doc_compiler root /\ refers root r /\
    load_configured search print (append (inside (mk_path false [dot]) d) (mk_path false [lit "a.xml"])) (mk_path false [dot]) (mk_path false [lit "out"])
      parse resolve configure (doc_scripts root) no_compiler doc_loaders (Some text) = Some info /\
    forall x, In x (use_deps info) -> dep_name x <> q.
Proof.
  exists [lit "doc"], (lit "b.svg"), (mk_path false [lit "out"; lit "doc"; lit "b.svg"]). split.
  - apply (points_plain (mk_path false [lit "out"]) [lit "doc"] [lit "b.svg"]); [|discriminate|apply (no_scheme "b.svg"); reflexivity].
    constructor; [apply plain_ok; [reflexivity|discriminate..]|constructor].
  - intros search print parse resolve configure text RB. exists (doc_root (lit "b.svg")).
    pose proof (doc_example parse print (lit "b.svg") [lit "doc"] RB (or_intror eq_refl)) as D.
    destruct (doc_loaded search print parse resolve configure _ _ _ _ _ _ _ _ _ D text) as (info & L & _).
    exists info. split; [exact D|]. split; [apply doc_refers|]. split; [exact L|].
    intros x I E. destruct (C83_only search print parse resolve configure _ _ _ _ _ _ _ _ _ text info x D L I) as [H|[H|(r & R & U & H)]].
    + rewrite H in E. vm_compute in E. discriminate E.
    + rewrite H in E. discriminate E.
    + rewrite H in E. clear H. inversion R as [? ? ? a ? IA|? ? ? c ? IC RC]; subst; [destruct IA|].
      destruct IC as [<- | [<- | []]].
      * inversion RC as [? ? ? a ? IA|? ? ? c ? IC RD]; subst; [destruct IA|]. destruct IC as [<- | []].
        inversion RD as [? ? ? a ? IA|? ? ? c ? IC ?]; subst; [|destruct IC]. destruct IA as [IA|[]]. injection IA as <- <-.
        vm_compute in E. discriminate E.
      * inversion RC as [? ? ? a ? IA|? ? ? c ? IC ?]; subst; [|destruct IC]. destruct IA as [IA|[]]. injection IA as <- <-.
        apply U. exists (lit "https"), (lit "example.org/"). split; [discriminate|]. split; [|reflexivity].
        repeat constructor; discriminate.
Qed.
Print Assumptions C83_depends_refuted.

(** References such as mailto:me@example.org are not detected to be external. The project can not
    be loaded. *)
Theorem C83_external_refuted : exists r, has_scheme r /\ ordinary r /\ ~ usual_uri r /\
  forall search print parse resolve configure script_tags cfg m s t d f c root text info fs,
    document parse print script_tags cfg m s t d f c root ->
    load_configured search print (append (inside s d) (mk_path false [f])) s t parse resolve configure script_tags
      (dir_compiler cfg) m (Some text) = Some info ->
    refers root r -> scanned fs -> In (append (inside s d) (mk_path false [f]), info) fs -> ~ available fs (inside t [r]) ->
    forall x, load_project fs <> Loaded x.
Proof.
  exists (lit "mailto:me@example.org"). split; [|split; [|split]].
  - exists "m"%char, (lit "ailto"), (lit "me@example.org"). split; [reflexivity|]. split; [right; split; discriminate|].
    repeat (apply Forall_cons; [left; right; split; discriminate|]); apply Forall_nil.
  - name_ok.
  - intro U. apply external_ok in U. discriminate U.
  - intros search print parse resolve configure script_tags cfg m s t d f c root text info fs D L R S I NA.
    apply (C83_unknown search print parse resolve configure script_tags cfg m s t d f c root text info (lit "mailto:me@example.org") fs D L R);
      [|name_ok|exact S|exact I|exact NA].
    intro U. apply external_ok in U. discriminate U.
Qed.
Print Assumptions C83_external_refuted.

(** A project that consists of such a document *)
Example mailto_project : forall search print parse resolve configure text, reads_back parse print -> exists info fs,
    let root := doc_root (lit "mailto:me@example.org") in
    document parse print (doc_scripts root) doc_config doc_loaders (mk_path false [dot]) (mk_path false [lit "out"]) [] (lit "a.xml") doc_compiler root /\
    load_configured search print (mk_path false [dot; lit "a.xml"]) (mk_path false [dot]) (mk_path false [lit "out"])
      parse resolve configure (doc_scripts root) no_compiler doc_loaders (Some text) = Some info /\
    refers root (lit "mailto:me@example.org") /\ scanned fs /\ In (mk_path false [dot; lit "a.xml"], info) fs /\
    ~ available fs (mk_path false [lit "out"; lit "mailto:me@example.org"]).
Proof.
  intros search print parse resolve configure text RB.
  pose proof (doc_example parse print (lit "mailto:me@example.org") [] RB (or_introl eq_refl)) as D.
  destruct (document_loaded search print parse resolve configure (doc_scripts (doc_root (lit "mailto:me@example.org"))) doc_config doc_loaders
              (mk_path false [dot]) (mk_path false [lit "out"]) [] (lit "a.xml") text (lit ".html") Replace doc_compiler (lit "a" ++ lit ".html")
              (lit "recipes/doc2html.py") (doc_root (lit "mailto:me@example.org"))) as (info & L & T & _ & B & C & _ & O).
  - exact RB.
  - apply D.
  - apply D.
  - reflexivity.
  - apply D.
  - apply D.
  - constructor.
  - name_ok.
  - destruct D as [_ _ _ _ _ (ext & mode & n & H & _) _ _]. destruct H as (e & E & (k & K & KL) & M). destruct K as [K|[]]. injection K as <- <-.
    destruct KL as [KL|[]]. injection KL as <- <-. exists (lit ".xml"). split; [exact E|]. split; [|exact M]. exists (lit "doc2html"). split; left; reflexivity.
  - reflexivity.
  - apply result_replaced.
    + exists (lit "xml"). split; [reflexivity|]. split; [discriminate|]. cbn. intuition discriminate.
    + apply (dotted_already (lit ".html") (lit "html")). reflexivity.
  - apply (name_ok "a.html"); [reflexivity|discriminate..].
  - apply (text_ok "a.html" [97; 46; 104; 116; 109; 108]%N); reflexivity.
  - discriminate.
  - apply doc_proper.
  - reflexivity.
  - set (src := mk_path false [dot; lit "a.xml"]). change (append (inside (mk_path false [dot]) []) (mk_path false [lit "a.xml"])) with src in *.
    set (fs := [(mk_path false [dot], placeholder_info Project no_compiler); (mk_path false [dot; lit "a.xml"], info);
                (mk_path false [lit "recipes"; lit "doc2html.py"], placeholder_info Project no_compiler)]).
    exists info, fs.
    assert (OR : forall x, In x (use_deps info) -> dep_ref x = None /\ is_external (dep_origin x) = false).
    { intros x I. destruct (O x I) as [-> | [-> | (r & _ & _ & ->)]]; split; reflexivity. }
    split; [exact D|]. split; [exact L|]. split; [apply doc_refers|]. split; [|split; [right; left; reflexivity|]].
    + split.
      * repeat constructor.
      * intros p i [I|[I|[I|[]]]]; injection I as <- <-; [split; [reflexivity|]; repeat split; cbn; tauto| |split; [reflexivity|]; repeat split; cbn; tauto].
        rewrite B, C, T. split; [reflexivity|]. split; [intros x I; apply OR, I|]. split; [intros ? []|].
        intros t x [<- | []] [].
    + intro A. inversion A as [p I E|n t I E|x M X E].
      * subst p. destruct I as [I|[I|[I|[]]]]; discriminate I.
      * subst n. unfold declared_targets, fs in I. cbn [flat_map fst snd] in I. rewrite T in I. destruct I as [I|[]]. discriminate I.
      * assert (N : forall y, mentioned fs y \/ needed fs y -> is_external (dep_origin y) = false).
        2:{ rewrite (N x M) in X. discriminate X. }
        clear - OR T C.
        intros y [(p & i & I & [J|(t & J & K)])|H].
        -- destruct I as [I|[I|[I|[]]]]; injection I as <- <-; try destruct J. apply OR, J.
        -- destruct I as [I|[I|[I|[]]]]; injection I as <- <-; try destruct J. rewrite T in J. destruct J as [<- | []]. destruct K.
        -- destruct H as [p i y I J|n t y (I & _) J|n t y (I & _) (q & i & _ & J & K & _)].
           ++ destruct I as [I|[I|[I|[]]]]; injection I as <- <-; try destruct J. apply OR, J.
           ++ unfold declared_targets, fs in I. cbn [flat_map fst snd] in I. rewrite T in I. destruct I as [I|[]]. injection I as <- <-. destruct J.
           ++ destruct J as [J|[J|[J|[]]]]; injection J as <- <-; try destruct K. rewrite C in K. destruct K.
Qed.

(** With another reference, the same project is loaded. *)
Example loadable_project : exists info,
    load_configured (fun _ _ => false) (fun _ => []) (mk_path false [dot; lit "a.xml"]) (mk_path false [dot]) (mk_path false [lit "out"])
      (fun _ => Some [(lit "target", JObject [(lit "name", JString (lit "a.html"))])]) (fun _ => None) (fun _ _ => None)
      (doc_scripts (doc_root (lit "ftp://example.org/"))) no_compiler doc_loaders (Some []) = Some info /\
    exists x, load_project [(mk_path false [dot], placeholder_info Project no_compiler); (mk_path false [dot; lit "a.xml"], info);
                            (mk_path false [lit "recipes"; lit "doc2html.py"], placeholder_info Project no_compiler)] = Loaded x.
Proof. eexists. split; [vm_compute; reflexivity|]. eexists. vm_compute. reflexivity. Qed.
