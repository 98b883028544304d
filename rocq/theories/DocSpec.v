(** Vocabulary for references in documents. *)

From Coq Require Import Ascii String NArith.
From Coq Require Import List.
From Verif Require Import Str Path JsonModel DbModel ValueModel LoadModel CfgModel CfgSpec RecipeSpec KindSpec DocModel FoundSpec.
From Verif Require LoadSpec.
Import ListNotations.

(** Attributes of the same element have different names. *)
Inductive proper_document : xml -> Prop :=
| proper_element : forall name attributes children, NoDup (map fst attributes) ->
    (forall child, In child children -> proper_document child) ->
    proper_document (Element name attributes children).

(** Some element of the document has an attribute "src" or "href" with the value [r]. *)
Inductive refers : xml -> str -> Prop :=
| refers_here : forall name attributes children a r, In (a, r) attributes -> a = lit "src" \/ a = lit "href" ->
    refers (Element name attributes children) r
| refers_below : forall name attributes children child r, In child children -> refers child r ->
    refers (Element name attributes children) r.

(** URIs that start with a scheme (RFC 3986, section 3.1) *)
Definition letter (c : ascii) : Prop :=
  (65 <= N_of_ascii c <= 90)%N \/ (97 <= N_of_ascii c <= 122)%N.

Definition scheme_char (c : ascii) : Prop :=
  letter c \/ (48 <= N_of_ascii c <= 57)%N \/ In c ["+"; "-"; "."]%char.

Definition has_scheme (r : str) : Prop :=
  exists c s rest, r = c :: s ++ ":"%char :: rest /\ letter c /\ Forall scheme_char s.

(** Those with a scheme in small letters, and an authority, as https://... *)
Definition usual_uri (r : str) : Prop :=
  exists s rest, s <> [] /\ Forall (fun c => (97 <= N_of_ascii c <= 122)%N) s /\
    r = s ++ ":"%char :: "/"%char :: "/"%char :: rest.

(** Names of files that are the same within a URI *)
Definition plain_name (c : str) : Prop := LoadSpec.ordinary c /\ forall a, In a ["#"; "?"; "%"]%char -> ~ In a c.

(** The reference [r], in a document that ends up in the directory [d] below [t], leads to
    the file [q]. *)
Inductive points_to (t : path) (d : list str) : str -> path -> Prop :=
| points_dot : forall x, Forall plain_name x -> x <> [] ->
    points_to t d (spelled (dot :: x)) (LoadSpec.inside t (d ++ x))
| points_plain : forall x, Forall plain_name x -> x <> [] -> ~ has_scheme (spelled x) ->
    points_to t d (spelled x) (LoadSpec.inside t (d ++ x)).

(** Tags that ask for the generated file [r] *)
Definition asks_for (tags : compound) (r : str) : Prop :=
  exists l o, obj_get (lit "dependencies") tags = Some (JArray l) /\ In (JObject o) l /\
    obj_get (lit "ref") o = Some (JString r) /\ obj_get (lit "origin") o = Some (JString (lit "generated")).

(** The file [f] in the directory [d] of a project is a document with the content [root], for
    which doc2html.py (at [self]) has been configured. *)
Record document (parse : str -> option compound) (print : compound -> str) (script_tags : compiler -> path -> option compound)
  (cfg : config) (m : list (str * (loader_kind * compiler))) (s t : path) (d : list str) (f : str) (c : compiler) (root : xml) : Prop := {
  doc_json : reads_back parse print;
  doc_sorted : increasing (file_info_loaders (tree_loader cfg)) /\ increasing (info_loaders cfg);
  doc_loaders : map_loaders cfg = Some m;
  doc_directories : LoadSpec.directory_ok s /\ LoadSpec.directory_ok t;
  doc_name : Forall LoadSpec.ordinary d /\ LoadSpec.ordinary f;
  doc_kind : exists ext mode n, handled_by cfg f (KGeneric ext mode, c) /\ use_get_tags c = true /\
    result_name f ext mode n /\ LoadSpec.ordinary n /\ is_text n;
  doc_content : proper_document root;
  doc_recipe : exists self, path_string (append (LoadSpec.inside s d) (mk_path false [f])) <> self /\
    script_tags c (append (LoadSpec.inside s d) (mk_path false [f])) =
      doc2html_get_tags self (path_string (append (LoadSpec.inside s d) (mk_path false [f]))) (Some root) }.
