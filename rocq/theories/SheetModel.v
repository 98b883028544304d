(** Model of recipes/doc2html.xsl: the page that is made from a document.

    Comments, processing instructions and namespaces are left out. A file that includes
    itself, directly or not, is left out as well; xsltproc gives up on it. *)

From Coq Require Import Ascii String Bool.
From Coq Require Import List.
From Verif Require Import Str DocModel.
Import ListNotations.

(** A file with the files it includes. [loaded] is the root element of the file
    document(concat($current_dir, '/', @src)), doc2html.xsl:161,164; [None] if it cannot
    be loaded, which to XSLT is an empty set. *)
Inductive node :=
| Elem (name : str) (attributes : list (str * str)) (kids : list node)
| Include (attributes : list (str * str)) (kids : list node) (loaded : option node)
| Text (s : str).

(** What comes out of it *)
Inductive html :=
| HElem (name : str) (attributes : list (str * str)) (kids : list html)
| HText (s : str).

(** <xsl:value-of select="@name"/> *)
Definition value_of (name : string) (attributes : list (str * str)) : str :=
  match attribute (lit name) attributes with Some v => v | None => [] end.

Definition text (s : str) : list html := match s with [] => [] | _ => [HText s] end.

Definition named (s : string) (name : str) : bool := str_eqb name (lit s).

Definition one_of (l : list string) (name : str) : bool := existsb (fun s => named s name) l.
Arguments value_of name%string_scope attributes.
Arguments named s%string_scope name.

Definition is_element (n : node) : bool := match n with Text _ => false | _ => true end.

(** The child axis with a name *)
Definition is_named (s : string) (n : node) : bool :=
  match n with Elem name _ _ => named s name | Include _ _ _ => named s (lit "include") | Text _ => false end.
Arguments is_named s%string_scope n.

(** The string value of an element *)
Fixpoint string_value (n : node) : str :=
  match n with
  | Elem _ _ kids | Include _ kids _ => flat_map string_value kids
  | Text s => s
  end.

(** key('item', item)/@title, doc2html.xsl:95,101, within the file with the root element
    [n]: in the order of the file *)
Definition key_names : list string := ["chapter"; "section"; "subsection"; "subsubsection"; "figure"]%string.

Fixpoint key_titles (item : str) (n : node) : list str :=
  match n with
  | Elem name attributes kids =>
      (if one_of key_names name && match attribute (lit "id") attributes with Some v => str_eqb v item | None => false end
       then match attribute (lit "title") attributes with Some t => [t] | None => [] end
       else []) ++ flat_map (key_titles item) kids
  | Include _ kids _ => flat_map (key_titles item) kids
  | Text _ => []
  end.

(** The text of a reference without text, doc2html.xsl:101 *)
Definition key_title (root : node) (item : option str) : str :=
  match item with
  | None => []
  | Some item => match key_titles item root with [] => [] | t :: _ => t end
  end.

(** mode="toc", doc2html.xsl:110-136. The rules that are built in visit the children of
    other elements, and copy texts. *)
Definition toc_link (attributes : list (str * str)) : html :=
  HElem (lit "a") [(lit "href", lit "#" ++ value_of "id" attributes)] (text (value_of "title" attributes)).

Fixpoint toc (n : node) : list html :=
  match n with
  | Text s => [HText s]
  | Include _ kids _ => flat_map toc kids
  | Elem name attributes kids =>
      if named "subsection" name then [HElem (lit "li") [] [toc_link attributes]]
      else if named "section" name then
        [HElem (lit "li") [] [toc_link attributes;
           HElem (lit "ol") [] (flat_map (fun k => if is_named "subsection" k then toc k else []) kids)]]
      else if named "chapter" name then
        [HElem (lit "li") [] [toc_link attributes;
           HElem (lit "ol") [] (flat_map (fun k => if is_named "section" k then toc k else []) kids)]]
      else if named "main" name then [HElem (lit "ol") [(lit "class", lit "main")] (flat_map toc kids)]
      else if named "appendix" name then [HElem (lit "ol") [(lit "class", lit "appendix")] (flat_map toc kids)]
      else flat_map toc kids
  end.

(** match="tableofcontents", doc2html.xsl:138-144, in the file with the root element [root] *)
Definition table_of_contents (root : node) : html :=
  HElem (lit "nav") [(lit "id", lit "toc")]
    (HElem (lit "h1") [] [HText (lit "Table of contents")] ::
     match root with
     | Elem name _ kids =>
         if named "document" name then
           flat_map (fun k => if is_named "main" k then toc k else []) kids ++
           flat_map (fun k => if is_named "appendix" k then toc k else []) kids
         else []
     | _ => []
     end).

(** The template for an element, by its priority (XSLT 1.0, section 5.5): of templates with
    the same priority the last one in the file counts. [above]: the names of the elements
    that contain it, within its file, the closest one first. *)
Inductive template :=
| TDocument       (* /document, doc2html.xsl:169-186 *)
| TCaption        (* figure/caption, :21-25 *)
| TSection        (* :27-37 *)
| TVisit          (* prelims, main and appendix, :146-156 *)
| TPropertyList   (* :68-73 *)
| TProperty       (* property-list/property, :60-66 *)
| TEnum           (* :82-87 *)
| TItem           (* enum/item, :75-80 *)
| TManpage        (* :89-93 *)
| TRef            (* :97-108 *)
| TContents       (* tableofcontents, :138-144 *)
| TCopy.          (* @*|node(), :9-13 *)

Definition section_names : list string := ["chapter"; "section"; "subsection"; "subsubsection"; "paragraph"]%string.

Definition below (s : string) (above : list str) : bool :=
  match above with p :: _ => named s p | [] => false end.
Arguments below s%string_scope above.

Definition choose (above : list str) (name : str) : template :=
  if named "document" name && match above with [] => true | _ => false end then TDocument
  else if named "caption" name && below "figure" above then TCaption
  else if named "property" name && below "property-list" above then TProperty
  else if named "item" name && below "enum" above then TItem
  else if one_of section_names name then TSection
  else if one_of ["prelims"; "main"; "appendix"]%string name then TVisit
  else if named "property-list" name then TPropertyList
  else if named "enum" name then TEnum
  else if named "manpage" name then TManpage
  else if named "ref" name then TRef
  else if named "tableofcontents" name then TContents
  else TCopy.

(** count(ancestor::appendix) > 0 *)
Definition in_appendix (above : list str) : bool := existsb (named "appendix") above.

Inductive mode := Plain | Appendix.

Definition td (class : string) (kids : list html) : html := HElem (lit "td") [(lit "class", lit class)] kids.
Arguments td class%string_scope kids.
Definition th (s : string) : html := HElem (lit "th") [] [HText (lit s)].
Arguments th s%string_scope.
Definition heading (s : str) : html := HElem (lit "h1") [] (text s).

(** doc2html.xsl:27-46 *)
Definition section_of (name suffix : str) (attributes : list (str * str)) (content : list html) : html :=
  HElem (lit "section") [(lit "class", name ++ suffix); (lit "id", value_of "id" attributes)]
    (heading (value_of "title" attributes) :: content).

(** What the templates make of a node of the file with the root element [root],
    doc2html.xsl:9-186. [Appendix] is mode="appendix", :15-19 and :39-46. *)
Fixpoint apply (m : mode) (root : node) (above : list str) (n : node) {struct n} : list html :=
  match n with
  | Text s => [HText s]
  | Include attributes kids loaded =>
      match m with
      | Plain =>
          let m' := if in_appendix above then Appendix else Plain in
          match loaded with
          | Some (Elem name a ks) =>
              if named "content" name
              then flat_map (fun k => if is_element k then apply m' (Elem name a ks) [name] k else []) ks
              else []
          | _ => []
          end
      | Appendix => [HElem (lit "include") attributes (flat_map (apply Appendix root (lit "include" :: above)) kids)]
      end
  | Elem name attributes kids =>
      let under := name :: above in
      match m with
      | Plain =>
          let all := flat_map (apply Plain root under) kids in
          let selected s := flat_map (fun k => if is_named s k then apply Plain root under k else []) kids in
          let elements := flat_map (fun k => if is_element k then apply Plain root under k else []) kids in
          match choose above name with
          | TDocument =>
              [HElem (lit "html") []
                [HElem (lit "head") []
                   (HElem (lit "title") [] (text (value_of "title" attributes)) ::
                    flat_map (fun k => match k with
                                       | Elem n' a ks =>
                                           if named "resources" n'
                                           then flat_map (fun r => if is_element r then apply Plain root (n' :: under) r else []) ks
                                           else []
                                       | _ => []
                                       end) kids);
                 HElem (lit "body") []
                   (heading (value_of "title" attributes) :: selected "prelims"%string ++ selected "main"%string ++
                    selected "appendix"%string)]]
          | TCaption => [HElem (lit "figcaption") attributes all]
          | TSection => [section_of name (if in_appendix above then lit "_appendix" else []) attributes elements]
          | TVisit => all
          | TPropertyList =>
              [HElem (lit "table") [(lit "class", lit "proplist")]
                 (HElem (lit "tr") [] [th "Name"; th "Type"; th "Description"] :: selected "property"%string)]
          | TProperty =>
              [HElem (lit "tr") [] [td "propname" (text (value_of "name" attributes));
                                    td "proptype" (selected "type"%string); td "propdesc" (selected "desc"%string)]]
          | TEnum =>
              [HElem (lit "table") [(lit "class", lit "enum")]
                 (HElem (lit "tr") [] [th "Value"; th "Description"] :: selected "item"%string)]
          | TItem =>
              [HElem (lit "tr") [] [td "propname" (text (value_of "name" attributes)); td "propdesc" all]]
          | TManpage =>
              [HElem (lit "a") [(lit "href", lit "https://linux.die.net/man/" ++ value_of "section" attributes ++ lit "/" ++
                                             value_of "name" attributes)]
                 (HElem (lit "code") [] (text (value_of "name" attributes)) ::
                  HText (lit "(") :: text (value_of "section" attributes) ++ [HText (lit ")" ++ ["010"%char])])]
          | TRef =>
              [HElem (lit "a") [(lit "href", lit "#" ++ value_of "item" attributes)]
                 (match flat_map string_value kids with
                  | [] => text (key_title root (attribute (lit "item") attributes))
                  | _ => all
                  end)]
          | TContents => [table_of_contents root]
          | TCopy => [HElem name attributes all]
          end
      | Appendix =>
          if one_of section_names name
          then [section_of name (lit "_appendix") attributes
                  (flat_map (fun k => if is_element k then apply Plain root under k else []) kids)]
          else [HElem name attributes (flat_map (apply Appendix root under) kids)]
      end
  end.

(** The page made from the document with the root element [d] *)
Definition page (d : node) : list html := apply Plain d [] d.
