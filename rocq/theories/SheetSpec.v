(** Vocabulary for documents, and for the pages that are made from them. *)

From Coq Require Import Ascii String Bool.
From Coq Require Import List.
From Verif Require Import Str DocModel SheetModel.
Import ListNotations.

(** * Documents *)

Definition among (l : list string) (name : str) : Prop := In name (map lit l).

Definition blank (s : str) : Prop := forall c, In c s -> In c [" "; "009"; "010"; "013"]%char.

(** Sections of different levels have titles. *)
Definition sections : list string := ["chapter"; "section"; "subsection"; "subsubsection"; "paragraph"]%string.

(** Elements with a meaning of their own; others are as in HTML. *)
Definition special : list string :=
  sections ++ ["document"; "prelims"; "main"; "appendix"; "property-list"; "enum"; "manpage"; "ref"; "tableofcontents"; "include"]%string.

Definition only_blanks (kids : list node) : Prop := forall s, In (Text s) kids -> blank s.

(** Only what is as in HTML *)
Inductive markup : node -> Prop :=
| markup_text : forall s, markup (Text s)
| markup_elem : forall name a kids, ~ among special name -> (forall k, In k kids -> markup k) -> markup (Elem name a kids).

(** What may be put into the parts of a document. [app]: whether it is the appendix, where
    a file that is included consists of sections and what is as in HTML. A reference is without content, or has
    text in it. *)
Inductive flow (app : bool) : node -> Prop :=
| flow_text : forall s, flow app (Text s)
| flow_other : forall name a kids, ~ among special name -> (forall k, In k kids -> flow app k) ->
    flow app (Elem name a kids)
| flow_section : forall name a kids, among sections name -> only_blanks kids -> (forall k, In k kids -> flow app k) ->
    flow app (Elem name a kids)
| flow_ref : forall a kids, (kids <> [] -> exists s, In (Text s) kids /\ s <> []) -> (forall k, In k kids -> flow app k) ->
    flow app (Elem (lit "ref") a kids)
| flow_manpage : forall a, flow app (Elem (lit "manpage") a [])
| flow_contents : forall a, flow app (Elem (lit "tableofcontents") a [])
| flow_properties : forall a kids, only_blanks kids ->
    (forall k, In k kids -> is_element k = true -> exists a' types descs, k = Elem (lit "property") a' (types ++ descs) /\
       only_blanks (types ++ descs) /\
       (forall t, In t types -> is_element t = true -> exists a'' ks, t = Elem (lit "type") a'' ks) /\
       (forall t, In t descs -> is_element t = true -> exists a'' ks, t = Elem (lit "desc") a'' ks)) ->
    (forall a' ks t, In (Elem (lit "property") a' ks) kids -> In t ks -> flow app t) ->
    flow app (Elem (lit "property-list") a kids)
| flow_enum : forall a kids, only_blanks kids ->
    (forall k, In k kids -> is_element k = true -> exists a' ks, k = Elem (lit "item") a' ks) ->
    (forall a' ks t, In (Elem (lit "item") a' ks) kids -> In t ks -> flow app t) ->
    flow app (Elem (lit "enum") a kids)
| flow_include : forall a a' kids, only_blanks kids -> (forall k, In k kids -> flow false k) ->
    (app = true -> forall k, In k kids -> is_element k = true ->
       (exists name a'' ks, k = Elem name a'' ks /\ among sections name) \/ markup k) ->
    flow app (Include a [] (Some (Elem (lit "content") a' kids))).

(** A part of a document: the elements called [name], with blanks between them *)
Definition part (name : string) (app : bool) (kids : list node) : Prop :=
  only_blanks kids /\
  forall k, In k kids -> is_element k = true -> exists a ks, k = Elem (lit name) a ks /\ forall x, In x ks -> flow app x.
Arguments part name%string_scope app kids.

(** What is said about a document *)
Inductive about : node -> Prop :=
| about_blank : forall s, blank s -> about (Text s)
| about_this : forall name a kids, among ["copyright"; "author"; "year"]%string name -> attribute (lit "id") a = None ->
    (forall k, In k kids -> about k) -> about (Elem name a kids).

Inductive document : node -> Prop :=
| a_document : forall a info resources prelims main appendix, (forall k, In k info -> about k) ->
    part "resources" false resources -> (forall a' ks, In (Elem (lit "resources") a' ks) resources -> only_blanks ks) ->
    part "prelims" false prelims -> part "main" false main -> part "appendix" true appendix ->
    document (Elem (lit "document") a (info ++ resources ++ prelims ++ main ++ appendix)).

(** * Texts *)

(** Attributes that the reader is to see *)
Definition shown_attributes (parent name : str) : list string :=
  if existsb (str_eqb name) (map lit ("document"%string :: sections)) then ["title"]%string
  else if str_eqb name (lit "manpage") then ["name"; "section"]%string
  else if str_eqb name (lit "property") && str_eqb parent (lit "property-list") then ["name"]%string
  else if str_eqb name (lit "item") && str_eqb parent (lit "enum") then ["name"]%string
  else [].

Definition attribute_texts (l : list string) (a : list (str * str)) : list str :=
  flat_map (fun s => match attribute (lit s) a with Some v => [v] | None => [] end) l.

(** The texts in a document and the files it includes, in order *)
Fixpoint pieces (parent : str) (n : node) : list str :=
  match n with
  | Text s => [s]
  | Elem name a kids => attribute_texts (shown_attributes parent name) a ++ flat_map (pieces name) kids
  | Include _ _ (Some (Elem name _ kids)) => flat_map (pieces name) kids
  | Include _ _ _ => []
  end.

(** The texts on a page, in order *)
Fixpoint texts (h : html) : list str :=
  match h with
  | HText s => [s]
  | HElem _ _ kids => flat_map texts kids
  end.

Definition blankb (s : str) : bool := forallb (fun c => existsb (Ascii.eqb c) [" "; "009"; "010"; "013"]%char) s.

Definition visible (l : list str) : list str := filter (fun s => negb (blankb s)) l.

(** [l] can be had from the second list by leaving things out. *)
Inductive subsequence {A} : list A -> list A -> Prop :=
| sub_end : subsequence [] []
| sub_skip : forall x l m, subsequence l m -> subsequence l (x :: m)
| sub_take : forall x l m, subsequence l m -> subsequence (x :: l) (x :: m).

(** A document without what is for the head of the page *)
Definition without_resources (d : node) : node :=
  match d with
  | Elem name a kids =>
      Elem name a (filter (fun k => match k with Elem n _ _ => negb (str_eqb n (lit "resources")) | _ => true end) kids)
  | _ => d
  end.

(** * Links *)

(** [n] is [d] itself, or contained in it or in a file it includes. *)
Inductive part_of (n : node) : node -> Prop :=
| part_here : part_of n n
| part_kid : forall name a kids k, In k kids -> part_of n k -> part_of n (Elem name a kids)
| part_own : forall a kids loaded k, In k kids -> part_of n k -> part_of n (Include a kids loaded)
| part_included : forall a kids name a' ks k, In k ks -> part_of n k -> part_of n (Include a kids (Some (Elem name a' ks))).

(** The document refers to its item [x]. *)
Inductive refers_to (d : node) (x : str) : Prop :=
| by_ref : forall a kids, part_of (Elem (lit "ref") a kids) d -> value_of "item" a = x -> refers_to d x
| by_link : forall a kids, part_of (Elem (lit "a") a kids) d -> attribute (lit "href") a = Some (lit "#" ++ x) -> refers_to d x.

(** Something in the document is called [x]. *)
Definition has_item (d : node) (x : str) : Prop :=
  exists name a kids, part_of (Elem name a kids) d /\ attribute (lit "id") a = Some x /\
    (among sections name \/ ~ among (special ++ ["property"; "item"; "resources"]%string) name).

Inductive within (x : html) : html -> Prop :=
| within_here : within x x
| within_kid : forall name a kids k, In k kids -> within x k -> within x (HElem name a kids).

Definition on_page (x : html) (p : list html) : Prop := exists h, In h p /\ within x h.

Definition link_to (p : list html) (x : str) : Prop :=
  exists a kids, on_page (HElem (lit "a") a kids) p /\ attribute (lit "href") a = Some (lit "#" ++ x).

Definition target (p : list html) (x : str) : Prop :=
  exists name a kids, on_page (HElem name a kids) p /\ attribute (lit "id") a = Some x.

(** [f] is one of the files the document consists of; [inside]: without the files that are
    included *)
Inductive inside (n : node) : node -> Prop :=
| inside_here : inside n n
| inside_kid : forall name a kids k, In k kids -> inside n k -> inside n (Elem name a kids)
| inside_own : forall a kids loaded k, In k kids -> inside n k -> inside n (Include a kids loaded).

Inductive file_of (d : node) : node -> Prop :=
| file_top : file_of d d
| file_included : forall f a kids g, file_of d f -> inside (Include a kids (Some g)) f -> file_of d g.

(** Things that can be referred to by their title *)
Definition titled : list string := ["chapter"; "section"; "subsection"; "subsubsection"; "figure"]%string.

Definition item_title (f : node) (x t : str) : Prop :=
  (exists name a kids, among titled name /\ inside (Elem name a kids) f /\ attribute (lit "id") a = Some x) /\
  (forall name a kids, among titled name -> inside (Elem name a kids) f -> attribute (lit "id") a = Some x ->
     attribute (lit "title") a = Some t).

(** * Tables of contents *)

(** The sections that are to be found there *)
Definition levels : list string := ["chapter"; "section"; "subsection"]%string.

(** Nothing in [n] belongs into a table of contents. *)
Definition leaf (n : node) : Prop :=
  (forall name a kids, part_of (Elem name a kids) n -> ~ among levels name /\ name <> lit "nav").

(** There is no table of contents in a file that is included. *)
Definition contents_on_top (n : node) : Prop :=
  forall a kids f a', part_of (Include a kids (Some f)) n -> ~ part_of (Elem (lit "tableofcontents") a' []) f.

(** Sections of a level directly within those of the level above *)
Inductive outlined : list string -> node -> Prop :=
| outlined_leaf : forall l n, leaf n -> outlined l n
| outlined_level : forall s l a kids, (forall k, In k kids -> outlined l k) -> outlined (s :: l) (Elem (lit s) a kids).

Definition organized (d : node) : Prop :=
  exists a kids, d = Elem (lit "document") a kids /\ contents_on_top d /\
    forall k, In k kids -> leaf k \/
      exists s a' ks, (s = "main" \/ s = "appendix")%string /\ k = Elem (lit s) a' ks /\ forall x, In x ks -> outlined levels x.

(** An entry: whether it is in the appendix, its level, its identifier and its title *)
Definition entry : Type := bool * nat * str * str.

(** The sections of a document, in order *)
Fixpoint outline (app : bool) (n : node) : list entry :=
  match n with
  | Elem name a kids =>
      let here l := [(app, l, value_of "id" a, value_of "title" a)] in
      (if str_eqb name (lit "chapter") then here 1
       else if str_eqb name (lit "section") then here 2
       else if str_eqb name (lit "subsection") then here 3
       else []) ++ flat_map (outline (app || str_eqb name (lit "appendix"))) kids
  | Include _ _ (Some (Elem _ _ kids)) => flat_map (outline app) kids
  | _ => []
  end.

(** A file that is included into the appendix has no sections within sections. *)
Definition shallow (n : node) : Prop :=
  forall a kids f b l name c ks k, inside (Include a kids (Some (Elem f b l))) n -> In (Elem name c ks) l -> In k ks -> leaf k.

(** The heading of a section *)
Definition heading_text (kids : list html) : str :=
  match kids with HElem _ _ ks :: _ => concat (flat_map texts ks) | _ => [] end.

Definition class_level (class : str) : option (bool * nat) :=
  if str_eqb class (lit "chapter") then Some (false, 1)
  else if str_eqb class (lit "section") then Some (false, 2)
  else if str_eqb class (lit "subsection") then Some (false, 3)
  else if str_eqb class (lit "chapter_appendix") then Some (true, 1)
  else if str_eqb class (lit "section_appendix") then Some (true, 2)
  else if str_eqb class (lit "subsection_appendix") then Some (true, 3)
  else None.

(** The sections on a page *)
Fixpoint headings (h : html) : list entry :=
  match h with
  | HText _ => []
  | HElem name a kids =>
      (if str_eqb name (lit "section") then
         match attribute (lit "class") a, attribute (lit "id") a with
         | Some class, Some id =>
             match class_level class with Some (app, n) => [(app, n, id, heading_text kids)] | None => [] end
         | _, _ => []
         end
       else []) ++ flat_map headings kids
  end.

(** The links in a table of contents, at a certain depth *)
Fixpoint links (app : bool) (depth : nat) (h : html) : list entry :=
  match h with
  | HText _ => []
  | HElem name a kids =>
      if str_eqb name (lit "a") then
        match attribute (lit "href") a with
        | Some ("#"%char :: id) => [(app, depth, id, concat (flat_map texts kids))]
        | _ => []
        end
      else if str_eqb name (lit "ol") then
        flat_map (links (match attribute (lit "class") a with
                         | Some c => str_eqb c (lit "appendix")
                         | None => app
                         end) (S depth)) kids
      else flat_map (links app depth) kids
  end.
