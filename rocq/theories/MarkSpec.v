(** Vocabulary for the conversion of Markdown. *)

From Coq Require Import Ascii String Bool.
From Coq Require Import List.
From Verif Require Import Str MarkModel.
Import ListNotations.

Definition is_blank (c : ascii) : bool := existsb (Ascii.eqb c) [" "; "009"; "010"; "013"]%char.

(** What is to be read, apart from white space *)
Definition dense (s : str) : str := filter (fun c => negb (is_blank c)) s.

Definition shown (t : option str) : str := match t with Some s => dense s | None => [] end.

(** The title of a section *)
Fixpoint title_of (l : list (str * option str)) : str :=
  match l with
  | [] => []
  | (k, v) :: l' => if str_eqb k (lit "title") then shown v else title_of l'
  end.

(** The text of a document, from the beginning to the end. A section starts with its title. *)
Fixpoint reading (n : node) : str :=
  match n with
  | Node tag attributes text children =>
      (if str_eqb tag (lit "section") then title_of attributes else []) ++ shown text ++
      flat_map (fun c => reading (fst c) ++ shown (snd c)) children
  end.

(** Documents as written by pandoc with --section-divs, where headings are plain text: a
    section has no title yet, and its first child is its heading. No other section has a
    child whose name starts with 'h'. *)
Definition plain_heading (n : node) : Prop :=
  exists tag attributes s, n = Node tag attributes (Some s) [] /\ tag <> lit "section" /\ starts_with_h tag = true.

Inductive sectioned : node -> Prop :=
| sectioned_node : forall tag attributes text children,
    (forall c, In c children -> sectioned (fst c)) ->
    (tag = lit "section" ->
       ~ In (lit "title") (map fst attributes) /\ shown text = [] /\
       exists h tail rest, children = (h, tail) :: rest /\ plain_heading h /\ shown tail = []) ->
    sectioned (Node tag attributes text children).

(** No attribute has the value None. *)
Inductive valued : node -> Prop :=
| valued_node : forall tag attributes text children,
    (forall k, ~ In (k, None) attributes) -> (forall c, In c children -> valued (fst c)) ->
    valued (Node tag attributes text children).

(** The same, where the heading need not come first, and may be missing. *)
Inductive headed : node -> Prop :=
| headed_node : forall tag attributes text children,
    (forall c, In c children -> headed (fst c)) ->
    (tag = lit "section" ->
       ~ In (lit "title") (map fst attributes) /\
       ((forall c, In c children -> starts_with_h (tag_of (fst c)) = false) \/
        exists before h tail after, children = before ++ (h, tail) :: after /\
          (forall c, In c before -> starts_with_h (tag_of (fst c)) = false) /\ plain_heading h /\ shown tail = [])) ->
    headed (Node tag attributes text children).

(** Names of elements and attributes *)
Inductive xml_names : node -> Prop :=
| xml_names_node : forall tag attributes text children,
    ~ In " "%char tag -> ~ In ">"%char tag ->
    (forall k v, In (k, v) attributes -> ~ In "="%char k /\ ~ In ">"%char k) ->
    (forall c, In c children -> xml_names (fst c)) ->
    xml_names (Node tag attributes text children).

(** ** What can be read in a file *)

(** Where a reader is: outside of tags, or in the name of an element, the name of an
    attribute, before or within its value, or behind it *)
Inductive place :=
| Outside
| InName (name : str)
| InKey (name key : str)
| BeforeValue (name key : str)
| InValue (name key : str)
| BehindValue (name : str).

(** The next place, and what has been read: texts, and titles of sections *)
Definition read_char (at_ : place) (c : ascii) : place * str :=
  match at_ with
  | Outside => if Ascii.eqb c "<" then (InName [], []) else (Outside, [c])
  | InName name =>
      if Ascii.eqb c " " then (InKey name [], [])
      else if Ascii.eqb c ">" then (Outside, [])
      else (InName (name ++ [c]), [])
  | InKey name key =>
      if Ascii.eqb c "=" then (BeforeValue name key, [])
      else if Ascii.eqb c ">" then (Outside, [])
      else (InKey name (key ++ [c]), [])
  | BeforeValue name key => (InValue name key, [])
  | InValue name key =>
      if Ascii.eqb c """" then (BehindValue name, [])
      else (at_, if str_eqb name (lit "section") && str_eqb key (lit "title") then [c] else [])
  | BehindValue name =>
      if Ascii.eqb c " " then (InKey name [], [])
      else if Ascii.eqb c ">" then (Outside, [])
      else (at_, [])
  end.

Fixpoint read_from (at_ : place) (s : str) : str :=
  match s with
  | [] => []
  | c :: s' => snd (read_char at_ c) ++ read_from (fst (read_char at_ c)) s'
  end.

Definition read_file (s : str) : str := read_from Outside s.

(** The text of a document, as above, with escaped characters, and white space *)
Section Escaped.
  Variable escape_attribute escape_text : str -> str.

  Definition escaped (t : option str) : str := match t with Some s => escape_text s | None => [] end.

  Definition escaped_title (l : list (str * option str)) : str :=
    flat_map (fun a => if str_eqb (fst a) (lit "title") then match snd a with Some s => escape_attribute s | None => [] end else []) l.

  Fixpoint escaped_reading (n : node) : str :=
    match n with
    | Node tag attributes text children =>
        (if str_eqb tag (lit "section") then escaped_title attributes else []) ++ escaped text ++
        flat_map (fun c => escaped_reading (fst c) ++ escaped (snd c)) children
    end.
End Escaped.

(** Characters that have a meaning in XML are escaped. *)
Definition escapes (escape_attribute escape_text : str -> str) : Prop :=
  (forall s, ~ In "<"%char (escape_text s)) /\ (forall s, ~ In """"%char (escape_attribute s)).
