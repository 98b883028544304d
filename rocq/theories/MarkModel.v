(** Model of recipes/md2htmlpart.py. *)

From Coq Require Import Ascii String ZArith Bool.
From Coq Require Import List.
From Verif Require Import Str MakeModel.
Import ListNotations.

(** Elements of xml.etree.ElementTree. Attributes may be given the value None. [text] is
    what comes before the first child, and each child is followed by its tail. *)
Inductive node :=
  Node (tag : str) (attributes : list (str * option str)) (text : option str) (children : list (node * option str)).

Definition tag_of (n : node) : str := match n with Node tag _ _ _ => tag end.
Definition text_of (n : node) : option str := match n with Node _ _ text _ => text end.

(** attrib[key] = value *)
Fixpoint set_attribute (key : str) (value : option str) (l : list (str * option str)) : list (str * option str) :=
  match l with
  | [] => [(key, value)]
  | (k, v) :: l' => if str_eqb k key then (k, value) :: l' else (k, v) :: set_attribute key value l'
  end.

(** attrib.pop(key, None) *)
Definition pop_attribute (key : str) (l : list (str * option str)) : list (str * option str) :=
  filter (fun a => negb (str_eqb (fst a) key)) l.

(** elem.tag.startswith('h') *)
Definition starts_with_h (s : str) : bool := match s with "h"%char :: _ => true | _ => false end.

(** The first child with such a tag, and all others *)
Fixpoint take_heading (l : list (node * option str)) : option (node * list (node * option str)) :=
  match l with
  | [] => None
  | (n, tail) :: l' =>
      if starts_with_h (tag_of n) then Some (n, l')
      else match take_heading l' with
           | None => None
           | Some (h, rest) => Some (h, (n, tail) :: rest)
           end
  end.

(** The loop body, md2htmlpart.py:24-29; section.remove(elem) removes the tail, too. *)
Definition title_section (n : node) : node :=
  match n with
  | Node tag attributes text children =>
      if str_eqb tag (lit "section") then
        match take_heading children with
        | None => n
        | Some (h, rest) => Node tag (pop_attribute (lit "class") (set_attribute (lit "title") (text_of h) attributes)) text rest
        end
      else n
  end.

(** The loop over all sections, lines 23-29. As each step changes one section and its list of
    children only, and no tag, the order does not matter. *)
Fixpoint title_sections (n : node) : node :=
  match n with
  | Node tag attributes text children =>
      title_section (Node tag attributes text (map (fun c => (title_sections (fst c), snd c)) children))
  end.

Section Convert.
  (** _escape_attrib and _escape_cdata, and the encoding of the file *)
  Variable escape_attribute escape_text : str -> str.

  (** Attributes, as written by _serialize_xml. [false]: a value is None, and an exception is
      raised. *)
  Fixpoint serialize_attributes (l : list (str * option str)) : str * bool :=
    match l with
    | [] => ([], true)
    | (_, None) :: _ => ([], false)
    | (k, Some v) :: l' =>
        let (out, ok) := serialize_attributes l' in
        (lit " " ++ k ++ lit "=""" ++ escape_attribute v ++ lit """" ++ out, ok)
    end.

  Definition serialize_text (t : option str) : str := match t with Some s => escape_text s | None => [] end.

  (** _serialize_xml: what is written, up to the first exception *)
  Fixpoint serialize (n : node) : str * bool :=
    match n with
    | Node tag attributes text children =>
        let (out, ok) := serialize_attributes attributes in
        let start := lit "<" ++ tag ++ out in
        if negb ok then (start, false)
        else
          match serialize_text text, children with
          | [], [] => (start ++ lit " />", true)
          | t, _ =>
              let (inner, ok) :=
                (fix go (l : list (node * option str)) : str * bool :=
                   match l with
                   | [] => ([], true)
                   | (c, tail) :: l' =>
                       let (a, ok) := serialize c in
                       if negb ok then (a, false)
                       else let (b, ok) := go l' in (a ++ serialize_text tail ++ b, ok)
                   end) children in
              (start ++ lit ">" ++ t ++ inner ++ if ok then lit "</" ++ tag ++ lit ">" else [], ok)
          end
    end.

  (** subprocess.run(['pandoc', ...]): standard output and the return code; [None]: pandoc can
      not be started *)
  Variable pandoc : str -> option (str * Z).
  (** ET.fromstring; [None]: raises *)
  Variable fromstring : str -> option node.
  Variable writable : str -> bool.

  (** convert and compile, md2htmlpart.py:17-37, with 'compile'. The return code of pandoc is
      not used. The file is opened before the tree is written. *)
  Definition md2htmlpart (source : str) (targets : list str) (F : files) : files * Z :=
    match targets with
    | [] => (F, 1%Z)
    | target :: _ =>
        match pandoc source with
        | None => (F, 1%Z)
        | Some (html, _) =>
            match fromstring (lit "<content>" ++ html ++ lit "</content>") with
            | None => (F, 1%Z)
            | Some root =>
                if writable target then
                  let (out, ok) := serialize (title_sections root) in
                  (set_file target out F, if ok then 0%Z else 1%Z)
                else (F, 1%Z)
            end
        end
    end.
End Convert.

(** compile, doc2html.py:11-24: [run] is what proc.returncode is, or [None] if xsltproc can not
    be started, or the stylesheet can not be opened. sys.exit gives the lower eight bits. *)
Definition doc2html_compile (run : option Z) : Z :=
  match run with
  | None => 1%Z
  | Some r => (r mod 256)%Z
  end.
