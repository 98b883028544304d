(** Property C84: the conversion of Markdown, and property C58 for the recipes for documents. *)

From Coq Require Import Ascii String ZArith Bool.
From Coq Require Import List Permutation.
From Verif Require Import Str MakeModel MakeProofs MarkModel MarkSpec MarkProofs.
Import ListNotations.

(** C84. If pandoc succeeds, and all headings are plain text, then the recipe succeeds, and the
    same text can be read in the target, where titles of sections take the place of headings.
    Missing: markup in headings. *)
Theorem C84_text_partial : forall escape_attribute escape_text pandoc fromstring writable source target others F html root,
    escapes escape_attribute escape_text ->
    pandoc source = Some (html, 0%Z) -> fromstring (lit "<content>" ++ html ++ lit "</content>") = Some root ->
    xml_names root -> sectioned root -> valued root -> writable target = true ->
    exists F' out result, md2htmlpart escape_attribute escape_text pandoc fromstring writable source (target :: others) F = (F', 0%Z) /\
      F' target = Some out /\ read_file out = escaped_reading escape_attribute escape_text result /\
      reading result = reading root /\ forall q, q <> target -> F' q = F q.
Proof. exact converted_read. Qed.
Print Assumptions C84_text_partial.

(** The same, if headings are not at the beginning of their sections, or missing, where titles
    come first. *)
Theorem C84_headings_anywhere : forall escape_attribute escape_text pandoc fromstring writable source target others F html root,
    escapes escape_attribute escape_text ->
    pandoc source = Some (html, 0%Z) -> fromstring (lit "<content>" ++ html ++ lit "</content>") = Some root ->
    xml_names root -> headed root -> valued root -> writable target = true ->
    exists F' out result, md2htmlpart escape_attribute escape_text pandoc fromstring writable source (target :: others) F = (F', 0%Z) /\
      F' target = Some out /\ read_file out = escaped_reading escape_attribute escape_text result /\
      Permutation (reading result) (reading root) /\ forall q, q <> target -> F' q = F q.
Proof. exact converted_anywhere. Qed.
Print Assumptions C84_headings_anywhere.

(** C58, for md2htmlpart.py: it succeeds whatever the return code of pandoc is. *)
Theorem C58_pandoc_refuted : forall escape_attribute escape_text pandoc fromstring writable source target others F html r root,
    pandoc source = Some (html, r) -> fromstring (lit "<content>" ++ html ++ lit "</content>") = Some root ->
    sectioned root -> valued root -> writable target = true ->
    snd (md2htmlpart escape_attribute escape_text pandoc fromstring writable source (target :: others) F) = 0%Z.
Proof. exact pandoc_ignored. Qed.
Print Assumptions C58_pandoc_refuted.

(** C58, for doc2html.py *)
Theorem C58_xsltproc : forall run, (forall r, run = Some r -> (-255 <= r <= 255)%Z) ->
    doc2html_compile run = 0%Z <-> run = Some 0%Z.
Proof. exact xsltproc_zero. Qed.
Print Assumptions C58_xsltproc.

(** * Examples and counterexamples *)

Local Open Scope string_scope.
Local Open Scope list_scope.

(** A document with one section, the heading of which is [h] *)
Definition mark_root (h : node) : node :=
  Node (lit "content") [] None
    [(Node (lit "section") [(lit "id", Some (lit "s")); (lit "class", Some (lit "level1"))] (Some [ascii_of_nat 10])
        [(h, Some [ascii_of_nat 10]); (Node (lit "p") [] (Some (lit "Text")) [], Some [ascii_of_nat 10])], Some [ascii_of_nat 10])].

Definition unchanged (s : str) : str := s.

(** A conversion where the HTML has been parsed to [root] *)
Definition mark_convert (root : node) (r : Z) : files * Z :=
  md2htmlpart unchanged unchanged (fun _ => Some ([], r)) (fun _ => Some root) (fun _ => true) (lit "a.md") [lit "a.xml"] (fun _ => None).

Definition plain_h1 : node := Node (lit "h1") [] (Some (lit "Title")) [].

Example mark_plain : sectioned (mark_root plain_h1) /\ valued (mark_root plain_h1) /\
  fst (mark_convert (mark_root plain_h1) 0) (lit "a.xml") =
    Some (lit "<content><section id=""s"" title=""Title"">" ++ ascii_of_nat 10 :: lit "<p>Text</p>" ++ ascii_of_nat 10 :: lit "</section>" ++
          ascii_of_nat 10 :: lit "</content>") /\
  read_file (lit "<content><section id=""s"" title=""Title""><p>Text</p></section></content>") = lit "TitleText" /\
  reading (mark_root plain_h1) = lit "TitleText".
Proof.
  split; [|split; [|split; [|split]; vm_compute; reflexivity]].
  - unfold mark_root. constructor; [|discriminate]. intros c [<- | []]. cbn [fst]. constructor.
    + intros c [<- | [<- | []]]; cbn [fst]; (constructor; [intros c []|discriminate]).
    + intros _. split; [cbn; intuition discriminate|]. split; [reflexivity|].
      eexists _, _, _. split; [reflexivity|]. split; [|reflexivity]. exists (lit "h1"), [], (lit "Title"). split; [reflexivity|]. split; [discriminate|reflexivity].
  - unfold mark_root. constructor; [intros k []|]. intros c [<- | []]. cbn [fst]. constructor.
    + intros k [H|[H|[]]]; discriminate.
    + intros c [<- | [<- | []]]; cbn [fst]; (constructor; [intros k []|intros c []]).
Qed.

Lemma names_ok tag attributes text children :
  existsb (fun c => Ascii.eqb " " c || Ascii.eqb ">" c) tag = false ->
  forallb (fun a => negb (existsb (fun c => Ascii.eqb "=" c || Ascii.eqb ">" c) (fst a))) attributes = true ->
  (forall c, In c children -> xml_names (fst c)) -> xml_names (Node tag attributes text children).
Proof.
  intros T A C.
  assert (N : forall (f : ascii -> bool) s x, existsb f s = false -> f x = true -> ~ In x s).
  { intros f s x E X I. assert (Y : existsb f s = true) by (apply existsb_exists; eauto). congruence. }
  constructor; [apply (N _ _ _ T); reflexivity|apply (N _ _ _ T); reflexivity| |exact C].
  intros k v I. rewrite forallb_forall in A. specialize (A _ I). apply Bool.negb_true_iff in A. cbn [fst] in A.
  split; apply (N _ _ _ A); reflexivity.
Qed.

Example mark_names : xml_names (mark_root plain_h1).
Proof.
  apply names_ok; [reflexivity|reflexivity|]. intros c [<- | []]. cbn [fst]. apply names_ok; [reflexivity|reflexivity|].
  intros c [<- | [<- | []]]; cbn [fst]; (apply names_ok; [reflexivity|reflexivity|intros c []]).
Qed.

(** A section where the heading comes last *)
Example mark_last : headed (Node (lit "section") [] None [(Node (lit "p") [] (Some (lit "Text")) [], None); (plain_h1, None)]) /\
  reading (title_sections (Node (lit "section") [] None [(Node (lit "p") [] (Some (lit "Text")) [], None); (plain_h1, None)])) = lit "TitleText".
Proof.
  split; [|vm_compute; reflexivity]. constructor.
  - intros c [<- | [<- | []]]; cbn [fst]; (constructor; [intros c []|discriminate]).
  - intros _. split; [intros []|]. right. exists [(Node (lit "p") [] (Some (lit "Text")) [], None)], plain_h1, None, [].
    split; [reflexivity|]. split; [intros c [<- | []]; reflexivity|]. split; [|reflexivity].
    exists (lit "h1"), [], (lit "Title"). split; [reflexivity|]. split; [discriminate|reflexivity].
Qed.

Example pandoc_fails : snd (mark_convert (Node (lit "content") [] None []) 64) = 0%Z /\
  sectioned (Node (lit "content") [] None []) /\ valued (Node (lit "content") [] None []).
Proof. split; [reflexivity|]. split; constructor; try discriminate; intros c []. Qed.

(** "# A *b* c": the recipe succeeds, and the title is "A". *)
Theorem C84_text_refuted : exists root F result,
    mark_convert root 0 = (F, 0%Z) /\ F (lit "a.xml") = Some (fst (serialize unchanged unchanged result)) /\
    reading root = lit "AbcText" /\ reading result = lit "AText".
Proof.
  set (root := mark_root (Node (lit "h1") [] (Some (lit "A ")) [(Node (lit "em") [] (Some (lit "b")) [], Some (lit " c"))])).
  exists root, (fst (mark_convert root 0)), (title_sections root).
  split; [vm_compute; reflexivity|]. split; [vm_compute; reflexivity|]. split; vm_compute; reflexivity.
Qed.
Print Assumptions C84_text_refuted.

(** "# *b*": the recipe fails, and leaves the beginning of the document behind, which then
    counts as up to date (C81). *)
Theorem C84_partly_written_refuted : exists root,
    snd (mark_convert root 0) = 1%Z /\ fst (mark_convert root 0) (lit "a.xml") = Some (lit "<content><section id=""s""").
Proof.
  exists (mark_root (Node (lit "h1") [] None [(Node (lit "em") [] (Some (lit "b")) [], None)])). split; vm_compute; reflexivity.
Qed.
Print Assumptions C84_partly_written_refuted.
