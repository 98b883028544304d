(** Vocabulary for the manual page. *)

From Coq Require Import Ascii String ZArith.
From Coq Require Import List Permutation Sorted.
From Verif Require Import Str CmdSpec ValueModel ValueSpec AboutModel AboutSpec ManModel.
Import ListNotations.

(** ** Markdown *)

(** Pandoc reads a backslash together with the character after it, and two hyphens, neither
    of them after a backslash, as a dash. This is what is left of [s] if there are no such
    dashes. *)
Inductive presented : str -> str -> Prop :=
| presented_end : presented [] []
| presented_char c s t : c <> "\"%char -> c <> "-"%char -> presented s t -> presented (c :: s) (c :: t)
| presented_escaped c s t : presented s t -> presented ("\"%char :: c :: s) (c :: t)
| presented_hyphen s t : (forall s', s <> "-"%char :: s') -> presented s t -> presented ("-"%char :: s) ("-"%char :: t).

(** Three or more backticks at the beginning of a line end a block that has been started in
    this way. *)
Definition fence : str := lit "```".

Definition at_line_start (before : str) : Prop := before = [] \/ exists b, before = b ++ ["010"%char].

(** The text [md] is a block, and [content] is what it shows. *)
Definition code_block (md language content : str) : Prop :=
  md = fence ++ language ++ ["010"%char] ++ content ++ ["010"%char] ++ fence /\
  forall s1 s2, content = s1 ++ fence ++ s2 -> ~ at_line_start s1.

(** ** The page *)

Definition not_after (a b : str) : Prop := a = b \/ before a b.

(** The names of the holders, in alphabetical order *)
Definition author_list (l : list holder) (text : str) : Prop :=
  exists names, Permutation names (map author l) /\ StronglySorted not_after names /\ separated (lit ", ") names text.

Definition paragraphs (l : list str) (text : str) : Prop := separated ["010"; "010"]%char l text.

(** The source of a manual page with these parts *)
Definition page_form (text date description options authors copyright license : str) : Prop :=
  text = lit "---
title: MAIKE
section: 1
header: General Commands Manual
footer: maike
date: " ++ date ++ lit "
---

# NAME
maike2

# DESCRIPTION
" ++ description ++ lit "

# SYNOPSIS
**maike2** [*options*]

# OPTIONS

" ++ options ++ lit "

# AUTHOR

" ++ authors ++ lit "

# COPYRIGHT

" ++ copyright ++ lit "

" ++ license ++ lit "
".

(** The source of the manual page for this project *)
Definition page_of (p : project_info) (options : str) (time : Z) (text : str) : Prop :=
  exists date description authors copyright lines,
    page_form text date description options authors copyright (project_license p) /\
    date_text date time /\ paragraphs (project_description p) description /\ author_list (project_copyright p) authors /\
    Forall2 (fun h line => presents decimal (years h) (author h) line) (project_copyright p) lines /\ paragraphs lines copyright.
