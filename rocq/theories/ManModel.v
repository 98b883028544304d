(** Model of the scripts that make the manual page, and the pages about options and
    configuration: doc/cmdlineopts.py, doc/configdefault.py, doc/cmdlineopts2xml.py,
    doc/configdefault2xml.py, and doc/manpage.py. *)

From Coq Require Import Ascii String Bool ZArith.
From Coq Require Import List.
From Verif Require Import Str CmdModel ValueModel AboutModel MakeModel MarkModel.
Import ListNotations.

(** str.replace('--', '\\-\\-'), cmdlineopts.py:24: from left to right *)
Fixpoint escape_dashes (s : str) : str :=
  match s with
  | [] => []
  | "-"%char :: ("-"%char :: s') => lit "\-\-" ++ escape_dashes s'
  | c :: s' => c :: escape_dashes s'
  end.

(** * string.Template of the Python library *)

Definition in_range (a b c : ascii) : bool := (nat_of_ascii a <=? nat_of_ascii c) && (nat_of_ascii c <=? nat_of_ascii b).

(** The regular expression for names, [_a-z][_a-z0-9]*, where case is ignored *)
Definition name_start (c : ascii) : bool := Ascii.eqb c "_" || in_range "a" "z" c || in_range "A" "Z" c.
Definition name_char (c : ascii) : bool := name_start c || in_range "0" "9" c.

(** What has been read: something else, a dollar sign, or a part of a name, possibly in
    braces *)
Inductive template_state := Outside | AfterDollar | InName (name : str) | InBraces (name : str).

(** Template.substitute. [None]: raises KeyError or ValueError *)
Fixpoint substitute (values : str -> option str) (st : template_state) (t : str) : option str :=
  match t with
  | [] =>
      match st with
      | Outside => Some []
      | InName name => values name
      | AfterDollar | InBraces _ => None
      end
  | c :: t' =>
      let outside :=
        if Ascii.eqb c "$" then substitute values AfterDollar t'
        else option_map (cons c) (substitute values Outside t') in
      match st with
      | Outside => outside
      | AfterDollar =>
          if Ascii.eqb c "$" then option_map (cons c) (substitute values Outside t')
          else if name_start c then substitute values (InName [c]) t'
          else if Ascii.eqb c "{" then substitute values (InBraces []) t'
          else None
      | InName name =>
          if name_char c then substitute values (InName (name ++ [c])) t'
          else match values name, outside with Some v, Some r => Some (v ++ r) | _, _ => None end
      | InBraces name =>
          if Ascii.eqb c "}" then
            match name with
            | [] => None
            | _ => match values name, substitute values Outside t' with Some v, Some r => Some (v ++ r) | _, _ => None end
            end
          else if match name with [] => name_start c | _ => name_char c end then substitute values (InBraces (name ++ [c])) t'
          else None
      end
  end.

(** * The manual page *)

(** document, manpage.py:21-51 *)
Definition document : str := lit "---
title: MAIKE
section: 1
header: General Commands Manual
footer: maike
date: $date
---

# NAME
maike2

# DESCRIPTION
$description

# SYNOPSIS
**maike2** [*options*]

# OPTIONS

$opts

# AUTHOR

$author

# COPYRIGHT

$copyright

$license_short
".

(** What is used of projinfo.json, manpage.py:77-82 *)
Record project_info := mk_project_info {
  project_description : list str;
  project_copyright : list holder;
  project_license : str
}.

(** list.sort, for texts *)
Fixpoint insert_text (x : str) (l : list str) : list str :=
  match l with
  | [] => [x]
  | y :: l' => match str_compare x y with Gt => y :: insert_text x l' | _ => x :: l end
  end.
Definition sort_texts (l : list str) : list str := fold_right insert_text [] l.

(** get_authors, manpage.py:57-62 *)
Definition get_authors (l : list holder) : list str := sort_texts (map author l).

(** The dictionary content, manpage.py:78-88. get_copyright, lines 64-71, is the one of
    core/bin/about.py. *)
Definition page_values (p : project_info) (opts : str) (time : Z) (name : str) : option str :=
  if str_eqb name (lit "description") then Some (join (nl ++ nl) (project_description p))
  else if str_eqb name (lit "author") then Some (join (lit ", ") (get_authors (project_copyright p)))
  else if str_eqb name (lit "copyright") then Some (join (nl ++ nl) (get_copyright (project_copyright p)))
  else if str_eqb name (lit "license_short") then Some (project_license p)
  else if str_eqb name (lit "opts") then Some opts
  else if str_eqb name (lit "date") then Some (format_start time)
  else None.

(** manpage.py:89 *)
Definition page (p : project_info) (opts : str) (time : Z) : option str :=
  substitute (page_values p opts time) Outside document.

(** * The scripts *)

Section Scripts.
  (** subprocess.run with standard output: what has been written, and the return code, which
      is negative after a signal. [None]: the program can not be started *)
  Variable run : list str -> option (str * Z).
  Variable writable : str -> bool.

  (** exit(status), as seen by the parent *)
  Definition exit_status (r : Z) : Z := (r mod 256)%Z.

  (** cmdlineopts.py:15-26, and configdefault.py:15-26. After an exception the status is 1. *)
  Definition show_output (arguments : list str) (convert : str -> str) (target_dir : str) (targets : list str) (F : files)
    : files * Z :=
    match run ((target_dir ++ lit "/core/bin/maike2") :: arguments) with
    | None => (F, 1%Z)
    | Some (out, r) =>
        if (r =? 0)%Z then
          match targets with
          | [] => (F, 1%Z)
          | target :: _ => if writable target then (set_file target (convert out) F, 0%Z) else (F, 1%Z)
          end
        else (F, exit_status r)
    end.

  Definition cmdlineopts : str -> list str -> files -> files * Z := show_output [lit "--help"] escape_dashes.

  (** configdefault.py:19-24 *)
  Definition configdefault : str -> list str -> files -> files * Z :=
    show_output [lit "--config-default"; lit "--configdump"] (fun out => join nl [lit "```json"; out; lit "```"]).

  (** subprocess.run(['pandoc', ...], input=...), manpage.py:90: what is written to the target,
      if anything, and the return code *)
  Variable pandoc : str -> option (option str * Z).

  (** compile, manpage.py:73-91. [place] is os.path.relpath(os.path.dirname(source_file),
      source_dir); [info] what json.load makes of projinfo.json. The return code of pandoc is
      not used. *)
  Definition manpage (info : option project_info) (place target_dir : str) (time : Z) (targets : list str) (F : files)
    : files * Z :=
    match info, F (target_dir ++ lit "/" ++ place ++ lit "/cmdlineopts.md") with
    | Some p, Some opts =>
        match page p opts time, targets with
        | Some md, target :: _ =>
            match pandoc md with
            | None => (F, 1%Z)
            | Some (Some out, _) => (set_file target out F, 0%Z)
            | Some (None, _) => (F, 0%Z)
            end
        | _, _ => (F, 1%Z)
        end
    | _, _ => (F, 1%Z)
    end.
End Scripts.

(** * Parts of the documentation *)

Section Parts.
  Variables escape_attribute escape_text : str -> str.
  (** What pandoc makes of a text; [None]: it can not be started *)
  Variable html : str -> option (str * Z).
  Variable fromstring : str -> option node.
  Variable writable : str -> bool.

  (** pandoc -f markdown -t html --section-divs, with the name of a file. If there is no such
      file, nothing is written, and the return code is 1. *)
  Definition pandoc_file (F : files) (source : str) : option (str * Z) :=
    match F source with
    | Some md => html md
    | None => match html [] with Some _ => Some ([], 1%Z) | None => None end
    end.

  (** compile, cmdlineopts2xml.py:17-24 and configdefault2xml.py:17-24, which differ in the name
      of the file. [place] is as for manpage. *)
  Definition to_xml (name place target_dir : str) (targets : list str) (F : files) : files * Z :=
    md2htmlpart escape_attribute escape_text (pandoc_file F) fromstring writable
      (target_dir ++ lit "/" ++ place ++ lit "/" ++ name) targets F.
  Definition cmdlineopts2xml : str -> str -> list str -> files -> files * Z := to_xml (lit "cmdlineopts.md").
  Definition configdefault2xml : str -> str -> list str -> files -> files * Z := to_xml (lit "configdefault.md").
End Parts.
