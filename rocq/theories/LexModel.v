(** Model of the loaders' lexers:
    core/source_file_info_loaders/cxx/source_file_loader.cpp and
    core/source_file_info_loaders/extension/source_file_loader.cpp.

    The functions take the bytes that [InputBuffer::getchar] delivers before it
    returns -1, and give the bytes passed to [OutputBuffer::putchar]; for the
    buffers, see IoModel.v. *)

From Coq Require Import Ascii String NArith Bool.
From Coq Require Import List.
From Verif Require Import Str Path DbModel.
Import ListNotations.
Local Open Scope char_scope.

Definition newline : ascii := "010".
Definition quote : ascii := """".

(** ch_in >= '\0' && ch_in <= ' ' *)
Definition is_space (c : ascii) : bool := N.leb (N_of_ascii c) 32.

(** * Cxx::SourceFileLoader::filterInput, lines 230-438

    The state, with the strings that matter in it: raw_string_tag and
    raw_string_end_mark are cleared whenever RawStringBegin is entered. *)
Inductive filter_state :=
| FNewline
| FCommentFirst
| FTagSymbol
| FTag
| FSkipLine
| FCommentBlock
| FCommentBlockPreEnd
| FCommentFirstSkipLine
| FRawStringBegin
| FRawStringTag (tag mark : str)
| FRawString (tag mark : str)
| FRawStringPreEnd (tag mark : str).

(** One iteration of the loop: the next state, and what is put in tags *)
Definition filter_step (st : filter_state) (c : ascii) : filter_state * str :=
  match st with
  | FNewline =>
      if Ascii.eqb c "/" then (FCommentFirst, [" "])
      else if Ascii.eqb c "R" then (FRawStringBegin, [])
      else if is_space c then (FNewline, [c])
      else (FSkipLine, [])
  | FCommentFirst =>
      if Ascii.eqb c "/" then (FTagSymbol, [" "])
      else if Ascii.eqb c "*" then (FCommentBlock, [])
      else if Ascii.eqb c newline then (FNewline, [newline])
      else (FSkipLine, [])
  | FTagSymbol =>
      if Ascii.eqb c "@" then (FTag, [" "])
      else if Ascii.eqb c newline then (FNewline, [newline])
      else (FSkipLine, [])
  | FTag => (if Ascii.eqb c newline then FNewline else FTag, [c])
  | FSkipLine =>
      if Ascii.eqb c newline then (FNewline, [newline])
      else if Ascii.eqb c "R" then (FRawStringBegin, [])
      else if Ascii.eqb c "/" then (FCommentFirstSkipLine, [])
      else (FSkipLine, [])
  | FCommentBlock =>
      if Ascii.eqb c newline then (FCommentBlock, [newline])
      else if Ascii.eqb c "*" then (FCommentBlockPreEnd, [])
      else (FCommentBlock, [])
  | FCommentBlockPreEnd =>
      if Ascii.eqb c "/" then (FSkipLine, [])
      else if Ascii.eqb c newline then (FCommentBlock, [newline])
      else (FCommentBlock, [])
  | FCommentFirstSkipLine =>
      if Ascii.eqb c "*" then (FCommentBlock, [])
      else if Ascii.eqb c newline then (FNewline, [newline])
      else (FSkipLine, [])
  | FRawStringBegin =>
      if Ascii.eqb c quote then (FRawStringTag [] [], [])
      else if Ascii.eqb c newline then (FNewline, [newline])
      else (FSkipLine, [])
  | FRawStringTag tag mark =>
      if Ascii.eqb c "(" then (FRawString tag mark, [])
      else if Ascii.eqb c newline then (FNewline, [newline])
      else (FRawStringTag (tag ++ [c]) mark, [])
  | FRawString tag mark =>
      if Ascii.eqb c newline then (FRawString tag mark, [newline])
      else if Ascii.eqb c ")" then (FRawStringPreEnd tag mark, [])
      else (FRawString tag mark, [])
  | FRawStringPreEnd tag mark =>
      if Ascii.eqb c quote then (if str_eqb mark tag then FSkipLine else FRawString tag [], [])
      else if Ascii.eqb c newline then (FRawString tag mark, [newline])
      else (FRawStringPreEnd tag (mark ++ [c]), [])
  end.

(** The loop; the result is what is put in source, and in tags *)
Fixpoint filter_loop (st : filter_state) (s : str) : str * str :=
  match s with
  | [] => ([], [])
  | c :: s' =>
      let (st', out) := filter_step st c in
      let (source, tags) := filter_loop st' s' in
      (c :: source, out ++ tags)
  end.

Definition cxx_filter_input (s : str) : str * str := filter_loop FNewline s.

(** * Extension::SourceFileLoader::filterInput,
      extension/source_file_loader.cpp:10-89 *)
Inductive ext_state := ENewline | ETagSymbol | ETag | ESkipLine.

Definition ext_step (st : ext_state) (c : ascii) : ext_state * str :=
  match st with
  | ENewline =>
      if Ascii.eqb c "#" then (ETagSymbol, [" "])
      else if is_space c then (ENewline, [c])
      else (ESkipLine, [])
  | ETagSymbol =>
      if Ascii.eqb c "@" then (ETag, [" "])
      else if Ascii.eqb c newline then (ENewline, [newline])
      else (ESkipLine, [])
  | ETag => (if Ascii.eqb c newline then ENewline else ETag, [c])
  | ESkipLine => if Ascii.eqb c newline then (ENewline, [newline]) else (ESkipLine, [])
  end.

Fixpoint ext_loop (st : ext_state) (s : str) : str * str :=
  match s with
  | [] => ([], [])
  | c :: s' =>
      let (st', out) := ext_step st c in
      let (source, tags) := ext_loop st' s' in
      (c :: source, out ++ tags)
  end.

Definition ext_filter_input (s : str) : str * str := ext_loop ENewline s.

(** * Cxx::SourceFileLoader::getDependencies, lines 25-228 *)
Inductive include_state :=
| INewline
| ICommentFirst
| ISkipLine
| ICommentBlock
| ICommentBlockPreEnd
| IRawStringBegin
| IRawStringTag (tag mark : str)
| IRawString (tag mark : str)
| IRawStringPreEnd (tag mark : str)
| IPrePreprocessorDirective
| IPreprocessorDirective (directive : str)
| IPreprocessorDirectivePreArg
| IIncludeProject
| IIncludeSystem.

(** One iteration. [path] is include_path, which is kept between directives; a
    string that has been moved from is empty. The result has the next state, the
    new include_path, and the dependency that was added, with [true] for a
    system header. *)
Definition include_step (st : include_state) (path : str) (c : ascii)
  : include_state * str * list (bool * str) :=
  match st with
  | INewline =>
      if Ascii.eqb c "/" then (ICommentFirst, path, [])
      else if Ascii.eqb c "R" then (IRawStringBegin, path, [])
      else if Ascii.eqb c "#" then (IPrePreprocessorDirective, path, [])
      else if is_space c then (INewline, path, [])
      else (ISkipLine, path, [])
  | ICommentFirst =>
      if Ascii.eqb c "*" then (ICommentBlock, path, [])
      else if Ascii.eqb c newline then (INewline, path, [])
      else (ISkipLine, path, [])
  | ISkipLine =>
      if Ascii.eqb c newline then (INewline, path, [])
      else if Ascii.eqb c "R" then (IRawStringBegin, path, [])
      else if Ascii.eqb c "/" then (ICommentFirst, path, [])
      else (ISkipLine, path, [])
  | ICommentBlock =>
      if Ascii.eqb c "*" then (ICommentBlockPreEnd, path, []) else (ICommentBlock, path, [])
  | ICommentBlockPreEnd =>
      if Ascii.eqb c "/" then (ISkipLine, path, []) else (ICommentBlock, path, [])
  | IRawStringBegin =>
      if Ascii.eqb c quote then (IRawStringTag [] [], path, [])
      else if Ascii.eqb c newline then (INewline, path, [])
      else (ISkipLine, path, [])
  | IRawStringTag tag mark =>
      if Ascii.eqb c "(" then (IRawString tag mark, path, [])
      else if Ascii.eqb c newline then (INewline, path, [])
      else (IRawStringTag (tag ++ [c]) mark, path, [])
  | IRawString tag mark =>
      if Ascii.eqb c ")" then (IRawStringPreEnd tag mark, path, []) else (IRawString tag mark, path, [])
  | IRawStringPreEnd tag mark =>
      if Ascii.eqb c quote then (if str_eqb mark tag then ISkipLine else IRawString tag [], path, [])
      else if Ascii.eqb c newline then (IRawString tag mark, path, [])
      else (IRawStringPreEnd tag (mark ++ [c]), path, [])
  | IPrePreprocessorDirective =>
      if is_space c then (IPrePreprocessorDirective, path, [])
      else (IPreprocessorDirective [c], path, [])
  | IPreprocessorDirective directive =>
      if Ascii.eqb c "<" then
        (if str_eqb directive (lit "include") then IIncludeSystem else ISkipLine, path, [])
      else if Ascii.eqb c quote then
        (if str_eqb directive (lit "include") then IIncludeProject else ISkipLine, path, [])
      else if is_space c then (IPreprocessorDirectivePreArg, path, [])
      else (IPreprocessorDirective (directive ++ [c]), path, [])
  | IPreprocessorDirectivePreArg =>
      if Ascii.eqb c newline then (INewline, path, [])
      else if Ascii.eqb c quote then (IIncludeProject, path, [])
      else if Ascii.eqb c "<" then (IIncludeSystem, path, [])
      else if is_space c then (IPreprocessorDirectivePreArg, path, [])
      else (ISkipLine, path, [])
  | IIncludeProject =>
      if Ascii.eqb c quote then (ISkipLine, [], [(false, path)])
      else if Ascii.eqb c newline then (INewline, path, [])
      else (IIncludeProject, path ++ [c], [])
  | IIncludeSystem =>
      if Ascii.eqb c ">" then (ISkipLine, [], [(true, path)])
      else if Ascii.eqb c newline then (INewline, path, [])
      else (IIncludeSystem, path ++ [c], [])
  end.

Fixpoint include_loop (st : include_state) (path : str) (s : str) : list (bool * str) :=
  match s with
  | [] => []
  | c :: s' =>
      let '(st', path', found) := include_step st path c in
      found ++ include_loop st' path' s'
  end.

(** get_origin, lines 12-22. [generated] tells whether one of the regular
    expressions in generated_includes matches. *)
Definition include_dependency (generated : str -> bool) (inc : bool * str) : dependency :=
  let (system, name) := inc in
  mk_dependency None (parse_path name)
    (if system then System else if generated name then Generated else Project) [].

Definition cxx_get_dependencies (generated : str -> bool) (s : str) : list dependency :=
  map (include_dependency generated) (include_loop INewline [] s).
