(** Properties C19 - C22: tags and includes in source files. *)

From Coq Require Import Ascii String NArith.
From Coq Require Import List.
From Verif Require Import Str Path DbModel LexModel LexSpec LexProofs LexCheck.
Import ListNotations.

(** C19. *)
Theorem C19_cxx_source_unchanged : forall s, fst (cxx_filter_input s) = s.
Proof. exact cxx_source_unchanged. Qed.
Print Assumptions C19_cxx_source_unchanged.

Theorem C19_extension_source_unchanged : forall s, fst (ext_filter_input s) = s.
Proof. exact ext_source_unchanged. Qed.
Print Assumptions C19_extension_source_unchanged.

(** C20. There are as many lines in the tag stream as in the source. A line is blank
    or equals that of the source, except that the mark is blanked out, and then
    the line starts with the mark. *)
Theorem C20_cxx_tag_positions : forall s,
    Forall2 (fun l t => blank t \/ tag_line (lit "//@") l t) (lines s) (lines (snd (cxx_filter_input s))).
Proof. exact cxx_tags_positions. Qed.
Print Assumptions C20_cxx_tag_positions.

(** In files handled by other tools, the mark is #@, and no line with tags is missed. *)
Theorem C20_extension_tags_exact : forall s,
    Forall2 (fun l t => tag_line (lit "#@") l t \/ (blank t /\ forall ws rest, blank ws -> l <> ws ++ lit "#@" ++ rest))
      (lines s) (lines (snd (ext_filter_input s))).
Proof. exact ext_tags_exact. Qed.
Print Assumptions C20_extension_tags_exact.

(** C21. For source texts in which comments and literals are tame, the tag stream has
    exactly the tag comments. *)
Theorem C21_cxx_tags_found_partial : forall l, cxx_source l -> tame_text l ->
    same_tags (tag_comments (Some []) l) (lines (snd (cxx_filter_input (render l)))).
Proof. exact cxx_tags_found. Qed.
Print Assumptions C21_cxx_tags_found_partial.

(** C22. For source texts in which comments, literals and directives are tame, the
    dependencies are the operands of the include directives, in order. *)
Theorem C22_includes_found_partial : forall l generated, cxx_source l -> tame l ->
    cxx_get_dependencies generated (render l) = map (include_dependency generated) (includes l).
Proof. exact cxx_includes_found. Qed.
Print Assumptions C22_includes_found_partial.

Local Open Scope string_scope.
Local Open Scope list_scope.

(** A source text with everything in it *)
Definition code (s : string) : item := Code (lit s).
Definition sp : item := Blank (ascii_of_nat 32).
Definition sample : list item :=
  [LineComment (lit "@{"); Newline;
   sp; LineComment (lit "@""target"":{""name"":""foo.o""}}"); Newline;
   Include [] (lit " ") false (lit "./foo.hpp"); Newline;
   Directive [] (lit "if") (lit " "); code "FOO"; Newline;
   sp; Include (lit " ") [] true (lit "vector"); sp; LineComment (lit " a comment"); Newline;
   BlockComment (lit " #include <x>" ++ [newline] ++ lit "//@ not a tag" ++ [newline]); code "int"; sp; code "x="; sp;
   RawString (lit "foo") ([newline] ++ lit "//@ neither this" ++ [newline] ++ lit "#include <y>"); code ";"; Newline;
   code "auto"; sp; code "z="; Quoted quote (lit "//@ nor\"" this"); code "/2;"; sp; LineComment (lit "@ or this"); Newline;
   sp; sp; LineComment (lit "@last")].

Example sample_ok : cxx_source sample /\ tame sample.
Proof. split; [apply check_source|apply tameb_ok]; vm_compute; reflexivity. Qed.

Example C21_sample :
  tag_comments (Some []) sample =
    [Some (lit "   {"); Some (lit "    ""target"":{""name"":""foo.o""}}"); None; None; None; None; None; None; None; None; None;
     Some (lit "     last")] /\
  map (fun t => List.existsb (fun c => negb (is_space c)) t) (lines (snd (cxx_filter_input (render sample)))) =
    [true; true; false; false; false; false; false; false; false; false; false; true].
Proof. vm_compute. split; reflexivity. Qed.

Example C22_sample : includes sample = [(false, lit "./foo.hpp"); (true, lit "vector")] /\
  cxx_get_dependencies (fun _ => false) (render sample) =
    [mk_dependency None (parse_path (lit "./foo.hpp")) Project []; mk_dependency None (parse_path (lit "vector")) System []].
Proof. vm_compute. split; reflexivity. Qed.

(** A header with what is common in headers *)
Definition guard : list item :=
  [LineComment (lit "@{}"); Newline; Newline;
   Directive [] (lit "ifndef") (lit " "); code "FOO_HPP"; Newline;
   Directive [] (lit "define") (lit " "); code "FOO_HPP"; Newline; Newline;
   Directive [] (lit "pragma") (lit " "); code "once"; Newline;
   Include [] (lit " ") true (lit "array"); Newline;
   Directive [] (lit "if") (lit " "); code "__has_include(<x>)"; Newline;
   sp; Include [] (lit " ") true (lit "x"); Newline;
   Directive [] (lit "else") []; Newline;
   sp; Directive [] (lit "error") (lit " "); Quoted quote (lit "x is missing"); Newline;
   Directive [] (lit "endif") []; Newline; Newline;
   Include [] (lit " ") false (lit "./bar.hpp"); Newline;
   Directive [] (lit "define") (lit " "); code "TEXT(x)"; sp; Splice;
   sp; sp; code "f(#x,"; sp; Splice;
   sp; code "R)"; Newline;
   code "constexpr"; sp; code "auto"; sp; code "n="; Number (lit "1'000'000"); code ";"; sp; LineComment (lit "@ no tag"); Newline;
   code "constexpr"; sp; code "auto"; sp; code "s=g(";
   RawString (lit "FOO") ([newline] ++ lit "//@ not a tag" ++ [newline] ++ lit "#include <y>"); code ");"; Newline;
   Directive [] (lit "endif") (lit " "); BlockComment (lit " FOO_HPP "); Newline;
   Directive [] (lit "ifdef") (lit " "); code "BAR"; Newline;
   Include [] (lit " ") false (lit "./baz.hpp"); Newline;
   Directive [] (lit "endif") []].

Example guard_ok : cxx_source guard /\ tame guard.
Proof. split; [apply check_source|apply tameb_ok]; vm_compute; reflexivity. Qed.

Example C22_guard : includes guard = [(true, lit "array"); (true, lit "x"); (false, lit "./bar.hpp"); (false, lit "./baz.hpp")] /\
  tag_comments (Some []) guard = Some (lit "   {}") :: repeat None 24.
Proof. vm_compute. split; reflexivity. Qed.

Example C20_extension_sample :
  let s := lit "#@{}" ++ [newline] ++ lit "x=1 #@ no" ++ [newline] ++ lit "  #@y" in
  lines (snd (ext_filter_input s)) = [lit "  {}"; []; lit "    y"].
Proof. vm_compute. reflexivity. Qed.

(** Why C21 and C22 are partial. In each of these cases the source text is well-formed. *)

Local Ltac refute_tags l :=
  exists l; split; [apply check_source; vm_compute; reflexivity|apply check_not_same; vm_compute; reflexivity].

(** A line comment with the beginning of a block comment in it hides what follows. *)
Theorem C21_line_comment_refuted : exists l, cxx_source l /\
    ~ same_tags (tag_comments (Some []) l) (lines (snd (cxx_filter_input (render l)))).
Proof. refute_tags [LineComment (lit " src/*.cpp"); Newline; LineComment (lit "@{}"); Newline]. Qed.
Print Assumptions C21_line_comment_refuted.

(** A block comment such as the one in "/** text **/" is not seen to end. *)
Theorem C21_block_comment_refuted : exists s, cxx_source [BlockComment s; Newline; LineComment (lit "@{}"); Newline] /\
    ~ same_tags (tag_comments (Some []) [BlockComment s; Newline; LineComment (lit "@{}"); Newline])
      (lines (snd (cxx_filter_input (render [BlockComment s; Newline; LineComment (lit "@{}"); Newline])))).
Proof.
  exists (lit "* text *"). split; [apply check_source; vm_compute; reflexivity|apply check_not_same; vm_compute; reflexivity].
Qed.
Print Assumptions C21_block_comment_refuted.

(** A raw string with a right parenthesis in it is not seen to end. *)
Theorem C21_raw_string_refuted : exists s, cxx_source [RawString [] s; Newline; LineComment (lit "@{}"); Newline] /\
    ~ same_tags (tag_comments (Some []) [RawString [] s; Newline; LineComment (lit "@{}"); Newline])
      (lines (snd (cxx_filter_input (render [RawString [] s; Newline; LineComment (lit "@{}"); Newline])))).
Proof.
  exists (lit "f(x)"). split; [apply check_source; vm_compute; reflexivity|apply check_not_same; vm_compute; reflexivity].
Qed.
Print Assumptions C21_raw_string_refuted.

(** A string literal that ends with R is taken for the beginning of a raw string. *)
Theorem C21_literal_refuted : exists s l, cxx_source (code "f(" :: Quoted quote s :: l) /\
    ~ same_tags (tag_comments (Some []) (code "f(" :: Quoted quote s :: l))
      (lines (snd (cxx_filter_input (render (code "f(" :: Quoted quote s :: l))))).
Proof.
  exists (lit "BAR"), [code ",g());"; Newline; LineComment (lit "@{}"); Newline].
  split; [apply check_source; vm_compute; reflexivity|apply check_not_same; vm_compute; reflexivity].
Qed.
Print Assumptions C21_literal_refuted.

(** The line after a directive without argument is skipped. *)
Theorem C22_after_endif_refuted : exists l, cxx_source l /\
    includes l = [(false, lit "x.hpp")] /\ cxx_get_dependencies (fun _ => false) (render l) = [].
Proof.
  exists [Directive [] (lit "endif") []; Newline; Include [] (lit " ") false (lit "x.hpp"); Newline].
  split; [apply check_source; vm_compute; reflexivity|vm_compute; split; reflexivity].
Qed.
Print Assumptions C22_after_endif_refuted.

(** A directive that comes after a block comment is not seen. *)
Theorem C22_after_comment_refuted : exists l, cxx_source l /\ tame_text l /\
    includes l = [(false, lit "x.hpp")] /\ cxx_get_dependencies (fun _ => false) (render l) = [].
Proof.
  exists [BlockComment (lit " x "); sp; Include [] (lit " ") false (lit "x.hpp"); Newline].
  split; [apply check_source; vm_compute; reflexivity|]. split; [apply tame_textb_ok; vm_compute; reflexivity|].
  vm_compute; split; reflexivity.
Qed.
Print Assumptions C22_after_comment_refuted.

(** The operand of another directive is taken for a dependency. *)
Theorem C22_pragma_refuted : exists l, cxx_source l /\
    includes l = [] /\ cxx_get_dependencies (fun _ => false) (render l) <> [].
Proof.
  exists [Directive [] (lit "error") (lit " "); Quoted quote (lit "message"); Newline].
  split; [apply check_source; vm_compute; reflexivity|vm_compute; split; [reflexivity|discriminate]].
Qed.
Print Assumptions C22_pragma_refuted.

(** A comment with the beginning of a block comment in it hides what follows. *)
Theorem C22_comment_refuted : exists l, cxx_source l /\
    includes l = [(true, lit "x")] /\ cxx_get_dependencies (fun _ => false) (render l) = [].
Proof.
  exists [LineComment (lit "@ *.c, src/*.cpp"); Newline; Include [] (lit " ") true (lit "x"); Newline].
  split; [apply check_source; vm_compute; reflexivity|vm_compute; split; reflexivity].
Qed.
Print Assumptions C22_comment_refuted.
