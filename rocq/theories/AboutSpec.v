(** Vocabulary for C93: how a C++ compiler reads definitions of constant texts, and
    what it means to say that a printed text shows something. *)

From Coq Require Import Ascii String ZArith.
From Coq Require Import List Bool Permutation Sorted.
From Verif Require Import Str ValueModel AboutModel.
Import ListNotations.

(** A character of a string literal that stands for itself *)
Definition plain (c : ascii) : Prop := c <> "034"%char /\ c <> "\"%char /\ c <> "010"%char /\ c <> "013"%char.
Definition plain_text (s : str) : Prop := Forall plain s.

(** What follows the opening quote of a string literal: the text it stands for, and
    what comes after the closing quote. Only the escape sequences for quotes,
    backslashes and line breaks are known, and there are no line breaks in a literal. *)
Inductive literal : str -> str -> str -> Prop :=
| literal_end : forall rest, literal ("034"%char :: rest) [] rest
| literal_char : forall c s v rest, plain c -> literal s v rest -> literal (c :: s) (c :: v) rest
| literal_quote : forall s v rest, literal s v rest -> literal ("\"%char :: "034"%char :: s) ("034"%char :: v) rest
| literal_backslash : forall s v rest, literal s v rest -> literal ("\"%char :: "\"%char :: s) ("\"%char :: v) rest
| literal_newline : forall s v rest, literal s v rest -> literal ("\"%char :: "n"%char :: s) ("010"%char :: v) rest.

Definition letter (c : ascii) : Prop := In c (lit "abcdefghijklmnopqrstuvwxyzABCDEFGHIJKLMNOPQRSTUVWXYZ").

(** A file of definitions in the namespace [Maike::Self]: empty lines, preprocessor
    lines, and lines that define a variable. *)
Inductive defines : str -> list (str * str) -> Prop :=
| defines_nothing : defines [] []
| defines_empty_line : forall s d, defines s d -> defines ("010"%char :: s) d
| defines_preprocessor : forall line s d,
    ~ In "010"%char line -> ~ In "\"%char line -> defines s d -> defines ("#"%char :: line ++ "010"%char :: s) d
| defines_variable : forall name text value s d,
    Forall letter name -> literal text value (";"%char :: "010"%char :: s) -> defines s d ->
    defines (lit "char const* Maike::Self::" ++ name ++ lit " = " ++ "034"%char :: text) ((name, value) :: d).

(** The value of a variable *)
Fixpoint value_in (d : list (str * str)) (name : str) : option str :=
  match d with
  | [] => None
  | (n, v) :: d' => if str_eqb n name then Some v else value_in d' name
  end.

(** A printed text has the given line *)
Definition has_line (text line : str) : Prop :=
  exists before after, text = before ++ line ++ "010"%char :: after /\
    (before = [] \/ exists b, before = b ++ ["010"%char]).

(** The parts, with a separator between any two *)
Inductive separated (sep : str) : list str -> str -> Prop :=
| separated_none : separated sep [] []
| separated_one : forall s, separated sep [s] s
| separated_more : forall s l t, l <> [] -> separated sep l t -> separated sep (s :: l) (s ++ sep ++ t).

(** How the holder of a copyright is presented: the years in order, then the name.
    [number] writes a year. *)
Definition presents (number : Z -> str) (ys : list Z) (name line : str) : Prop :=
  exists l text, Permutation l ys /\ StronglySorted Z.le l /\
    separated (lit ", ") (map number l) text /\ line = lit "© " ++ text ++ lit " : " ++ name.

(** The time stamps of maike count nanoseconds, with 64 bits. *)
Definition start_in_range (t : Z) : Prop := (llong_min <= t * 1000000000 <= llong_max)%Z.

(** No quotes, backslashes or line breaks *)
Record plain_about (a : about) : Prop := {
  plain_id : plain_text (about_id a);
  plain_host : plain_text (build_host a);
  plain_commit : plain_text (commit a);
  plain_tag : plain_text (tag a);
  plain_authors : Forall (fun h => plain_text (author h)) (copyright a);
  plain_description : plain_text (description_short a);
  plain_license : plain_text (license_short a);
  plain_start : start_in_range (start_time a)
}.
