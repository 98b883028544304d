(** Vocabulary for statements about tags and includes. *)

From Coq Require Import Ascii String NArith Bool Arith.
From Coq Require Import List.
From Verif Require Import Str Path DbModel LexModel.
Import ListNotations.
Local Open Scope char_scope.

(** * Lines *)

(** The lines of a text, without the newlines. What follows after the last newline
    is the last line. *)
Fixpoint lines (s : str) : list str :=
  match s with
  | [] => [[]]
  | c :: s' =>
      if Ascii.eqb c newline then [] :: lines s'
      else match lines s' with
           | [] => [[c]]
           | l :: ls => (c :: l) :: ls
           end
  end.

(** White space and control characters *)
Definition blank (s : str) : Prop := forall c, In c s -> is_space c = true.

(** The part [rest] of the line [l] is the content of a comment that starts with
    [mark], and has only blanks in front of it. [t] is the same line with [mark]
    blanked out. *)
Definition tag_line (mark : str) (l t : str) : Prop :=
  exists ws rest, blank ws /\ l = ws ++ mark ++ rest /\ t = ws ++ map (fun _ => " ") mark ++ rest.

(** * C++ source text

    The lexical structure of C++. Left out are lines that are continued in the middle
    of a token, literal, comment, or include directive, directives whose name is
    followed by something else than blanks, newlines or comments, and the alternative
    spelling of the number sign. *)
Inductive item :=
| Newline
| Splice                          (* a backslash and a newline: the line is continued *)
| Blank (c : ascii)
| Code (s : str)                  (* anything else: names, operators, ... *)
| Number (s : str)                (* may have digit separators *)
| Quoted (q : ascii) (s : str)    (* string or character literal *)
| LineComment (s : str)
| BlockComment (s : str)
| RawString (tag s : str)
| Include (b1 b2 : str) (system : bool) (name : str)
| Directive (b1 : str) (name : str) (b2 : str).    (* the beginning of another directive *)

Definition render_item (i : item) : str :=
  match i with
  | Newline => [newline]
  | Splice => "\" :: [newline]
  | Blank c => [c]
  | Code s | Number s => s
  | Quoted q s => q :: s ++ [q]
  | LineComment s => lit "//" ++ s
  | BlockComment s => lit "/*" ++ s ++ lit "*/"
  | RawString tag s => lit "R" ++ [quote] ++ tag ++ lit "(" ++ s ++ lit ")" ++ tag ++ [quote]
  | Include b1 b2 system name =>
      lit "#" ++ b1 ++ lit "include" ++ b2 ++
      (if system then lit "<" ++ name ++ lit ">" else [quote] ++ name ++ [quote])
  | Directive b1 name b2 => lit "#" ++ b1 ++ name ++ b2
  end.

Definition render (l : list item) : str := concat (map render_item l).

Definition occurs (p s : str) : Prop := exists a b, s = a ++ p ++ b.
Definition ends_with (s p : str) : Prop := exists a, s = a ++ p.
Definition starts_with (s p : str) : Prop := exists a, s = p ++ a.

(** The content of a literal between quotes [q], with escape sequences. *)
Fixpoint literal_content (q : ascii) (s : str) : bool :=
  match s with
  | [] => true
  | c :: s' =>
      if Ascii.eqb c newline then false
      else if Ascii.eqb c q then false
      else if Ascii.eqb c "\" then
        match s' with
        | [] => false
        | d :: s'' => negb (Ascii.eqb d newline) && literal_content q s''
        end
      else literal_content q s'
  end.

Definition line_blank (s : str) : Prop := blank s /\ ~ In newline s.
Definition is_digit (c : ascii) : bool := N.leb 48 (N_of_ascii c) && N.leb (N_of_ascii c) 57.
Definition is_lower (c : ascii) : bool := N.leb 97 (N_of_ascii c) && N.leb (N_of_ascii c) 122.

(** Characters of names. Those outside ASCII are counted among them. *)
Definition in_name (c : ascii) : bool :=
  is_digit c || is_lower c || (N.leb 65 (N_of_ascii c) && N.leb (N_of_ascii c) 90) || Ascii.eqb c "_" || Ascii.eqb c "$"
  || N.leb 128 (N_of_ascii c).

(** Each item on its own is as in C++. *)
Definition item_ok (i : item) : Prop :=
  match i with
  | Newline | Splice => True
  | Blank c => is_space c = true /\ c <> newline
  | Code s => s <> [] /\ (forall c, In c s -> is_space c = false /\ c <> quote /\ c <> "'") /\
              ~ occurs (lit "//") s /\ ~ occurs (lit "/*") s /\ ~ ends_with s (lit "/") /\ ~ ends_with s (lit "\")
  | Number s => (exists c s', s = c :: s' /\ is_digit c = true) /\
                (forall c, In c s -> in_name c = true \/ c = "." \/ c = "'") /\
                ~ occurs (lit "''") s /\ ~ occurs (lit "'.") s /\ ~ occurs (lit ".'") s /\ ~ ends_with s (lit "'")
  | Quoted q s => (q = quote \/ q = "'") /\ literal_content q s = true
  | LineComment s => ~ In newline s /\ ~ ends_with s (lit "\")
  | BlockComment s => ~ occurs (lit "*/") (s ++ lit "*")
  | RawString tag s =>
      (forall c, In c tag -> is_space c = false /\ c <> "(" /\ c <> ")" /\ c <> "\" /\ c <> quote) /\
      ~ occurs (lit ")" ++ tag ++ [quote]) (s ++ lit ")" ++ tag)
  | Include b1 b2 system name =>
      line_blank b1 /\ line_blank b2 /\ ~ In newline name /\ ~ In (if system then ">" else quote) name
  | Directive b1 name b2 =>
      line_blank b1 /\ line_blank b2 /\ name <> [] /\ (forall c, In c name -> is_lower c = true) /\
      name <> lit "include"
  end.

(** What may come after an item, so that the text is split in the same way *)
Definition next_ok (i : item) (l : list item) : Prop :=
  match i, l with
  | _, [] => True
  | LineComment _, j :: _ => j = Newline
  | Blank _, Splice :: _ | Newline, Splice :: _ => True
  | Directive _ _ [], j :: _ => match j with Newline | LineComment _ | BlockComment _ => True | _ => False end
  | _, Splice :: l' => match l' with [] | Newline :: _ | Blank _ :: _ => True | _ => False end
  | Code _, Code _ :: _ => False
  | Code s, RawString _ _ :: _ =>
      exists a p, s = a ++ p /\ In p [[]; lit "u8"; lit "u"; lit "U"; lit "L"] /\
        forall c, ends_with a [c] -> in_name c = false
  | Code s, Quoted _ _ :: _ => ~ ends_with s (lit "R")
  | Code s, Number _ :: _ => forall c, ends_with s [c] -> in_name c = false
  | Number _, RawString _ _ :: _ | Quoted _ _, RawString _ _ :: _ | RawString _ _, RawString _ _ :: _ => False
  | Number _, Quoted q _ :: _ => q = quote
  | Directive _ _ _, Blank _ :: _ => False
  | _, _ => True
  end.

(** What there is so far on a line: only blanks, comments, or something else. A
    directive may come after comments. *)
Inductive so_far := OnlyBlanks | OnlyComments | Something.

Definition and_then (b : so_far) (i : item) : so_far :=
  match i with
  | Newline => OnlyBlanks
  | Blank _ | Splice => b
  | BlockComment _ => match b with Something => Something | _ => OnlyComments end
  | _ => Something
  end.

Fixpoint source_ok (b : so_far) (l : list item) : Prop :=
  match l with
  | [] => True
  | i :: l' =>
      item_ok i /\ next_ok i l' /\
      match i with
      | Include _ _ _ _ | Directive _ _ _ => b <> Something
      | Code s => b <> Something -> ~ starts_with s (lit "#") /\ ~ starts_with s (lit "%:")
      | _ => True
      end /\
      source_ok (and_then b i) l'
  end.

Definition cxx_source (l : list item) : Prop := source_ok OnlyBlanks l.

(** The line comments that start with an at sign, and have only blanks in front of
    them, line by line. [None]: there is no such comment on the line. [ws] has the
    blanks on the current line, if there is nothing else so far. *)
Fixpoint tag_comments (ws : option str) (l : list item) : list (option str) :=
  match l with
  | [] => [None]
  | Newline :: l' | Splice :: l' => None :: tag_comments (Some []) l'
  | Blank c :: l' => tag_comments (option_map (fun w => w ++ [c]) ws) l'
  | LineComment s :: l' =>
      match ws, s with
      | Some w, c :: rest =>
          if Ascii.eqb c "@"
          then Some (w ++ lit "   " ++ rest) :: tl (tag_comments None l')
          else tag_comments None l'
      | _, _ => tag_comments None l'
      end
  | BlockComment s :: l' | RawString _ s :: l' =>
      repeat None (count_occ ascii_dec s newline) ++ tag_comments None l'
  | _ :: l' => tag_comments None l'
  end.

Definition same_tags (expected : list (option str)) (out : list str) : Prop :=
  Forall2 (fun e t => match e with Some t' => t = t' | None => blank t end) expected out.

(** The operands of the include directives *)
Definition includes (l : list item) : list (bool * str) :=
  flat_map (fun i => match i with Include _ _ system name => [(system, name)] | _ => [] end) l.

(** * What the lexers cope with *)

(** Neither the beginning of a block comment nor that of a raw string. *)
Definition plain (s : str) : Prop := ~ occurs (lit "/*") s /\ ~ occurs (lit "R" ++ [quote]) s.

Fixpoint stars_at_front (s : str) : nat :=
  match s with
  | c :: s' => if Ascii.eqb c "*" then S (stars_at_front s') else 0
  | [] => 0
  end.
Definition stars_at_end (s : str) : nat := stars_at_front (rev s).

(** Nothing that may be taken for the end of what starts with a slash or with R *)
Definition at_gap (l : list item) : Prop :=
  match l with [] | Newline :: _ | Splice :: _ | Blank _ :: _ => True | _ => False end.

Definition tame_item (i : item) (l : list item) : Prop :=
  match i with
  | Code s | Number s => ends_with s (lit "R") -> at_gap l
  | Quoted q s => plain (q :: s ++ [q])
  | LineComment s => plain s
  | BlockComment s => Nat.Even (stars_at_end s)
  | RawString tag s => ~ In ")" s
  | Include b1 b2 system name => plain (name ++ [quote])
  | _ => True
  end.

Fixpoint tame_text (l : list item) : Prop :=
  match l with
  | [] => True
  | i :: l' => tame_item i l' /\ tame_text l'
  end.

(** Where the lexer that looks for include directives may be: at the beginning of a
    line, after the name of a directive, which includes the whole next line when there
    was nothing after the name, and in the rest of a line. *)
Inductive place := AtStart | ForOperand | Rest.

Fixpoint tame_directives (m : place) (l : list item) : Prop :=
  match l with
  | [] => True
  | i :: l' =>
      match i with
      | Newline | Splice => tame_directives AtStart l'
      | Blank _ => tame_directives m l'
      | Include _ _ _ _ => m = AtStart /\ tame_directives Rest l'
      | Directive _ _ b2 =>
          match m, b2 with
          | AtStart, _ :: _ => tame_directives ForOperand l'
          | AtStart, [] =>
              match l' with
              | [] => True
              | Newline :: l'' => tame_directives ForOperand l''
              | _ => False
              end
          | _, _ => tame_directives Rest l'
          end
      | Code s =>
          match m with
          | AtStart => ~ starts_with s (lit "#")
          | ForOperand => ~ starts_with s (lit "<")
          | Rest => True
          end /\ tame_directives Rest l'
      | Quoted q _ => (m = ForOperand -> q <> quote) /\ tame_directives Rest l'
      | LineComment s => (m = ForOperand -> ~ starts_with s (lit "*")) /\ tame_directives Rest l'
      | BlockComment s =>
          (m = ForOperand -> ~ In newline s /\ plain (s ++ lit "*") /\ at_gap l') /\ tame_directives Rest l'
      | RawString _ _ => m <> ForOperand /\ tame_directives Rest l'
      | Number _ => tame_directives Rest l'
      end
  end.

Definition tame (l : list item) : Prop := tame_text l /\ tame_directives AtStart l.
