(** Vocabulary for what the program writes. *)

From Coq Require Import Ascii String.
From Coq Require Import List Bool.
From Verif Require Import Str.
Import ListNotations.

Definition newline : ascii := "010"%char.

(** The text consists of these lines. *)
Definition text_lines (text : str) (ls : list str) : Prop :=
  text = concat (map (fun l => l ++ [newline]) ls) /\ Forall (fun l => ~ In newline l) ls.

Definition is_comment (l : str) : bool := match l with c :: _ => Ascii.eqb c "#" | [] => false end.

(** A line of its own, which is not a comment *)
Definition listable (s : str) : Prop := ~ In newline s /\ is_comment s = false.

(** A text without characters that have a meaning in strings of dot *)
Definition quotable (s : str) : Prop := ~ In "034"%char s /\ ~ In "\"%char s.

(** ** A reader for a part of the language of the program dot *)

Inductive dot_token :=
| Word (s : str)
| Quoted (s : str)
| OpenBrace | CloseBrace
| Arrow
| Equals.

Definition word_char (c : ascii) : bool :=
  let n := nat_of_ascii c in
  (Nat.leb 48 n && Nat.leb n 57) || (Nat.leb 65 n && Nat.leb n 90) || (Nat.leb 97 n && Nat.leb n 122)
  || Nat.eqb n 95 || Nat.leb 128 n.

(** Where the reader is: at the beginning of a line, within a line that starts with a
    hash sign (which is ignored), between tokens, in a word, after a minus sign, in a quoted
    string, and after a backslash in a quoted string. In strings, only a quote can be
    escaped; other backslashes are kept. *)
Inductive dot_state :=
| LineStart
| Ignoring
| Between
| InWord (s : str)
| Minus
| InQuotes (s : str)
| Backslash (s : str).

(** The next state, and the tokens that have ended. [None]: not in the language *)
Definition dot_between (c : ascii) : option (dot_state * list dot_token) :=
  if Ascii.eqb c newline then Some (LineStart, [])
  else if Ascii.eqb c " " || Ascii.eqb c "009" then Some (Between, [])
  else if Ascii.eqb c "034" then Some (InQuotes [], [])
  else if Ascii.eqb c "{" then Some (Between, [OpenBrace])
  else if Ascii.eqb c "}" then Some (Between, [CloseBrace])
  else if Ascii.eqb c "=" then Some (Between, [Equals])
  else if Ascii.eqb c "-" then Some (Minus, [])
  else if word_char c then Some (InWord [c], [])
  else None.

Definition dot_next (st : dot_state) (c : ascii) : option (dot_state * list dot_token) :=
  match st with
  | LineStart => if Ascii.eqb c "#" then Some (Ignoring, []) else dot_between c
  | Ignoring => Some (if Ascii.eqb c newline then LineStart else Ignoring, [])
  | Between => dot_between c
  | InWord s =>
      if word_char c then Some (InWord (s ++ [c]), [])
      else option_map (fun r => (fst r, Word s :: snd r)) (dot_between c)
  | Minus => if Ascii.eqb c ">" then Some (Between, [Arrow]) else None
  | InQuotes s =>
      if Ascii.eqb c "034" then Some (Between, [Quoted s])
      else if Ascii.eqb c "\" then Some (Backslash s, [])
      else Some (InQuotes (s ++ [c]), [])
  | Backslash s =>
      if Ascii.eqb c "034" then Some (InQuotes (s ++ [c]), [])
      else if Ascii.eqb c newline then Some (InQuotes s, [])
      else Some (InQuotes (s ++ ["\"%char; c]), [])
  end.

Fixpoint dot_tokens (st : dot_state) (text : str) : option (list dot_token) :=
  match text with
  | [] => match st with
          | LineStart | Ignoring | Between => Some []
          | InWord s => Some [Word s]
          | _ => None
          end
  | c :: text' =>
      match dot_next st c with
      | None => None
      | Some (st', ts) => option_map (app ts) (dot_tokens st' text')
      end
  end.

(** Statements: an attribute of the graph, or an edge between two nodes *)
Fixpoint dot_statements (ts : list dot_token) : option (list (str * str)) :=
  match ts with
  | [CloseBrace] => Some []
  | Word _ :: Equals :: Word _ :: ts' => dot_statements ts'
  | Quoted a :: Arrow :: Quoted b :: ts' => option_map (cons (a, b)) (dot_statements ts')
  | _ => None
  end.

(** The edges of a directed graph *)
Definition dot_edges (text : str) : option (list (str * str)) :=
  match dot_tokens LineStart text with
  | Some (Word k :: Quoted _ :: OpenBrace :: ts) => if str_eqb k (lit "digraph") then dot_statements ts else None
  | _ => None
  end.
