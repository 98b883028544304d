(** Vocabulary for the help text. *)

From Coq Require Import Ascii String.
From Coq Require Import List Permutation.
From Verif Require Import Str CmdSpec ShowSpec HelpModel.
Import ListNotations.

(** How an option is written: without a value, with one, or with or without one. *)
Inductive usage := Alone | WithValue (type : str) | MaybeWithValue (type : str).

Definition usage_text (u : usage) : str :=
  match u with
  | Alone => []
  | WithValue t => lit "=*" ++ t ++ lit "*"
  | MaybeWithValue t => lit "[=*" ++ t ++ lit "*]"
  end.

(** What the help text says about an option *)
Record help_entry := mk_help_entry {
  entry_name : str;
  entry_usage : usage;
  entry_summary : str
}.

Definition blank_line : str := [newline].

Definition entry_text (e : help_entry) : str :=
  entry_name e ++ usage_text (entry_usage e) ++ [newline] ++ lit ": " ++ entry_summary e ++ [newline] ++ blank_line.

Record help_section := mk_help_section {
  section_title : str;
  section_entries : list help_entry
}.

Definition section_text (s : help_section) : str :=
  blank_line ++ lit "## " ++ section_title s ++ [newline] ++ blank_line ++ flat_map entry_text (section_entries s).

Definition explanation_text (t : str * str) : str :=
  blank_line ++ lit "### " ++ fst t ++ [newline] ++ blank_line ++ snd t ++ [newline] ++ blank_line.

(** A help text with these sections, and these explanations of types *)
Definition help_form (text : str) (sections : list help_section) (types : list (str * str)) : Prop :=
  text = blank_line ++ lit "Below is a summary of all command line options. For information about how to type arguments, see *Parameter type explanations* below."
    ++ [newline] ++ flat_map section_text sections
    ++ blank_line ++ lit "___" ++ [newline] ++ blank_line ++ lit "## Parameter type explanations" ++ [newline] ++ blank_line
    ++ lit "This section contains summaries of different parameter types." ++ [newline] ++ blank_line
    ++ flat_map explanation_text types.

(** The entry for an option *)
Definition entry_of (x : opt_info) : help_entry :=
  mk_help_entry (info_name x)
    (match info_type x with
     | None => Alone
     | Some (t, _) => if info_required x then WithValue t else MaybeWithValue t
     end) (info_summary x).

(** In alphabetical order, without repetitions *)
Definition alphabetical (l : list str) : Prop :=
  forall l1 a l2 b l3, l = l1 ++ a :: l2 ++ b :: l3 -> before a b.
