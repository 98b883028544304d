(** Vocabulary for printed commands and the log. *)

From Coq Require Import Ascii String ZArith Bool.
From Coq Require Import List.
From Verif Require Import Str LogModel.
Import ListNotations.

(** How a printed word is read: a backslash stands for the character that follows
    it, anything else except for a quote stands for itself. *)
Inductive reads_as : str -> str -> Prop :=
| reads_nil : reads_as [] []
| reads_plain c s w : c <> "\"%char -> c <> "'"%char -> reads_as s w -> reads_as (c :: s) (c :: w)
| reads_escaped c s w : reads_as s w -> reads_as ("\"%char :: c :: s) (c :: w).

(** How a printed command is read: quoted words, separated by single spaces. *)
Inductive reads_words : str -> list str -> Prop :=
| words_last s w : reads_as s w -> reads_words ("'"%char :: s ++ ["'"%char]) [w]
| words_more s w r ws : reads_as s w -> reads_words r ws ->
    reads_words ("'"%char :: s ++ "'"%char :: " "%char :: r) (w :: ws).

(** How a POSIX shell reads a word that consists of nothing but text in single
    quotes: there is no way to escape anything (POSIX.1-2017, 2.2.2). *)
Inductive shell_words : str -> list str -> Prop :=
| shell_last w : ~ In "'"%char w -> shell_words ("'"%char :: w ++ ["'"%char]) [w]
| shell_more w r ws : ~ In "'"%char w -> shell_words r ws ->
    shell_words ("'"%char :: w ++ "'"%char :: " "%char :: r) (w :: ws).

Definition no_newline (s : str) : Prop := ~ In "010"%char s.
Definition no_nul (s : str) : Prop := ~ In "000"%char s.

(** Text made of complete [lines], and an incomplete [last] one. *)
Definition text (lines : list str) (last : str) : str :=
  concat (map (fun l => l ++ ["010"%char]) lines) ++ last.

(** The same, with a mark before each line. *)
Definition marked_text (mark : str) (lines : list str) (last : str) : str :=
  concat (map (fun l => mark ++ l ++ ["010"%char]) lines) ++ match last with [] => [] | _ => mark ++ last end.

(** The line about a task: number, mark, path, and when it was started and
    completed. *)
Definition header (id : str) (mark : str) (path : str) (times : str) : str :=
  lit " " ++ id ++ lit " | " ++ mark ++ lit " | " ++ path ++ lit " | " ++ times.
