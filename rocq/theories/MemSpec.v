(** Vocabulary for the memory query. *)

From Coq Require Import Ascii String.
From Coq Require Import List.
From Verif Require Import Str.
Import ListNotations.

(** A line with a key and a value. *)
Definition mem_line (key value : str) : str := key ++ ":"%char :: value ++ ["010"%char].

(** [line] is a well-formed line with some other key. *)
Definition other_line (line : str) : Prop :=
  exists key value, line = mem_line key value /\ ~ In ":"%char key /\ ~ In "010"%char value /\ key <> lit "MemAvailable".
