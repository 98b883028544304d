(** Vocabulary for cleaning up and formatting. *)

From Coq Require Import Ascii String.
From Coq Require Import List.
From Verif Require Import Str TidyModel.
Import ListNotations.

(** Something in the working directory whose name starts with __targets, or something below it *)
Definition target_place (p : place) : Prop := exists rest below, p = (lit "__targets" ++ rest) :: below.

(** Names that find -name '*.json' gives *)
Definition json_name (p : place) : Prop := exists dir n, p = dir ++ [n ++ lit ".json"].

Definition found (names : list place) (F : files) : Prop :=
  NoDup names /\ forall p, In p names <-> json_name p /\ F p <> None.
