(** Vocabulary for the source archive. *)

From Coq Require Import Ascii String Bool.
From Coq Require Import List.
From Verif Require Import Str SetupModel SetupSpec PackModel.
Import ListNotations.

(** What belongs into the archive: everything below the names given, and below __buildcache *)
Definition belongs (names : list place) (p : place) : Prop :=
  under [lit "__buildcache"] p \/ exists n, In n names /\ under n p.

(** A directory *)
Definition dir_at (t : tree) (p : place) : Prop := exists r x es, lookup t p = Some (DirNode r x es).
