(** Vocabulary for C94: the form of tags. *)

From Coq Require Import Ascii String ZArith.
From Coq Require Import List.
From Verif Require Import Str JsonModel DbModel LoadModel.
Import ListNotations.

(** If there is a member with the given name, its value satisfies [P]. *)
Definition if_present (name : string) (P : json -> Prop) (o : list (str * json)) : Prop :=
  forall j, obj_get (lit name) o = Some j -> P j.
(** There is a member with the given name, and its value satisfies [P]. *)
Definition required (name : string) (P : json -> Prop) (o : list (str * json)) : Prop :=
  exists j, obj_get (lit name) o = Some j /\ P j.

Definition text (j : json) : Prop := exists s, j = JString s.
Definition number (j : json) : Prop := exists z, j = JInteger z.
Definition object (P : list (str * json) -> Prop) (j : json) : Prop := exists o, j = JObject o /\ P o.
Definition array (P : json -> Prop) (j : json) : Prop := exists l, j = JArray l /\ Forall P l.
Definition one_of (names : list string) (j : json) : Prop := exists n, In n names /\ j = JString (lit n).

(** A dependency has a name, possibly an origin, and other members that are texts. *)
Definition dependency_form (o : list (str * json)) : Prop :=
  required "ref" text o /\
  if_present "origin" (one_of ["generated"; "project"; "system"; "pkg-config"]%string) o /\
  Forall (fun m => fst m = lit "ref" \/ fst m = lit "origin" \/ text (snd m)) o.

Definition target_form (o : list (str * json)) : Prop :=
  required "name" text o /\
  if_present "dependencies" (array (object dependency_form)) o /\
  if_present "pkgconfig_libs" (array text) o.

Definition compiler_form (o : list (str * json)) : Prop :=
  if_present "recipe" text o /\ if_present "use_get_tags" number o /\ required "config" (object (fun _ => True)) o.

Definition tags_form (o : list (str * json)) : Prop :=
  if_present "target" (object target_form) o /\
  if_present "targets" (array (object target_form)) o /\
  if_present "dependencies" (array (object dependency_form)) o /\
  if_present "dependencies_extra" (array (object dependency_form)) o /\
  if_present "compiler" (object compiler_form) o /\
  if_present "rebuild" (one_of ["always"; "only_if_out_of_date"]%string) o.

(** The names of all settings *)
Definition settings : list string :=
  ["target"; "targets"; "dependencies"; "dependencies_extra"; "compiler"; "rebuild"]%string.

(** The recipe for a file is asked for tags: the compiler of its loader says so, and
    the file has no compiler of its own, or else the compiler of the file says so. *)
Definition asks (l : loader) (tags : list (str * json)) : Prop :=
  (obj_get (lit "compiler") tags = None /\ use_get_tags (loader_compiler l) = true) \/
  exists o z, obj_get (lit "compiler") tags = Some (JObject o) /\
    obj_get (lit "use_get_tags") o = Some (JInteger z) /\ z <> 0%Z.

(** The names of the settings that a recipe can deliver *)
Definition delivered_settings : list string := ["target"; "targets"; "dependencies"; "dependencies_extra"]%string.
