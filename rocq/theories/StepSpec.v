(** Vocabulary for C44 and C95: names with steps upwards. *)

From Coq Require Import Ascii String.
From Coq Require Import List.
From Verif Require Import Str Path JsonModel LoadSpec.
Import ListNotations.

(** A name in a reference: the name of a file or directory, or a dot, or two dots. *)
Definition step_name (c : str) : Prop := ordinary c \/ c = dot \/ c = dotdot.

(** A reference to a file: the last name is not a dot or two dots. *)
Definition reference (x : list str) : Prop :=
  Forall step_name x /\ exists y c, x = y ++ [c] /\ ordinary c.

(** [follow d x r]: starting in the directory [d] and following the names in [x], [r]
    is reached, without ever leaving the directory that [d] is relative to. *)
Inductive follow : list str -> list str -> list str -> Prop :=
| follow_end : forall d, follow d [] d
| follow_stay : forall d x r, follow d x r -> follow d (dot :: x) r
| follow_up : forall d c x r, follow d x r -> follow (d ++ [c]) (dotdot :: x) r
| follow_down : forall d c x r, ordinary c -> follow (d ++ [c]) x r -> follow d (c :: x) r.

(** [n] is the name of a target in the given tags. *)
Definition declares (tags : list (str * json)) (n : str) : Prop :=
  exists o, obj_get (lit "name") o = Some (JString n) /\
    (obj_get (lit "target") tags = Some (JObject o) \/
     exists l, obj_get (lit "targets") tags = Some (JArray l) /\ In (JObject o) l).
