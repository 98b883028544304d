(** Vocabulary for statements about linking. *)

From Coq Require Import Ascii String.
From Coq Require Import List.
From Verif Require Import Str Path SMap DbModel JsonModel DepGraphSpec FileListModel FileListSpec.
Import ListNotations.

(** The target [name] uses [q], because that has been declared together with the target, or
    because of a file that is included, directly or not, by the source file of the target.
    A header that says that whoever includes it uses foo.o has no effect on foo.o itself. *)
Inductive target_uses (fs : file_list) (name : path) : path -> Prop :=
| uses_declared : forall t d, generated fs name t -> In d (ti_use_deps (t_info t)) -> target_uses fs name (dep_name d)
| uses_included : forall t d, generated fs name t -> contributed fs name (t_source t) d -> target_uses fs name (dep_name d).

(** What a program has to be linked with: whatever it uses, and whatever that uses. *)
Inductive link_needs (fs : file_list) (name : path) : path -> Prop :=
| links_used : forall q, target_uses fs name q -> link_needs fs name q
| links_further : forall q r, target_uses fs name q -> link_needs fs q r -> link_needs fs name r.

(** The settings of a compiler ask for linking. *)
Definition asks_for_linking (cfg : compound) : Prop :=
  exists l, obj_get (lit "actions") cfg = Some (JArray l) /\ In (JString (lit "link")) l.
