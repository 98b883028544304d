(** Vocabulary for statements about loading source files. *)

From Coq Require Import Ascii String Bool Arith.
From Coq Require Import List.
From Verif Require Import Str Path JsonModel DbModel LoadModel.
Import ListNotations.

(** * Extensions *)

(** [e] is an extension of the file name [name]: it starts with a dot, and there is
    something in front of it. The names dot and dot-dot have no extension, and if the
    name starts with three dots, the first extension starts at the third. *)
Definition extension_of (name e : str) : Prop :=
  exists stem rest, name = stem ++ e /\ e = "."%char :: rest /\ stem <> [] /\ name <> lit ".." /\
    ~ (stem = lit "." /\ exists r, rest = "."%char :: r).

(** * Recipes *)

(** What the recipe [cmd] refers to *)
Inductive refers_to (regular : path -> bool) (project_dir system_dir : path) : path -> path * origin -> Prop :=
| refers_none : refers_to regular project_dir system_dir empty_path (empty_path, Project)
| refers_project : forall cmd, cmd <> empty_path -> regular (append project_dir cmd) = true ->
    refers_to regular project_dir system_dir cmd (lexically_normal (append project_dir cmd), Project)
| refers_system : forall cmd, cmd <> empty_path -> regular (append project_dir cmd) = false ->
    regular (append system_dir cmd) = true ->
    refers_to regular project_dir system_dir cmd (lexically_normal (append system_dir cmd), System).

(** * Locations *)

(** An ordinary name of a file or directory *)
Definition ordinary (c : str) : Prop := c <> [] /\ c <> dot /\ c <> dotdot /\ ~ In "/"%char c.

(** The names that make up a normalised path: steps upwards (only if the path is
    relative) come first. *)
Definition normalised (abs : bool) (l : list str) : Prop :=
  exists n m, l = repeat dotdot n ++ m /\ Forall ordinary m /\ (abs = true -> n = 0).

(** A directory given by a normalised path: ".", or a sequence of names *)
Definition directory_ok (s : path) : Prop :=
  s = mk_path false [dot] \/ (normalised (absolute s) (comps s) /\ (absolute s = true \/ comps s <> [])).

(** [inside s l]: the location reached by following the names in [l] from the
    directory [s], as a normalised path *)
Definition inside (s : path) (l : list str) : path :=
  if path_eqb s (mk_path false [dot]) then mk_path false (if is_nil l then [dot] else l)
  else mk_path (absolute s) (comps s ++ l).

(** * Histories *)

(** [first_success cmd h]: the answer of the first query in [h] about [cmd] that
    succeeded. [h] lists queries together with answers, oldest first. *)
Fixpoint first_success (cmd : path) (h : list (query * option (path * origin))) : option (path * origin) :=
  match h with
  | [] => None
  | (q, a) :: h' =>
      match a with
      | Some r => if path_eqb (snd q) cmd then Some r else first_success cmd h'
      | None => first_success cmd h'
      end
  end.

(** The recipe does not refer to anything. *)
Definition refers_to_nothing (regular : path -> bool) (project_dir system_dir cmd : path) : Prop :=
  forall r, ~ refers_to regular project_dir system_dir cmd r.
