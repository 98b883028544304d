(** Vocabulary for C101: what tags say. *)

From Coq Require Import Ascii String ZArith.
From Coq Require Import List.
From Verif Require Import Str Path JsonModel DbModel TagSpec LoadSpec StepSpec.
Import ListNotations.

(** The words for where a file comes from *)
Definition origin_words : list (string * origin) :=
  [("project", Project); ("generated", Generated); ("system", System); ("pkg-config", PkgConfig)]%string.

(** [names s t d o n q]: in a file in the directory [d] of the source directory [s], the name
    [n] of a file that comes from [o] refers to [q]. Names that start with a dot are relative
    to the directory of the file, and others to the source directory. Generated files are at the
    same place in the target directory [t]. Nothing is said about names that lead out of the
    source directory. *)
Inductive names (s t : path) (d : list str) : origin -> path -> path -> Prop :=
| names_local : forall x r, reference x -> follow d x r -> names s t d Project (mk_path false (dot :: x)) (inside s r)
| names_global : forall x r, reference x -> hd [] x <> dot -> follow [] x r -> names s t d Project (mk_path false x) (inside s r)
| names_local_generated : forall x r, reference x -> follow d x r -> names s t d Generated (mk_path false (dot :: x)) (inside t r)
| names_global_generated : forall x r, reference x -> hd [] x <> dot -> follow [] x r ->
    names s t d Generated (mk_path false x) (inside t r)
| names_system : forall n, names s t d System n n
| names_library : forall n, names s t d PkgConfig n n.

(** The elements of the array with the given name *)
Definition elements (name : string) (o : list (str * json)) : list json :=
  match obj_get (lit name) o with Some (JArray l) => l | _ => [] end.

(** The member with the given name, if there is one *)
Definition optional (name : string) (o : list (str * json)) : list json :=
  match obj_get (lit name) o with Some j => [j] | None => [] end.

(** [says_dependency s t d default j x]: the JSON value [j] in tags says that there is the dependency
    [x]. If it does not say where the file comes from, it comes from [default]. *)
Definition says_dependency (s t : path) (d : list str) (default : origin) (j : json) (x : dependency) : Prop :=
  exists o n, j = JObject o /\ obj_get (lit "ref") o = Some (JString n) /\
    ((obj_get (lit "origin") o = None /\ dep_origin x = default) \/
     exists w, obj_get (lit "origin") o = Some (JString (lit w)) /\ In (w, dep_origin x) origin_words) /\
    (forall q, names s t d (dep_origin x) (parse_path n) q -> dep_name x = q) /\
    (forall k v, In (mk_property k v) (dep_props x) <-> k <> lit "ref" /\ k <> lit "origin" /\ In (k, JString v) o).

(** The JSON value [j] is the name of a library known to pkg-config. *)
Definition says_library (j : json) (x : dependency) : Prop :=
  exists n, j = JString n /\ dep_name x = parse_path n /\ dep_origin x = PkgConfig /\ dep_props x = [].

(** The JSON value [j] says that [ti] is a target of a file in the directory [d]. *)
Definition says_target (s t : path) (d : list str) (j : json) (ti : target_info) : Prop :=
  exists o n deps libs, j = JObject o /\ obj_get (lit "name") o = Some (JString n) /\
    (forall x r, parse_path n = mk_path false x -> reference x -> follow d x r -> ti_name ti = inside t r) /\
    ti_use_deps ti = deps ++ libs /\
    Forall2 (says_dependency s t d System) (elements "dependencies" o) deps /\
    Forall2 says_library (elements "pkgconfig_libs" o) libs.

(** Tags for a file in the directory [d] say what its targets are, what it needs, and what is needed
    by what uses its targets. *)
Definition says_file (s t : path) (d : list str) (tags : list (str * json))
    (ts : list target_info) (use extra : list dependency) : Prop :=
  Forall2 (says_target s t d) (optional "target" tags ++ elements "targets" tags) ts /\
  Forall2 (says_dependency s t d Generated) (elements "dependencies" tags) use /\
  Forall2 (says_dependency s t d Generated) (elements "dependencies_extra" tags) extra.

(** The source code of a file in the directory [d] refers to [y], as [x]. *)
Definition refers (s t : path) (d : list str) (x y : dependency) : Prop :=
  dep_origin y = dep_origin x /\ dep_props y = dep_props x /\
  forall q, names s t d (dep_origin x) (dep_name x) q -> dep_name y = q.

(** The rebuild policy according to tags *)
Definition says_policy (tags : list (str * json)) (p : rebuild_policy) : Prop :=
  (obj_get (lit "rebuild") tags = Some (JString (lit "always")) /\ p = Always) \/
  (obj_get (lit "rebuild") tags = Some (JString (lit "only_if_out_of_date")) /\ p = OnlyIfOutOfDate) \/
  (obj_get (lit "rebuild") tags = None /\ p = OnlyIfOutOfDate).
