(** Vocabulary for tags and includes, from the source file to the dependency graph. *)

From Coq Require Import Ascii String Bool.
From Coq Require Import List.
From Verif Require Import Str Path JsonModel DbModel LoadModel LexModel LexSpec JLoadModel CfgModel.
From Verif Require JLoadSpec LoadSpec.
Import ListNotations.

(** White space in JSON *)
Definition json_white (c : ascii) : Prop := In c [" "; "009"; "010"; "013"]%char.

(** Among the characters up to the space, there is white space only. *)
Definition usual_blanks (text : str) : Prop := forall c, In c text -> is_space c = true -> json_white c.

(** The decoder does not care about white space in front of a value. *)
Definition skips_white {S V : Type} (d : decoder S V) : Prop :=
  forall c, json_white c -> feed d (initial d) (Some c) = Continue (initial d).

(** Lines, separated by newlines *)
Fixpoint join_lines (l : list str) : str :=
  match l with
  | [] => []
  | [x] => x
  | x :: l' => x ++ newline :: join_lines l'
  end.

(** The tags of a file: the text that consists of consecutive tag comments, where the
    marks have been blanked out. There is no tag comment in front of them. For rule
    files, the text is that of the file. *)
Inductive first_tags : loader_kind -> str -> str -> Prop :=
| tags_of_rules : forall k w text, k = KApp \/ k = KLib \/ k = KMaikerule -> Forall json_white w ->
    first_tags k (w ++ text) text
| tags_of_script : forall text before tagged after tags,
    lines text = before ++ tagged ++ after ->
    Forall (fun l => forall ws rest, blank ws -> l <> ws ++ lit "#@" ++ rest) before ->
    Forall2 (tag_line (lit "#@")) tagged tags -> tags <> [] ->
    first_tags KExtension text (join_lines tags)
| tags_of_source : forall ps l n tags after, cxx_source l -> tame_text l ->
    tag_comments (Some []) l = repeat None n ++ map Some tags ++ after -> tags <> [] ->
    first_tags (KCxx ps) (render l) (join_lines tags).

(** [o] declares a target with the name [n]. *)
Definition declares (o : compound) (n : str) : Prop :=
  exists m, obj_get (lit "name") m = Some (JString n) /\
    (obj_get (lit "target") o = Some (JObject m) \/
     exists l, obj_get (lit "targets") o = Some (JArray l) /\ In (JObject m) l).

(** The text of a path that consists of the names in [x] *)
Definition spelled (x : list str) : str := path_string (mk_path false x).

(** Where an include directive in a file in the directory [d] leads to, if it has the
    given operand. [generated] tells which names have been configured to be those of
    generated files. *)
Inductive leads_to (generated : str -> bool) (s t : path) (d : list str) : bool * str -> path -> origin -> Prop :=
| to_system : forall name, leads_to generated s t d (true, name) (parse_path name) System
| to_local : forall x, generated (spelled (dot :: x)) = false -> Forall LoadSpec.ordinary x -> x <> [] ->
    leads_to generated s t d (false, spelled (dot :: x)) (LoadSpec.inside s (d ++ x)) Project
| to_project : forall x, generated (spelled x) = false -> Forall LoadSpec.ordinary x -> x <> [] ->
    leads_to generated s t d (false, spelled x) (LoadSpec.inside s x) Project
| to_local_generated : forall x, generated (spelled (dot :: x)) = true -> Forall LoadSpec.ordinary x -> x <> [] ->
    leads_to generated s t d (false, spelled (dot :: x)) (LoadSpec.inside t (d ++ x)) Generated
| to_generated : forall x, generated (spelled x) = true -> Forall LoadSpec.ordinary x -> x <> [] ->
    leads_to generated s t d (false, spelled x) (LoadSpec.inside t x) Generated.
