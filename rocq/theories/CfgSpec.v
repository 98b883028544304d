(** Vocabulary for configurations. *)

From Coq Require Import Ascii String ZArith Bool.
From Coq Require Import List Sorted.
From Verif Require Import Str Path JsonModel JsonSpec DbModel LoadSpec RecipeSpec CfgModel.
Import ListNotations.

(** ** JSON *)

(** Two JSON values are the same, except for the order of the members of objects. *)
Inductive same_json : json -> json -> Prop :=
| same_members : forall a b,
    (forall k, has_member a k <-> has_member b k) ->
    (forall k v w, member a k v -> member b k w -> same_json v w) ->
    same_json (JObject a) (JObject b)
| same_items : forall a b, Forall2 same_json a b -> same_json (JArray a) (JArray b)
| same_value : forall j, ~ is_container j -> same_json j j.

(** A value that has been read from a file: everything is text, and no object has two
    members with the same name. *)
Inductive valid_json : json -> Prop :=
| valid_object : forall o, NoDup (map fst o) ->
    (forall k v, member o k v -> is_text k /\ valid_json v) -> valid_json (JObject o)
| valid_array : forall l, (forall v, In v l -> valid_json v) -> valid_json (JArray l)
| valid_string : forall s, is_text s -> valid_json (JString s)
| valid_other : forall j, ~ is_container j -> (forall s, j <> JString s) -> valid_json j.

(** ** Configurations *)

(** Keys of a std::map *)
Definition increasing {V} (m : list (str * V)) : Prop :=
  StronglySorted (fun a b => str_compare (fst a) (fst b) = Lt) m.

Section Regex.
  Variable regex_ok : str -> bool.

  Definition proper_patterns (l : list str) : Prop := Forall (fun s => regex_ok s = true /\ is_text s) l.

  (** A compiler before its recipe has been located *)
  Definition proper_compiler (c : compiler) : Prop :=
    comp_origin c = None /\ (exists s, recipe c = parse_path s) /\ is_text (path_string (recipe c)) /\
    well_formed (JObject (comp_config c)).

  Definition proper_kind (k : loader_kind) : Prop :=
    match k with
    | KCxx ps => proper_patterns ps
    | KGeneric ext _ => is_text ext
    | _ => True
    end.

  Definition proper_config (c : config) : Prop :=
    proper_patterns (input_filter (tree_loader c)) /\
    proper_patterns (dir_filter (tree_loader c)) /\
    increasing (file_info_loaders (tree_loader c)) /\
    Forall (fun e => is_text (fst e) /\ is_text (snd e)) (file_info_loaders (tree_loader c)) /\
    increasing (info_loaders c) /\
    Forall (fun e => is_text (fst e) /\ proper_kind (fst (snd e)) /\ proper_compiler (snd (snd e))) (info_loaders c) /\
    proper_compiler (dir_compiler c).

  (** The regular expressions in the default configuration are accepted. *)
  Definition accepts_defaults : Prop :=
    Forall (fun s => regex_ok (lit s) = true) ["^\."; "^__"; ".*\.gen\.hpp$"]%string.
End Regex.

Definition same_compiler (a b : compiler) : Prop :=
  recipe a = recipe b /\ comp_origin a = comp_origin b /\ use_get_tags a = use_get_tags b /\
  same_json (JObject (comp_config a)) (JObject (comp_config b)).

(** The same settings *)
Definition same_config (a b : config) : Prop :=
  tree_loader a = tree_loader b /\
  Forall2 (fun x y => fst x = fst y /\ fst (snd x) = fst (snd y) /\ same_compiler (snd (snd x)) (snd (snd y)))
          (info_loaders a) (info_loaders b) /\
  same_compiler (dir_compiler a) (dir_compiler b).

(** Each of the files could be read, and merged with those before it (C31), which gives
    [m] in the end. *)
Inductive combined : list (option compound) -> compound -> Prop :=
| combined_nothing : combined [] []
| combined_file : forall fs a b c, combined fs a -> compound_or a b = Some c -> combined (fs ++ [Some b]) c.

(** [l] is the loader that has been configured for the extension [e]. *)
Definition loader_for (c : config) (e : str) (l : loader_kind * compiler) : Prop :=
  exists name, In (e, name) (file_info_loaders (tree_loader c)) /\ In (name, l) (info_loaders c).

(** An extension has been configured, but not its loader. *)
Definition loader_missing (c : config) : Prop :=
  exists e name, In (e, name) (file_info_loaders (tree_loader c)) /\ ~ In name (map fst (info_loaders c)).

(** [y] is the compiler [x], after its recipe has been looked up: the recipe is the one that
    was found, and its settings are those it asks for when it is run with configure, unless
    there is no recipe. *)
Definition looked_up (resolve : path -> option (path * origin)) (configure : path -> compound -> option compound)
  (x y : compiler) : Prop :=
  exists p o, resolve (recipe x) = Some (p, o) /\ recipe y = p /\ comp_origin y = Some o /\
    use_get_tags y = use_get_tags x /\
    ((p = empty_path /\ comp_config y = comp_config x) \/ (p <> empty_path /\ configure p (comp_config x) = Some (comp_config y))).

(** [x] is the compiler described by the object [o]. *)
Definition described_by (o : compound) (x : compiler) : Prop :=
  match obj_get (lit "recipe") o with
  | Some (JString r) => recipe x = parse_path r
  | Some _ => False
  | None => recipe x = empty_path
  end /\
  match obj_get (lit "use_get_tags") o with
  | Some (JInteger z) => use_get_tags x = true <-> z <> 0%Z
  | Some _ => False
  | None => use_get_tags x = false
  end /\
  obj_get (lit "config") o = Some (JObject (comp_config x)).
