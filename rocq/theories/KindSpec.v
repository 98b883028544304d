(** Vocabulary for statements about the loaders of a configuration. *)

From Coq Require Import Ascii String.
From Coq Require Import List.
From Verif Require Import Str Path JsonModel DbModel ValueModel LoadModel LoadSpec CfgModel CfgSpec.
Import ListNotations.

(** JSON that is written without white space, and with sorted keys, can be read. *)
Definition reads_back (parse : str -> option compound) (print : compound -> str) : Prop :=
  forall o, valid_json (JObject o) -> option_map JObject (parse (print o)) = Some (sort_keys (JObject o)).

(** Files with the name [f] are handled by the loader [l]: it has been configured for
    the longest of the extensions that the name has. *)
Definition handled_by (c : config) (f : str) (l : loader_kind * compiler) : Prop :=
  exists e, extension_of f e /\ loader_for c e l /\
    forall e' l', extension_of f e' -> loader_for c e' l' -> length e' <= length e.

(** The file name [f] consists of [stem], and an extension. *)
Definition has_stem (f stem : str) : Prop :=
  exists e, f = stem ++ "."%char :: e /\ stem <> [] /\ ~ In "."%char e.

(** The extension [ext], with a dot in front of it *)
Inductive dotted (ext : str) : str -> Prop :=
| dotted_empty : ext = [] -> dotted ext []
| dotted_already : forall e, ext = "."%char :: e -> dotted ext ext
| dotted_added : forall c e, ext = c :: e -> c <> "."%char -> dotted ext ("."%char :: ext).

(** The name of the file made from [f], when the extension [ext] has been configured *)
Inductive result_name (f ext : str) : ext_mode -> str -> Prop :=
| result_appended : result_name f ext Append (f ++ ext)
| result_replaced : forall stem e, has_stem f stem -> dotted ext e -> result_name f ext Replace (stem ++ e)
| result_no_extension : forall e, (forall stem, ~ has_stem f stem) -> dotted ext e -> result_name f ext Replace (f ++ e).
