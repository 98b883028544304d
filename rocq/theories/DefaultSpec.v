(** Vocabulary for the default configuration. *)

From Coq Require Import Ascii String.
From Coq Require Import List.
From Verif Require Import Str Path JsonModel ValueModel DbModel CfgModel.
Import ListNotations.

(** The meaning of the regular expression [r]: texts that begin with [prefix] *)
Definition means_prefix (search : str -> str -> bool) (r prefix : str) : Prop :=
  forall s, search r s = true <-> exists rest, s = prefix ++ rest.

(** What is assumed about the library: the regular expressions of the default configuration
    are understood. *)
Definition understands_defaults (search : str -> str -> bool) : Prop :=
  means_prefix search (lit "^\.") (lit ".") /\ means_prefix search (lit "^__") (lit "__").

Definition hidden (name : str) : Prop := (exists rest, name = lit "." ++ rest) \/ (exists rest, name = lit "__" ++ rest).

(** What is done with a file, by extension: how its content is read, the recipe (none: the
    file itself is run), and the settings that are given to the recipe *)
Definition default_recipes : list (string * (loader_kind * string * list (string * list string))) :=
  let cxx := KCxx [lit ".*\.gen\.hpp$"] in
  [(".hpp", (cxx, "cxx_compiler.py", [("iquote", ["."]); ("cflags", ["-g"; "-Wall"])]));
   (".cpp", (cxx, "cxx_compiler.py", [("iquote", ["."]); ("cflags", ["-g"; "-Wall"])]));
   (".test.cpp", (cxx, "cxx_compiler.py", [("iquote", ["."]); ("cflags", ["-g"; "-Wall"]); ("actions", ["link"; "run"])]));
   (".app.maikerule", (KApp, "cxx_linker.py", [("cflags", ["-g"])]));
   (".lib.maikerule", (KLib, "make_lib.py", []));
   (".py", (KExtension, "", []));
   (".sass", (KGeneric (lit ".css") Replace, "sass2css.py", []))]%string.

Definition uses (l : loader_kind * compiler) (what : loader_kind * string * list (string * list string)) : Prop :=
  let '(kind, script, settings) := what in
  fst l = kind /\ recipe (snd l) = parse_path (lit script) /\
  comp_config (snd l) = map (fun e => (lit (fst e), JArray (map (fun s => JString (lit s)) (snd e)))) settings.
