(** Vocabulary for the name of the source directory in the integration test. *)

From Coq Require Import Ascii String Bool Arith.
From Coq Require Import List.
From Verif Require Import Str Path CmdModel MainModel JobModel IntegModel IntegSpec.
Import ListNotations.
Local Open Scope string_scope.
Local Open Scope list_scope.

(** The target directory of maike2 --source-dir=p, as computed by the program (maike.cpp:23-45) *)
Definition target_of (p : str) : path := job_target_dir [(option_name SourceDir, PathGiven (parse_path p))].

(** A program in t/core/bin, where t is a relative name, is there only if a build with this target
    directory has been run before, in a script that starts with an empty directory and does not
    use --target-dir. *)
Definition programs_are_built (run : list event -> list str -> str -> nat * str) : Prop :=
  forall h stdin t out, run h [t ++ lit "/core/bin/maike2"; lit "--version"] stdin = (0, out) ->
  (forall e x, In e h -> In x (ran e) -> ~ exists y, x = lit "--target-dir=" ++ y) ->
  exists e m p, In e h /\ ran e = [m ++ lit "/bin/maike2"; lit "--source-dir=" ++ p] /\ target_of p = parse_path t.

(** The last component of the name of a directory *)
Definition called (here : str) (n : str) : Prop := filename (parse_path here) = n.
