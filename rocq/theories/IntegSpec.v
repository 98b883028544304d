(** Vocabulary for the integration tests. *)

From Coq Require Import Ascii String Bool Arith.
From Coq Require Import List.
From Verif Require Import Str IntegModel.
Import ListNotations.
Local Open Scope string_scope.
Local Open Scope list_scope.

(** All commands whose status is looked at have succeeded. *)
Definition passed (sh : shell) : Prop := forall e, In e (events sh) -> looked_at e = true -> result e = 0.

(** These commands have been run, in this order. *)
Definition did (sh : shell) (l : list (list str)) : Prop := map ran (events sh) = l.

(** Words given by their text *)
Definition w (l : list string) : list str := map lit l.

(** A name that is not taken apart by the shell *)
Definition one_word (s : str) : Prop := s <> [] /\ forall c, In c s -> c <> " "%char /\ c <> "009"%char /\ c <> "010"%char.

(** A text as an id: not empty, without colons and white space *)
Definition id_text (s : str) : Prop := s <> [] /\ forall c, In c s -> c <> ":"%char /\ c <> "010"%char /\ space c = false.

(** The tools in pipelines do what they are made for. *)
Definition tools_work (run : list event -> list str -> str -> nat * str) : Prop :=
  forall h ws stdin r, tool ws stdin = Some r -> run h ws stdin = r.

(** A text consists of lines, among them exactly one which satisfies [f], and it is [l]. *)
Definition only_line (text : str) (f : str -> Prop) (l : str) : Prop :=
  exists before after, text = unlines (before ++ l :: after) /\ f l /\
    (forall x, In x (before ++ after) -> ~ f x) /\
    forall x, In x (before ++ l :: after) -> ~ In "010"%char x.

(** Lines as looked for in the log and in the output of --version *)
Definition has (p s : str) : Prop := exists a b, s = a ++ p ++ b.
Definition id_line (s : str) : Prop := exists a c b, s = a ++ "#"%char :: c :: b /\ space c = true /\ has (lit "Id:") b.

(** The id told by a log, and by --version *)
Definition log_tells (text id : str) : Prop := id_text id /\ only_line text id_line (lit "#         Id: " ++ id).
Definition version_tells (text id : str) : Prop :=
  id_text id /\ only_line text (has (lit "Build id")) (lit "Build id: " ++ id).

(** Scripts that consist of commands only, one after the other, and scripts that do not go on after
    a failure *)
Fixpoint straight (s : script) : Prop :=
  match s with
  | End => True
  | Cmd _ k | Let _ _ k | LetIgnored _ _ k | Is _ _ k | Trap _ k => straight k
  | Or _ _ | IfEqual _ _ _ _ _ | Exit _ _ | ExitStatus => False
  end.

Fixpoint strict (s : script) : Prop :=
  match s with
  | End | Exit _ _ => True
  | Cmd _ k | Let _ _ k | LetIgnored _ _ k | Is _ _ k | Trap _ k => strict k
  | IfEqual _ _ yes no k => strict yes /\ strict no /\ strict k
  | Or _ _ | ExitStatus => False
  end.

(** The parts of the integration test *)
Definition parts : list (list str) :=
  [w ["bootsrap_from_version=2.0.0-beta-11"; "integration_test/bootstrap_from_release.sh"];
   w ["target_dir=__targets"; "integration_test/build_new_version.sh"];
   w ["integration_test/can_generate_working_bootstrap_script.sh"; "__targets/core/bin/maike2"];
   w ["integration_test/install_and_rebuild.sh"];
   w ["integration_test/install_and_rebuild_out_of_tree.sh"];
   w ["integration_test/install_and_rebuild_out_of_tree_rel_path.sh"];
   w ["integration_test/install_and_rebuild_out_of_tree_from_subpath.sh"];
   w ["integration_test/check_release_tarball.sh"]].
