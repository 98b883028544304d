(** Vocabulary for statements about runs of the program, and the files they leave. *)

From Coq Require Import List ZArith.
From Verif Require Import Str Path SMap DbModel DepGraphSpec FileListModel FileListSpec SchedModel SchedSpec.
From Verif Require Import TaskListModel TaskListSpec BuildModel BuildSpec CmdModel CmdSpec MainModel MainSpec.
Import ListNotations.

(** [unfolds events D D' dec]: while the events happened, the files changed from [D] to
    [D'], and the decisions in [dec] whether to run a recipe were made. Only recipes change
    files, in the way described in BuildSpec.v; reading a configuration, asking recipes
    for information, and printing do not. *)
Inductive unfolds : list event -> disk -> disk -> list (nat * option bool) -> Prop :=
| unfolds_end : forall D, unfolds [] D D []
| unfolds_other : forall e events D D' dec, ~ is_build e -> unfolds events D D' dec -> unfolds (e :: events) D D' dec
| unfolds_dry : forall g rs tasks force tr events D D' dec,
    unfolds events D D' dec -> unfolds (Processed g rs tasks true force tr :: events) D D' dec
| unfolds_build : forall g rs tasks force tr events D D1 D' dec1 dec2,
    building g force D tr D1 dec1 -> unfolds events D1 D' dec2 ->
    unfolds (Processed g rs tasks false force tr :: events) D D' (dec1 ++ dec2).

(** The source file [p] has to be built: it is needed for one of the targets that are given, if
    there are any. *)
Definition asked_for (accepts : cmd_option -> str -> bool) (argv : list str) (fs g : file_list) (td p : path) : Prop :=
  builds fs p /\
  forall names, has_value accepts argv Targets (PathsValue names) ->
    exists name, In name names /\ part_of_target fs g td name p.

(** ...or the last of them. *)
Definition asked_last (accepts : cmd_option -> str -> bool) (argv : list str) (fs g : file_list) (td p : path) : Prop :=
  builds fs p /\
  forall names, has_value accepts argv Targets (PathsValue names) ->
    exists before name, names = before ++ [name] /\ part_of_target fs g td name p.

(** Each target of the source file [p] exists, and is newer than [p] and everything in the
    project that [p] needs, directly or not. Directories are not compared. *)
Definition up_to_date_file (fs g : file_list) (D : disk) (p : path) : Prop :=
  forall info t, In (p, info) fs -> In t (targets info) ->
    directory D (ti_name t) \/
    (newer D (ti_name t) p /\
     forall q, file_needs g p q -> internal g q -> ~ directory D q -> newer D (ti_name t) q).

(** The recipe for [p] has been run. *)
Definition recipe_run (g : file_list) (dec : list (nat * option bool)) (p : path) : Prop :=
  exists v, numbered g v p /\ invoked dec v.

(** No recipe is to be run whether needed or not. *)
Definition only_when_needed (accepts : cmd_option -> str -> bool) (argv : list str) (fs : file_list) : Prop :=
  ~ given accepts argv ForceRebuild /\ forall p info, In (p, info) fs -> si_policy info <> Always.
