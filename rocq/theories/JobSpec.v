(** Vocabulary for statements about the parameters of a job. *)

From Coq Require Import Ascii String NArith ZArith.
From Coq Require Import List.
From Verif Require Import Str CmdSpec ValueModel ValueSpec MainModel JobModel.
Import ListNotations.

(** The arguments consist of names of options, written in full, and texts. *)
Definition written (argv : list str) (l : list (cmd_option * str)) : Prop :=
  Forall2 (fun arg x => gives arg (option_name (fst x)) (snd x)) argv l.

(** The option is given, and this is the last text for it. *)
Definition last_text (l : list (cmd_option * str)) (o : cmd_option) (text : str) : Prop :=
  exists l1 l2, l = l1 ++ (o, text) :: l2 /\ Forall (fun x => fst x <> o) l2.

Definition not_given (l : list (cmd_option * str)) (o : cmd_option) : Prop := Forall (fun x => fst x <> o) l.

(** Arguments of a program have no NUL character. *)
Definition c_string (s : str) : Prop := ~ In "000"%char s.

(** The text begins with an integer. *)
Definition starts_with_integer (s : str) (z : Z) : Prop :=
  exists ws t rest, s = ws ++ t ++ rest /\ Forall white ws /\ with_sign (numeral 10) t z /\
    match rest with c :: _ => forall d, digit c d -> 10 <= d | [] => True end.

(** The text is an integer in the syntax of C. *)
Definition is_integer (s : str) (z : Z) : Prop :=
  exists ws t, s = ws ++ t /\ Forall white ws /\ with_sign c_constant t z.

Definition level_names : list (str * log_level) :=
  [(lit "errors", LevelErrors); (lit "source_file_info", LevelSourceFileInfo); (lit "compilation_command", LevelCompilationCommand)].

Definition format_names : list (str * log_format) := [(lit "plain_text", PlainText); (lit "ansi_term", AnsiTerm)].

(** The texts that are not rejected. An integer that does not fit into the type it is
    converted to is not rejected either: its meaning is undefined. *)
Definition acceptable (o : cmd_option) (text : str) : Prop :=
  match o with
  | Targets | ConfigFiles | SourceDir | TargetDir => text <> []
  | ConfigDefault | DryRun | ForceRebuild => text = []
  | BuildId => text <> [] /\ forall c, In c (firstn 64 text) -> hexadecimal c
  | StartTime => exists z, is_integer text z /\ (- 2 ^ 63 <= z < 2 ^ 63)%Z
  | NumWorkers => text = lit "auto" \/ exists z, starts_with_integer text z /\ ((1 <= z)%Z \/ (z < - 2 ^ 31)%Z)
  | LogLevel => In text (map fst level_names)
  | LogOutputFormat => In text (map fst format_names)
  | _ => True
  end.

(** The id as text, with small letters. *)
Definition prints (b : list N) (s : str) : Prop := spells s b /\ Forall (fun c => In c (lit "0123456789abcdef")) s.

(** The time fits into its type, and an id that is made up consists of 32 bytes. *)
Definition proper_around (around : surroundings) : Prop :=
  (- 2 ^ 63 <= now around < 2 ^ 63)%Z /\ ValueSpec.build_id (random_id around).
