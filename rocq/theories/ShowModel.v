(** Model of what the program writes about itself and about a project: core/bin/maike.cpp
    (printTargets, printDepGraph, the beginning of a job, and the options it has been
    given). *)

From Coq Require Import Ascii String ZArith.
From Coq Require Import List.
From Verif Require Import Str Path ValueModel CmdModel RecipeModel MainModel JobModel.
Import ListNotations.

Definition line_end : str := ["010"%char].

Definition double_quote : str := ["034"%char].

(** * Standard output *)

(** printTargets, maike.cpp:63-70. The names are those in MainModel.v. *)
Definition targets_text (names : list path) : str :=
  flat_map (fun p => path_string p ++ line_end) names.

(** printDepGraph, maike.cpp:89-93. The edges are those in MainModel.v; puts writes a
    line break at the end. *)
Definition graph_text (edges : list (path * path)) : str :=
  lit "digraph " ++ double_quote ++ lit "G" ++ double_quote ++ lit " {" ++ line_end
  ++ lit "rankdir=LR" ++ line_end ++ line_end
  ++ flat_map (fun e => double_quote ++ path_string (fst e) ++ double_quote ++ lit " -> "
                        ++ double_quote ++ path_string (snd e) ++ double_quote ++ line_end) edges
  ++ lit "}" ++ line_end.

(** The beginning of a job, maike.cpp:339-353. The time is formatted by [format], which
    uses whole seconds only. A path is printed in the way it is stored; here, without
    redundant slashes. *)
Definition banner (j : job) : str :=
  lit "# Build job with " ++ decimal (job_workers j) ++ lit " workers started" ++ line_end
  ++ lit "#" ++ line_end
  ++ lit "# Start time: " ++ format_time (start_time (job_info j) * 1000000000) ++ line_end
  ++ lit "#         Id: " ++ RecipeModel.build_id (job_info j) ++ line_end
  ++ lit "# Source dir: " ++ path_string (bi_source_dir (job_info j)) ++ line_end
  ++ lit "# Target dir: " ++ path_string (bi_target_dir (job_info j)) ++ line_end
  ++ lit "#" ++ line_end.

(** What has been written to standard output when the program ends after having shown
    something about the project, maike.cpp:339-381. [None]: not part of this model. *)
Definition standard_output (j : job) (what : output) : option str :=
  match what with
  | TargetNames names => Some (banner j ++ targets_text names)
  | GraphEdges edges => Some (banner j ++ graph_text edges)
  | _ => None
  end.

Definition shows (e : event) : bool := match e with Shown _ _ => true | _ => false end.

(** main, maike.cpp:288-371 *)
Definition shown_output (env : environment) (around : surroundings) (argv : list str) : option str :=
  match make_job around argv, find shows (fst (main env job_accepts argv)) with
  | JobReady j, Some (Shown None what) => standard_output j what
  | _, _ => None
  end.

(** * The options that have been given, on standard error *)

(** print, maike.cpp:185-238, without the name. [None]: undefined behaviour. For lists,
    the name is a null pointer, which is passed to fprintf for "%s". *)
Definition value_text (v : job_value) : option str :=
  match v with
  | PathGiven p => Some (path_string p)
  | PathsGiven [] => Some []
  | PathsGiven _ => None
  | NoValue => Some []
  | IdGiven b => Some (id_to_string b)
  | TimeGiven ns => Some (format_time ns)
  | ThreadsGiven n => Some (thread_count_to_string n)
  | LevelGiven x => Some (log_level_to_string x)
  | FormatGiven x => Some (log_format_to_string x)
  | AnyValue => None
  end.

(** The function passed to forEachOption, maike.cpp:307-310 *)
Definition report_option (a : list (str * job_value)) (o : cmd_option) : option str :=
  match job_option a o with
  | None => Some []
  | Some v => option_map (fun s => option_name o ++ lit ": " ++ s ++ line_end) (value_text v)
  end.

(** forEachOption, cmd_line_parser/command_line.hpp:448-457, and detail::Call,
    enum_tuple.hpp:56-80: starts with the last option *)
Fixpoint report_options (a : list (str * job_value)) (os : list cmd_option) : option str :=
  match os with
  | [] => Some []
  | o :: os' =>
      match report_option a o, report_options a os' with
      | Some s, Some r => Some (s ++ r)
      | _, _ => None
      end
  end.

Inductive report_result :=
| NothingReported                (* an exception is thrown when the command line is read *)
| ReportUndefined
| Reported (text : str).

Definition is_given (a : list (str * job_value)) (o : cmd_option) : bool :=
  match job_option a o with Some _ => true | None => false end.

(** main, maike.cpp:288-310 *)
Definition report (argv : list str) : report_result :=
  match command_line job_table argv with
  | None => NothingReported
  | Some a =>
      if is_given a Help || is_given a Version || is_given a About then Reported []
      else match report_options a (rev all_options) with
           | Some text => Reported text
           | None => ReportUndefined
           end
  end%bool.
