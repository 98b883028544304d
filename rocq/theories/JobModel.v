(** Model of the parameters of a job: what the values of the options become
    (core/bin/cmd_line_options.hpp), and what they are used for (core/bin/maike.cpp). *)

From Coq Require Import Ascii String NArith ZArith.
From Coq Require Import List.
From Verif Require Import Str Path ValueModel CmdModel RecipeModel MainModel.
Import ListNotations.

(** The value of an option, according to CmdLineOptionTraits::type *)
Inductive job_value :=
| PathGiven (p : path)
| PathsGiven (l : list path)
| NoValue                        (* std::false_type *)
| IdGiven (bytes : list N)
| TimeGiven (ns : Z)
| ThreadsGiven (m_val : Z)
| LevelGiven (x : log_level)
| FormatGiven (x : log_format)
| AnyValue.                      (* undefined behaviour *)

Definition to_value {V} (make : V -> job_value) (x : parsed V) : option job_value :=
  match x with
  | Accepted v => Some (make v)
  | Rejected => None
  | Undefined => Some AnyValue
  end.

(** fromString for the type of the option: build/id.hpp:54-57,
    utils/system_time_stamp.hpp:41-44, sched/thread_count.hpp:40-43,
    db/compilation_log.cpp:112-123, db/log_format.cpp:9-16, and
    cmd_line_parser/command_line.hpp:30-33 and 62-80. [None]: throws. *)
Definition job_convert (o : cmd_option) (s : str) : option job_value :=
  match o with
  | Targets | ConfigFiles => option_map PathsGiven (list_of_string (fun t => Some (parse_path t)) s)
  | ConfigDefault | DryRun | ForceRebuild => match s with [] => Some NoValue | _ => None end
  | BuildId => option_map IdGiven (id_of_string s)
  | StartTime => to_value TimeGiven (time_stamp_of_string s)
  | NumWorkers => to_value ThreadsGiven (thread_count_of_string s)
  | LogLevel => option_map LevelGiven (log_level_of_string s)
  | LogOutputFormat => option_map FormatGiven (log_format_of_string s)
  | _ => Some (PathGiven (parse_path s))
  end.

Definition job_item (o : cmd_option) : opt_item job_value :=
  mk_opt_item (option_name o) (option_value_required o) (job_convert o).

Definition job_table : list (opt_item job_value) := map job_item all_options.

(** The parameter of [main] (MainModel.v): which texts are accepted *)
Definition job_accepts (o : cmd_option) (s : str) : bool :=
  match job_convert o s with Some _ => true | None => false end.

(** What the program gets from elsewhere *)
Record surroundings := mk_surroundings {
  now : Z;                       (* system_clock::now(), in nanoseconds *)
  random_id : list N;            (* Id(), build/id.cpp:8-14 *)
  host_name : str;               (* uname *)
  nprocs : Z;                    (* get_nprocs *)
  stderr_is_tty : bool           (* isatty(STDERR_FILENO) *)
}.

Record job := mk_job {
  job_info : build_info;
  job_workers : Z;
  job_level : log_level;
  job_format : log_format
}.

Section Job.
Variable around : surroundings.
Variable a : list (str * job_value).

Definition job_option (o : cmd_option) : option job_value := setting a (option_name o).

(** makeBuildInfo, maike.cpp:23-45, Build::Info(), build/info.cpp:9-14 *)
Definition job_start_time : option Z :=
  match job_option StartTime with
  | Some (TimeGiven ns) => Some (to_time_t ns)
  | Some _ => None
  | None => Some (to_time_t (now around))
  end.

Definition job_id : str :=
  match job_option BuildId with
  | Some (IdGiven b) => id_to_string b
  | _ => id_to_string (random_id around)
  end.

Definition job_source_dir : path :=
  match job_option SourceDir with
  | Some (PathGiven p) => p
  | _ => mk_path false [dot]
  end.

Definition job_target_dir : path :=
  match job_option TargetDir with
  | Some (PathGiven p) => p
  | _ =>
      if str_eqb (filename job_source_dir) dot then mk_path false [lit "__targets"]
      else parse_path (filename job_source_dir ++ lit "_targets")
  end.

(** ThreadPool(cmdline.option<NumWorkers>()), maike.cpp:328, sched/thread_pool.cpp:8-11;
    the value of an option that is not given is ThreadCount(), sched/thread_count.hpp:17-19 *)
Definition job_threads : option Z :=
  match job_option NumWorkers with
  | Some (ThreadsGiven n) => Some (thread_count_value (nprocs around) n)
  | Some _ => None
  | None => Some (thread_count_value (nprocs around) (-1))
  end.

(** getOutputFormat, maike.cpp:47-54 *)
Definition output_format : log_format :=
  match job_option LogOutputFormat with
  | Some (FormatGiven x) => x
  | _ => if stderr_is_tty around then AnsiTerm else PlainText
  end.

(** getLogLevel, maike.cpp:56-61 *)
Definition chosen_level : log_level :=
  match job_option LogLevel with
  | Some (LevelGiven x) => x
  | _ => LevelSourceFileInfo
  end.

(** [None]: undefined behaviour *)
Definition set_up : option job :=
  match job_start_time, job_threads with
  | Some t, Some n =>
      Some (mk_job (mk_build_info t job_id job_source_dir job_target_dir (host_name around)) n chosen_level output_format)
  | _, _ => None
  end.
End Job.

Inductive job_result :=
| JobRejected                    (* an exception is thrown when the command line is read *)
| JobUndefined
| JobReady (j : job).

(** main, maike.cpp:287-328 and 380 *)
Definition make_job (around : surroundings) (argv : list str) : job_result :=
  match command_line job_table argv with
  | None => JobRejected
  | Some a => match set_up around a with None => JobUndefined | Some j => JobReady j end
  end.
