(** Model of core/exec/command.cpp and core/db/compilation_log.cpp. *)

From Coq Require Import Ascii String ZArith Bool.
From Coq Require Import List.
From Verif Require Import Str ValueModel BuildModel.
Import ListNotations.

(** Command, core/exec/command.hpp:15-19. The executable is what
    [executable.string()] returns. *)
Record command := mk_command {
  executable : str;
  cmd_args : list str
}.

Definition backslash : ascii := "\"%char.
Definition quote : ascii := "'"%char.
Definition newline : ascii := "010"%char.
Definition nul : ascii := "000"%char.

(** The loop of shell_escape, command.cpp:14-17 *)
Fixpoint escape_chars (s : str) : str :=
  match s with
  | [] => []
  | c :: s' => (if Ascii.eqb c backslash || Ascii.eqb c quote then [backslash; c] else [c]) ++ escape_chars s'
  end.

(** shell_escape, command.cpp:11-21 *)
Definition shell_escape (s : str) : str := [quote] ++ escape_chars s ++ [quote].

(** toString, command.cpp:24-33 *)
Definition command_to_string (cmd : command) : str :=
  fold_left (fun cmdline item => (cmdline ++ lit " ") ++ shell_escape item) (cmd_args cmd)
            (shell_escape (executable cmd)).

(** The loop of append_log, compilation_log.cpp:31-40; [nl] is the variable
    newline. *)
Fixpoint append_loop (output data : str) (nl : bool) : str :=
  match data with
  | [] => output
  | c :: data' =>
      append_loop ((if nl then output ++ lit " ... " else output) ++ [c]) data' (Ascii.eqb c newline)
  end.

(** append_log, compilation_log.cpp:29-41 *)
Definition append_log (output data : str) : str := append_loop output data true.

(** fputs(s.c_str()): what is before the first NUL *)
Fixpoint c_str (s : str) : str :=
  match s with
  | [] => []
  | c :: s' => if Ascii.eqb c nul then [] else c :: c_str s'
  end.

(** The UTF-8 encodings of the two marks *)
Definition check_mark : str := map ascii_of_nat [226; 156; 147].
Definition cross_mark : str := map ascii_of_nat [226; 156; 151].

(** What is known about a task when it is logged. Times are in microseconds since
    the log was created. *)
Record task_info := mk_task_info {
  task_cmd : command;
  task_id : Z;
  task_path : str;
  task_started : Z;
  task_completed : Z
}.

Definition with_command (level : log_level) (t : task_info) : str :=
  match level with
  | LevelCompilationCommand => command_to_string (task_cmd t) ++ lit " #"
  | _ => []
  end.

(** CompilationLog::write for a task that was run, compilation_log.cpp:44-81: what
    is written to stdout and to stderr. *)
Definition log_result (level : log_level) (t : task_info) (status : exit_status) (out err : str) : str * str :=
  let stdout_buff :=
    match level with
    | LevelErrors => []
    | _ =>
        with_command level t ++ lit " " ++ decimal (task_id t)
          ++ (if failed status then lit " | " ++ cross_mark ++ lit " | " else lit " | " ++ check_mark ++ lit " | ")
          ++ task_path t ++ lit " | " ++ decimal (task_started t) ++ lit " | " ++ decimal (task_completed t)
    end in
  let stdout_buff := match stdout_buff with [] => [] | _ => stdout_buff ++ [newline] end in
  let stderr_buff := match err with [] => [] | _ => err ++ [newline] end in
  (c_str (append_log stdout_buff out), c_str stderr_buff).

(** CompilationLog::write for a task that was skipped, compilation_log.cpp:83-110 *)
Definition log_skipped (level : log_level) (t : task_info) : str :=
  c_str ((match level with
          | LevelErrors => []
          | _ =>
              with_command level t ++ lit " " ++ decimal (task_id t) ++ lit " | " ++ check_mark ++ lit " | "
                ++ task_path t ++ lit " | - | - "
          end) ++ [newline]).
