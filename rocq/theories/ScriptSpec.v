(** A reader for a part of the language of the shell (POSIX.1-2017, chapter 2). *)

From Coq Require Import Ascii String Bool ZArith.
From Coq Require Import List.
From Verif Require Import Str Path JsonModel DbModel DepGraphSpec FileListSpec BuildModel BuildSpec LogModel JobModel ShowModel.
From Verif Require Import SchedModel SchedSpec TaskListModel TaskListSpec WriteModel ScriptModel.
Import ListNotations.

(** Characters that stand for themselves everywhere *)
Definition plain_char (c : ascii) : bool :=
  let n := nat_of_ascii c in
  (Nat.leb 48 n && Nat.leb n 57) || (Nat.leb 65 n && Nat.leb n 90) || (Nat.leb 97 n && Nat.leb n 122)
  || existsb (Ascii.eqb c) ["/"; "."; "_"; "-"; "+"; ","; ":"; "@"; "%"]%char.

(** Words that have a meaning of their own if they are the first word of a command, and are
    not quoted (2.4) *)
Definition reserved_words : list str :=
  map lit ["case"; "do"; "done"; "elif"; "else"; "esac"; "fi"; "for"; "if"; "in"; "then"; "until"; "while"]%string.

(** Where the reader is: before a word, in a word (some of which may have been quoted), in
    single quotes, after a backslash, and in a comment *)
Inductive sh_state :=
| Before
| InWord (quoted : bool) (w : str)
| InQuotes (w : str)
| AfterBackslash (w : str)
| InComment.

(** The end of a word. [None]: it is a reserved word. *)
Definition end_word (cmd : list str) (quoted : bool) (w : str) : option (list str) :=
  match cmd with
  | [] => if negb quoted && existsb (str_eqb w) reserved_words then None else Some [w]
  | _ => Some (cmd ++ [w])
  end.

(** The end of a line *)
Definition end_command (cmd : list str) (rest : option (list (list str))) : option (list (list str)) :=
  match cmd with
  | [] => rest
  | _ => option_map (cons cmd) rest
  end.

(** The commands in a script, one per line, each of which is a list of words; [cmd] are the
    words of the current command. [None]: the script is incomplete, or uses something that
    is not described here. *)
Fixpoint sh_read (st : sh_state) (cmd : list str) (s : str) : option (list (list str)) :=
  match s with
  | [] =>
      match st with
      | Before | InComment => end_command cmd (Some [])
      | InWord q w => match end_word cmd q w with Some cmd' => end_command cmd' (Some []) | None => None end
      | InQuotes _ | AfterBackslash _ => None
      end
  | c :: s' =>
      let blank := Ascii.eqb c " " || Ascii.eqb c "009" in
      let newline := Ascii.eqb c "010" in
      match st with
      | Before =>
          if newline then end_command cmd (sh_read Before [] s')
          else if blank then sh_read Before cmd s'
          else if Ascii.eqb c "#" then sh_read InComment cmd s'
          else if Ascii.eqb c "'" then sh_read (InQuotes []) cmd s'
          else if Ascii.eqb c "\" then sh_read (AfterBackslash []) cmd s'
          else if plain_char c then sh_read (InWord false [c]) cmd s'
          else None
      | InWord q w =>
          if newline then match end_word cmd q w with Some cmd' => end_command cmd' (sh_read Before [] s') | None => None end
          else if blank then match end_word cmd q w with Some cmd' => sh_read Before cmd' s' | None => None end
          else if Ascii.eqb c "'" then sh_read (InQuotes w) cmd s'
          else if Ascii.eqb c "\" then sh_read (AfterBackslash w) cmd s'
          else if plain_char c || Ascii.eqb c "#" then sh_read (InWord q (w ++ [c])) cmd s'
          else None
      | InQuotes w =>
          if Ascii.eqb c "'" then sh_read (InWord true w) cmd s' else sh_read (InQuotes (w ++ [c])) cmd s'
      | AfterBackslash w =>
          if newline then None else sh_read (InWord true (w ++ [c])) cmd s'
      | InComment =>
          if newline then end_command cmd (sh_read Before [] s') else sh_read InComment cmd s'
      end
  end.

Definition script_commands (s : str) : option (list (list str)) := sh_read Before [] s.

Definition quotable_word (w : str) : Prop := ~ In "\"%char w /\ ~ In "'"%char w /\ ~ In "000"%char w.

(** The words of a command: the program and its arguments *)
Definition command_words (c : command) : list str := executable c :: cmd_args c.

(** A name that fits into a comment *)
Definition one_line (s : str) : Prop := ~ In "010"%char s /\ ~ In "000"%char s.

(** The text of the options of a command shows the number of the task. *)
Definition shows_task_id (dump : json -> str) : Prop := forall m m' (a b : nat),
  dump (JObject m) = dump (JObject m') ->
  obj_get (lit "task_id") m = Some (JInteger (Z.of_nat a)) -> obj_get (lit "task_id") m' = Some (JInteger (Z.of_nat b)) -> a = b.

(** The files change from [D] to [D'] when the commands are run one after the other and all
    of them succeed: a recipe changes the targets of its task only, and leaves them newer
    than what they are made from. [command_of v c] says that [c] is the
    command of task [v]. *)
Inductive script_run (g : file_list) (command_of : nat -> list str -> Prop) : list (list str) -> disk -> disk -> Prop :=
| script_ends : forall D, script_run g command_of [] D D
| script_goes_on : forall v c rest D D1 D2,
    command_of v c -> (forall q, ~ target_of g v q -> D1 q = D q) -> current g D1 v ->
    script_run g command_of rest D1 D2 ->
    script_run g command_of (c :: rest) D D2.

(** [out] is what a dry run with the parameters [j] may print for the tasks [tasks] of the
    project [g], if it comes to an end: whichever tasks are necessary, and whatever the
    threads do. *)
Definition dry_run (dump : json -> str) (j : job) (g : file_list) (tasks : list nat) (out : str) : Prop :=
  exists rs ws times info needed real cs tr F n,
    task_list g rs tasks /\ idle_pool ws /\
    (forall v, In v tasks -> logged dump j times g v = Some (info v)) /\
    full_run (task_reads g) (job_level j) info (fun v => invoke_if_necessary true (needed v) (real v)) cs (full_init rs tasks ws) = Some (tr, F) /\
    ph (fst F) = Returned n /\ out = banner j ++ out_text (snd F).
