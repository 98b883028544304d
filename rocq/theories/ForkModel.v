(** Model of several calls to execve at the same time: core/exec/execve.cpp:160-228
    and 134-155, with an eye on file descriptors. A process that is created by fork
    inherits every descriptor that is open in maike at that time, which includes
    the pipes of other calls, and keeps these until it exits: only the write end of
    exec_err is closed by a successful exec, and only in the child of the same
    call (line 195). A pipe is at its end when no process has its write end open.

    As in ExecModel.v, each step is a system call or part of one; writes of a
    child are divided into single bytes; pipes can hold [capacity] bytes. The four
    pipes of a call are created in one step, and so are the three calls to close in
    lines 223-225. Not modelled: tools that read from their standard input (see
    ExecModel.v), failure to create a pipe, errors from read and write, processes
    started by the child that outlive it. *)

From Coq Require Import Ascii List Bool Arith.
From Verif Require Import Str.
Import ListNotations.

(** What a tool does: it writes to one of its outputs. *)
Inductive action := PutOut (c : ascii) | PutErr (c : ascii).

(** Where the thread that called execve is. *)
Inductive stage :=
| Entered            (* before line 172 *)
| Piped              (* line 177: the pipes have been created *)
| Locked             (* line 178: has exec_mutex *)
| Forked             (* line 210: has exec_mutex *)
| Closed             (* line 211: has exec_mutex *)
| ReadingError       (* line 213 *)
| Launched           (* line 223 *)
| Waiting            (* line 143: both threads that read from pipes are running *)
| JoiningOut         (* line 145 *)
| JoiningErr         (* line 146 *)
| Returned           (* line 155 *)
| LaunchFailed       (* line 219 *)
| ForkFailed.        (* line 184 *)

(** The child *)
Inductive child :=
| NoChild
| Starting                      (* lines 187-196 *)
| Reporting                     (* line 201: exec failed, and errno has been written *)
| Running (todo : list action)  (* the tool *)
| Exited.

(** A call to execve. [inherited_error] and [inherited_output]: the calls, other
    than this one, for which the child of this call has inherited the write end of
    exec_err, and of stdout and stderr, respectively. *)
Record call := mk_call {
  stage_of : stage;
  child_of : child;
  errno_written : bool;
  out_pipe : str;
  err_pipe : str;
  out_reading : bool;          (* stdout_proc has not returned *)
  err_reading : bool;
  out_captured : str;
  err_captured : str;
  inherited_error : nat -> bool;
  inherited_output : nat -> bool
}.

Definition entered : call := mk_call Entered NoChild false [] [] true true [] [] (fun _ => false) (fun _ => false).

Definition set_stage (x : call) (s : stage) : call :=
  mk_call s (child_of x) (errno_written x) (out_pipe x) (err_pipe x) (out_reading x) (err_reading x)
          (out_captured x) (err_captured x) (inherited_error x) (inherited_output x).

Definition set_child (x : call) (c : child) : call :=
  mk_call (stage_of x) c (errno_written x) (out_pipe x) (err_pipe x) (out_reading x) (err_reading x)
          (out_captured x) (err_captured x) (inherited_error x) (inherited_output x).

(** [forks]: the calls in which a process has been created, latest first (for
    stating and proving properties only) *)
Record state := mk_state { calls : nat -> call; forks : list nat }.

Definition start : state := mk_state (fun _ => entered) [].

(** exec_mutex is held, lines 177-211 *)
Definition holds_lock (s : stage) : bool :=
  match s with Locked | Forked | Closed => true | _ => false end.

(** The write end of exec_err is open in maike: lines 175-210 *)
Definition holds_error (s : stage) : bool :=
  match s with Piped | Locked | Forked => true | _ => false end.

(** The write ends of stdout and stderr are open in maike: lines 173-225. (If an
    exception is thrown, all pipes are closed by their destructors.) *)
Definition holds_output (s : stage) : bool :=
  match s with Piped | Locked | Forked | Closed | ReadingError | Launched => true | _ => false end.

(** The threads that read from stdout and stderr are running, lines 138-146. *)
Definition communicating (s : stage) : bool :=
  match s with Waiting | JoiningOut | JoiningErr => true | _ => false end.

Definition live (c : child) : bool := match c with NoChild | Exited => false | _ => true end.

(** The child has the write end of exec_err of its own call, lines 195-201. *)
Definition before_exec (c : child) : bool := match c with Starting | Reporting => true | _ => false end.

Section Steps.
  Variable capacity : nat.
  (** The tool that is to be run by each of the calls; [None]: exec fails. There are
      [number] calls. *)
  Variable number : nat.
  Variable tool : nat -> option (list action).

  Definition update (s : state) (i : nat) (x : call) : state :=
    mk_state (fun j => if Nat.eqb j i then x else calls s j) (forks s).

  (** Nobody has the write end of exec_err of call [i]. *)
  Definition error_closed (s : state) (i : nat) : Prop :=
    holds_error (stage_of (calls s i)) = false /\
    before_exec (child_of (calls s i)) = false /\
    forall j, live (child_of (calls s j)) = true -> inherited_error (calls s j) i = false.

  (** Nobody has the write end of the outputs of call [i]. *)
  Definition output_closed (s : state) (i : nat) : Prop :=
    holds_output (stage_of (calls s i)) = false /\
    live (child_of (calls s i)) = false /\
    forall j, live (child_of (calls s j)) = true -> inherited_output (calls s j) i = false.

  Definition others (f : stage -> bool) (s : state) (i j : nat) : bool :=
    negb (Nat.eqb j i) && f (stage_of (calls s j)).

  (** What the thread in call number [i] can do, given that the record of the call
      is [x]: the new record. *)
  Inductive thread_step (s : state) (i : nat) (x : call) : call -> Prop :=
  | make_pipes : stage_of x = Entered -> thread_step s i x (set_stage x Piped)
  | lock : stage_of x = Piped -> (forall j, holds_lock (stage_of (calls s j)) = false) ->
      thread_step s i x (set_stage x Locked)
  | fork : stage_of x = Locked ->
      thread_step s i x
        (mk_call Forked Starting (errno_written x) (out_pipe x) (err_pipe x) (out_reading x) (err_reading x)
                 (out_captured x) (err_captured x) (others holds_error s i) (others holds_output s i))
  | fork_fails : stage_of x = Locked -> thread_step s i x (set_stage x ForkFailed)
  | close_error : stage_of x = Forked -> thread_step s i x (set_stage x Closed)
  | unlock : stage_of x = Closed -> thread_step s i x (set_stage x ReadingError)
  (* lines 213-220 *)
  | read_errno : stage_of x = ReadingError -> errno_written x = true ->
      thread_step s i x (set_stage x LaunchFailed)
  | read_end : stage_of x = ReadingError -> errno_written x = false -> error_closed s i ->
      thread_step s i x (set_stage x Launched)
  (* lines 223-225, 138-140 *)
  | close_outputs : stage_of x = Launched -> thread_step s i x (set_stage x Waiting)
  | waitpid : stage_of x = Waiting -> child_of x = Exited -> thread_step s i x (set_stage x JoiningOut)
  | join_out : stage_of x = JoiningOut -> out_reading x = false -> thread_step s i x (set_stage x JoiningErr)
  | join_err : stage_of x = JoiningErr -> err_reading x = false -> thread_step s i x (set_stage x Returned).

  (** What the child of call [i] can do. *)
  Inductive child_step (i : nat) (x : call) : call -> Prop :=
  | exec : forall actions, child_of x = Starting -> tool i = Some actions ->
      child_step i x (set_child x (Running actions))
  | exec_fails : child_of x = Starting -> tool i = None ->
      child_step i x
        (mk_call (stage_of x) Reporting true (out_pipe x) (err_pipe x) (out_reading x) (err_reading x)
                 (out_captured x) (err_captured x) (inherited_error x) (inherited_output x))
  | give_up : child_of x = Reporting -> child_step i x (set_child x Exited)
  | put_out : forall c todo, child_of x = Running (PutOut c :: todo) -> length (out_pipe x) < capacity ->
      child_step i x
        (mk_call (stage_of x) (Running todo) (errno_written x) (out_pipe x ++ [c]) (err_pipe x) (out_reading x) (err_reading x)
                 (out_captured x) (err_captured x) (inherited_error x) (inherited_output x))
  | put_err : forall c todo, child_of x = Running (PutErr c :: todo) -> length (err_pipe x) < capacity ->
      child_step i x
        (mk_call (stage_of x) (Running todo) (errno_written x) (out_pipe x) (err_pipe x ++ [c]) (out_reading x) (err_reading x)
                 (out_captured x) (err_captured x) (inherited_error x) (inherited_output x))
  | exits : child_of x = Running [] -> child_step i x (set_child x Exited).

  (** The threads that read, lines 121-131 with IOCapture, 242-252: some of what is
      in the pipe is read. *)
  Inductive reader_step (s : state) (i : nat) (x : call) : call -> Prop :=
  | read_out : forall a rest, communicating (stage_of x) = true -> out_reading x = true ->
      out_pipe x = a ++ rest -> a <> [] ->
      reader_step s i x
        (mk_call (stage_of x) (child_of x) (errno_written x) rest (err_pipe x) true (err_reading x)
                 (out_captured x ++ a) (err_captured x) (inherited_error x) (inherited_output x))
  | end_out : communicating (stage_of x) = true -> out_reading x = true -> out_pipe x = [] -> output_closed s i ->
      reader_step s i x
        (mk_call (stage_of x) (child_of x) (errno_written x) [] (err_pipe x) false (err_reading x)
                 (out_captured x) (err_captured x) (inherited_error x) (inherited_output x))
  | read_err : forall a rest, communicating (stage_of x) = true -> err_reading x = true ->
      err_pipe x = a ++ rest -> a <> [] ->
      reader_step s i x
        (mk_call (stage_of x) (child_of x) (errno_written x) (out_pipe x) rest (out_reading x) true
                 (out_captured x) (err_captured x ++ a) (inherited_error x) (inherited_output x))
  | end_err : communicating (stage_of x) = true -> err_reading x = true -> err_pipe x = [] -> output_closed s i ->
      reader_step s i x
        (mk_call (stage_of x) (child_of x) (errno_written x) (out_pipe x) [] (out_reading x) false
                 (out_captured x) (err_captured x) (inherited_error x) (inherited_output x)).

  Definition forked (i : nat) (x y : call) (l : list nat) : list nat :=
    match stage_of x, stage_of y with Locked, Forked => i :: l | _, _ => l end.

  (** One step of the program, or of one of the processes *)
  Inductive step : state -> state -> Prop :=
  | by_thread : forall s i y, i < number -> thread_step s i (calls s i) y ->
      step s (mk_state (calls (update s i y)) (forked i (calls s i) y (forks s)))
  | by_child : forall s i y, i < number -> child_step i (calls s i) y -> step s (update s i y)
  | by_reader : forall s i y, i < number -> reader_step s i (calls s i) y -> step s (update s i y).

  (** [n] steps *)
  Inductive steps : nat -> state -> state -> Prop :=
  | steps_none s : steps 0 s s
  | steps_more n s1 s2 s3 : steps n s1 s2 -> step s2 s3 -> steps (S n) s1 s3.
End Steps.
