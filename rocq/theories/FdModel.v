(** Model of core/exec/execve.cpp:22-107 and 160-228 with an eye on the numbers of file
    descriptors. What is written to pipes is in ExecModel.v and FeedModel.v, and what children
    inherit from calls in other threads in ForkModel.v. Errors from close, dup2 and fcntl are
    not checked by the program: if a call fails, nothing happens. *)

From Coq Require Import List Arith Bool.
Import ListNotations.

(** The pipes of a call, lines 172-175 *)
Inductive which := StdinPipe | StdoutPipe | StderrPipe | ErrorPipe.

(** What a descriptor refers to. [Other]: anything but the pipes of this call *)
Inductive object := ReadEnd (w : which) | WriteEnd (w : which) | Other (n : nat).

Record descriptor := mk_descriptor { object_of : object; cloexec : bool }.

(** The descriptors that are open in a process *)
Definition table := nat -> option descriptor.

Definition set (t : table) (fd : nat) (d : option descriptor) : table := fun n => if Nat.eqb n fd then d else t n.

(** ** System calls *)

Definition is_free (t : table) (fd : nat) : bool := match t fd with None => true | Some _ => false end.

(** The lowest number that is not in use; there may be no more than [limit] descriptors. *)
Definition lowest (limit : nat) (t : table) : option nat := find (is_free t) (seq 0 limit).

(** pipe. [None]: fails *)
Definition sys_pipe (limit : nat) (w : which) (t : table) : option (nat * nat * table) :=
  match lowest limit t with
  | None => None
  | Some r =>
      let t1 := set t r (Some (mk_descriptor (ReadEnd w) false)) in
      match lowest limit t1 with
      | None => None
      | Some e => Some (r, e, set t1 e (Some (mk_descriptor (WriteEnd w) false)))
      end
  end.

(** In what follows, [None] is the number -1. *)
Definition sys_close (fd : option nat) (t : table) : table :=
  match fd with Some n => set t n None | None => t end.

(** dup2: does nothing if both numbers are the same *)
Definition sys_dup2 (fd : option nat) (target : nat) (t : table) : table :=
  match fd with
  | Some n =>
      match t n with
      | Some d => if Nat.eqb n target then t else set t target (Some (mk_descriptor (object_of d) false))
      | None => t
      end
  | None => t
  end.

(** fcntl(fd, F_SETFD, FD_CLOEXEC) *)
Definition sys_cloexec (fd : option nat) (t : table) : table :=
  match fd with
  | Some n => match t n with Some d => set t n (Some (mk_descriptor (object_of d) true)) | None => t end
  | None => t
  end.

(** The descriptors left to a program that is started by execve *)
Definition sys_exec (t : table) : table :=
  fun n => match t n with Some d => if cloexec d then None else Some d | None => None end.

(** ** class Pipe, lines 22-107 *)

Record pipe := mk_pipe { read_end : option nat; write_end : option nat }.

Definition closed : pipe := mk_pipe None None.

Definition close_read (p : pipe) (t : table) : pipe * table := (mk_pipe None (write_end p), sys_close (read_end p) t).

Definition close_write (p : pipe) (t : table) : pipe * table := (mk_pipe (read_end p) None, sys_close (write_end p) t).

(** lines 52-64 *)
Definition move_read (p : pipe) (target : nat) (t : table) : pipe * table :=
  close_read p (sys_dup2 (read_end p) target t).

Definition move_write (p : pipe) (target : nat) (t : table) : pipe * table :=
  close_write p (sys_dup2 (write_end p) target t).

(** lines 74-80 *)
Definition close_write_on_exec (p : pipe) (t : table) : option nat * pipe * table :=
  (write_end p, mk_pipe (read_end p) None, sys_cloexec (write_end p) t).

(** ** The child, lines 186-196 *)

(** The descriptors right before execve is called, and fd_exec_err *)
Definition child (p_in p_out p_err p_exec : pipe) (t : table) : table * option nat :=
  let (p_in, t) := close_write p_in t in
  let (p_out, t) := close_read p_out t in
  let (p_err, t) := close_read p_err t in
  let (p_exec, t) := close_read p_exec t in
  let (_, t) := move_read p_in 0 t in
  let (_, t) := move_write p_out 1 t in
  let (_, t) := move_write p_err 2 t in
  match close_write_on_exec p_exec t with (fd, _, t) => (t, fd) end.

(** What the tool is started with *)
Definition tool (p_in p_out p_err p_exec : pipe) (t : table) : table := sys_exec (fst (child p_in p_out p_err p_exec t)).

(** ** The call in maike itself, lines 172-228 *)

Inductive place :=
| Making (w : which)                (* lines 172-175 *)
| Forking                           (* lines 177-184 *)
| ClosingError                      (* line 210 *)
| ReadingError                      (* line 213 *)
| ClosingStdin                      (* line 223 *)
| ClosingStdout                     (* line 224 *)
| ClosingStderr                     (* line 225 *)
| Talking                           (* line 227 *)
| Unwinding (todo : list which)     (* the destructors, lines 35-40 *)
| Ended.

Record call := mk_call { open_in : table; pipes : which -> pipe; at_place : place }.

Definition which_eqb (a b : which) : bool :=
  match a, b with
  | StdinPipe, StdinPipe | StdoutPipe, StdoutPipe | StderrPipe, StderrPipe | ErrorPipe, ErrorPipe => true
  | _, _ => false
  end.

Definition set_pipe (ps : which -> pipe) (w : which) (p : pipe) : which -> pipe :=
  fun w' => if which_eqb w' w then p else ps w'.

Definition after_making (w : which) : place :=
  match w with
  | StdinPipe => Making StdoutPipe
  | StdoutPipe => Making StderrPipe
  | StderrPipe => Making ErrorPipe
  | ErrorPipe => Forking
  end.

(** In reverse order. Pipes that have not been made have no destructor; here, they are [closed],
    and nothing happens. *)
Definition destructors : list which := [ErrorPipe; StderrPipe; StdoutPipe; StdinPipe].

(** [fails]: pipe fails for another reason than the number of descriptors (line 30), fork fails
    (line 184), the tool can not be launched (line 219), or communicateWith throws since a
    thread can not be created (line 138) *)
Definition call_step (limit : nat) (fails : bool) (s : call) : option call :=
  let goto p := Some (mk_call (open_in s) (pipes s) p) in
  let closing w (f : pipe -> table -> pipe * table) next :=
    let (p, t) := f (pipes s w) (open_in s) in Some (mk_call t (set_pipe (pipes s) w p) next) in
  match at_place s with
  | Making w =>
      match (if fails then None else sys_pipe limit w (open_in s)) with
      | Some (r, e, t) => Some (mk_call t (set_pipe (pipes s) w (mk_pipe (Some r) (Some e))) (after_making w))
      | None => goto (Unwinding destructors)
      end
  | Forking => if fails then goto (Unwinding destructors) else goto ClosingError
  | ClosingError => closing ErrorPipe close_write ReadingError
  | ReadingError => if fails then goto (Unwinding destructors) else goto ClosingStdin
  | ClosingStdin => closing StdinPipe close_read ClosingStdout
  | ClosingStdout => closing StdoutPipe close_write ClosingStderr
  | ClosingStderr => closing StderrPipe close_write Talking
  | Talking => goto (Unwinding destructors)
  | Unwinding (w :: todo) =>
      let (p, t) := close_read (pipes s w) (open_in s) in
      let (p, t) := close_write p t in
      Some (mk_call t (set_pipe (pipes s) w p) (Unwinding todo))
  | Unwinding [] => goto Ended
  | Ended => None
  end.

Definition call_start (t : table) : call := mk_call t (fun _ => closed) (Making StdinPipe).
