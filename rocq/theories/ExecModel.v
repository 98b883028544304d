(** Model of running a process and capturing its output: core/exec/execve.cpp.

    What takes place concurrently: the child process, the two threads that read
    from the pipes, and the thread that called execve. Each step is one system
    call, or part of one: writes of the child are divided into single bytes. The
    pipes can hold [capacity] bytes.

    Not modelled: fork and exec themselves, file descriptors that other children
    happen to inherit, processes started by the child that outlive it, errors from
    read and write. *)

From Coq Require Import Ascii String ZArith Bool.
From Coq Require Import List.
From Verif Require Import Str BuildModel.
Import ListNotations.

(** What the child does. [WaitForInput]: it reads from its standard input until
    there is some, or until the end of it. *)
Inductive action :=
| PutOut (c : ascii)
| PutErr (c : ascii)
| WaitForInput.

(** Where the calling thread is: in [write] (line 140), in waitpid (line 143),
    waiting for the thread that reads stdout (line 145), for the thread that reads
    stderr (line 146), or after the return from execve. *)
Inductive phase := Writing | InWaitpid | JoiningOut | JoiningErr | Returned.

Record state := mk_state {
  todo : list action;          (* what remains to be done by the child *)
  exited : bool;               (* the child has exited *)
  out_pipe : str;
  err_pipe : str;
  out_reading : bool;          (* stdout_proc has not returned *)
  err_reading : bool;
  out_captured : str;          (* IOCapture::stdout *)
  err_captured : str;
  caller : phase
}.

(** The state after a successful exec. *)
Definition start (actions : list action) : state :=
  mk_state actions false [] [] true true [] [] Writing.

(** The write end of the pipe connected to the standard input of the child is
    closed by the destructor of Pipe when execve returns (execve.cpp:35-40,
    172). *)
Definition input_open (s : state) : bool := match caller s with Returned => false | _ => true end.

Definition buffer_size : nat := 64 * 64.

Section Steps.
  Variable capacity : nat.

  Inductive step : state -> state -> Prop :=
  (* the child *)
  | child_out c t e o er r1 r2 c1 c2 p : length o < capacity ->
      step (mk_state (PutOut c :: t) e o er r1 r2 c1 c2 p) (mk_state t e (o ++ [c]) er r1 r2 c1 c2 p)
  | child_err c t e o er r1 r2 c1 c2 p : length er < capacity ->
      step (mk_state (PutErr c :: t) e o er r1 r2 c1 c2 p) (mk_state t e o (er ++ [c]) r1 r2 c1 c2 p)
  | child_input t e o er r1 r2 c1 c2 p :
      input_open (mk_state (WaitForInput :: t) e o er r1 r2 c1 c2 p) = false ->
      step (mk_state (WaitForInput :: t) e o er r1 r2 c1 c2 p) (mk_state t e o er r1 r2 c1 c2 p)
  | child_exit o er r1 r2 c1 c2 p :
      step (mk_state [] false o er r1 r2 c1 c2 p) (mk_state [] true o er r1 r2 c1 c2 p)
  (* stdout_proc, function read, execve.cpp:121-131 with IOCapture, 242-246: some
     of what is in the pipe is read *)
  | out_read t e a o er r2 c1 c2 p : a <> [] -> length a <= buffer_size ->
      step (mk_state t e (a ++ o) er true r2 c1 c2 p) (mk_state t e o er true r2 (c1 ++ a) c2 p)
  | out_end t er r2 c1 c2 p :
      step (mk_state t true [] er true r2 c1 c2 p) (mk_state t true [] er false r2 c1 c2 p)
  (* stderr_proc *)
  | err_read t e o a er r1 c1 c2 p : a <> [] -> length a <= buffer_size ->
      step (mk_state t e o (a ++ er) r1 true c1 c2 p) (mk_state t e o er r1 true c1 (c2 ++ a) p)
  | err_end t o r1 c1 c2 p :
      step (mk_state t true o [] r1 true c1 c2 p) (mk_state t true o [] r1 false c1 c2 p)
  (* the caller, communicateWith, execve.cpp:134-155. IOCapture provides no input
     (lines 237-240), so [write] returns after writing zero bytes. *)
  | caller_write t e o er r1 r2 c1 c2 :
      step (mk_state t e o er r1 r2 c1 c2 Writing) (mk_state t e o er r1 r2 c1 c2 InWaitpid)
  | caller_waitpid t o er r1 r2 c1 c2 :
      step (mk_state t true o er r1 r2 c1 c2 InWaitpid) (mk_state t true o er r1 r2 c1 c2 JoiningOut)
  | caller_join_out t e o er r2 c1 c2 :
      step (mk_state t e o er false r2 c1 c2 JoiningOut) (mk_state t e o er false r2 c1 c2 JoiningErr)
  | caller_join_err t e o er r1 c1 c2 :
      step (mk_state t e o er r1 false c1 c2 JoiningErr) (mk_state t e o er r1 false c1 c2 Returned).

  (** [n] steps *)
  Inductive steps : nat -> state -> state -> Prop :=
  | steps_none s : steps 0 s s
  | steps_more n s1 s2 s3 : steps n s1 s2 -> step s2 s3 -> steps (S n) s1 s3.
End Steps.

(** The status that waitpid reports, bits/waitstatus.h *)
Definition w_if_exited (status : Z) : bool := Z.eqb (Z.land status 127) 0.
Definition w_exit_status (status : Z) : Z := Z.shiftr (Z.land status 65280) 8.
(* the conversion to signed char turns 128 into -128 *)
Definition w_if_signaled (status : Z) : bool :=
  let x := (Z.land status 127 + 1)%Z in
  Z.ltb 0 (Z.shiftr (if Z.leb 128 x then x - 256 else x)%Z 1).
Definition w_term_sig (status : Z) : Z := Z.land status 127.

(** communicateWith, execve.cpp:148-154. [None]: abort *)
Definition exit_status_of (status : Z) : option exit_status :=
  if w_if_exited status then Some (ExitCode (w_exit_status status))
  else if w_if_signaled status then Some (KilledBy (w_term_sig status))
  else None.
