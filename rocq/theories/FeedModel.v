(** Model of a tool that gets input: core/exec/execve.cpp with an Io::MemRedirector
    (core/io/io_redirector.hpp, core/io/mem_io_redirector.hpp).

    What takes place concurrently is what is described in ExecModel.v. In addition, the
    thread that called execve writes the input to a pipe, from which the tool reads. The
    tool is a program whose behaviour may depend on what it has read so far. It reads
    and writes single bytes, and it does not look at how many bytes happen to be in the
    pipe.

    Not modelled: fork and exec themselves (see ForkModel.v), errors from read, writes
    that are interrupted by signals, and processes started by the tool. *)

From Coq Require Import Ascii String Bool Arith.
From Coq Require Import List.
From Verif Require Import Str.
Import ListNotations.

(** What the tool does. [Get k]: it reads a byte from its standard input, and continues
    as [k (Some c)], or as [k None] if there are no more bytes or its standard input
    has been closed. [CloseIn]: it closes its standard input. *)
Inductive program :=
| Exit
| PutOut (c : ascii) (p : program)
| PutErr (c : ascii) (p : program)
| Get (k : option ascii -> program)
| CloseIn (p : program).

(** Where the calling thread is: in [write] (line 140), in waitpid (line 143), waiting
    for the threads that read the outputs (lines 145-146), or after the return *)
Inductive phase := Writing | InWaitpid | JoiningOut | JoiningErr | Returned.

(** What [write] has in its buffer (lines 112-117): the bytes that are not in the pipe yet,
    whether the buffer was full, and whether some of it has been put into the pipe *)
Record chunk := mk_chunk { unsent : str; full : bool; begun : bool }.

(** The way from MemRedirector::m_stdin to the tool *)
Record inputs := mk_inputs {
  source : str;                (* m_stdin, mem_io_redirector.hpp:49 *)
  current : option chunk;      (* None: the callback is about to be called *)
  in_pipe : str;
  in_open : bool;              (* the tool has the read end of the pipe *)
  got : str                    (* what the tool has read *)
}.

(** The ways back, as in ExecModel.v *)
Record outputs := mk_outputs {
  out_pipe : str;
  err_pipe : str;
  out_reading : bool;
  err_reading : bool;
  out_captured : str;          (* MemRedirector::stdout *)
  err_captured : str           (* MemRedirector::stderr *)
}.

Record state := mk_state {
  child : program;
  exited : bool;
  ins : inputs;
  outs : outputs;
  caller : phase
}.

(** The state after a successful exec *)
Definition start (p : program) (input : str) : state :=
  mk_state p false (mk_inputs input None [] true []) (mk_outputs [] [] true true [] []) Writing.

(** execve.cpp:111 and 123 *)
Definition buffer_size : nat := 64 * 64.

(** operator() of MemRedirector for StdIn, mem_io_redirector.hpp:18-27: what is copied, and
    what is left *)
Definition provide (n : nat) (src : str) : str * str := (firstn n src, skipn n src).

(** Where [write] continues after a system call that has not failed, line 117 *)
Definition after_write (f : bool) : phase := if f then Writing else InWaitpid.

Section Steps.
  Variable capacity : nat.

  Inductive step : state -> state -> Prop :=
  (* the tool *)
  | child_out c p e i op ep r1 r2 c1 c2 ph : length op < capacity ->
      step (mk_state (PutOut c p) e i (mk_outputs op ep r1 r2 c1 c2) ph)
           (mk_state p e i (mk_outputs (op ++ [c]) ep r1 r2 c1 c2) ph)
  | child_err c p e i op ep r1 r2 c1 c2 ph : length ep < capacity ->
      step (mk_state (PutErr c p) e i (mk_outputs op ep r1 r2 c1 c2) ph)
           (mk_state p e i (mk_outputs op (ep ++ [c]) r1 r2 c1 c2) ph)
  | child_get c k e src cur ip g o ph :
      step (mk_state (Get k) e (mk_inputs src cur (c :: ip) true g) o ph)
           (mk_state (k (Some c)) e (mk_inputs src cur ip true (g ++ [c])) o ph)
  (* the write end is closed by the destructor of Pipe when execve returns, lines
     35-40 and 172 *)
  | child_eof k e src cur g o :
      step (mk_state (Get k) e (mk_inputs src cur [] true g) o Returned)
           (mk_state (k None) e (mk_inputs src cur [] true g) o Returned)
  | child_get_closed k e src cur ip g o ph :
      step (mk_state (Get k) e (mk_inputs src cur ip false g) o ph)
           (mk_state (k None) e (mk_inputs src cur ip false g) o ph)
  | child_close p e src cur ip b g o ph :
      step (mk_state (CloseIn p) e (mk_inputs src cur ip b g) o ph)
           (mk_state p e (mk_inputs src cur ip false g) o ph)
  | child_exit src cur ip b g o ph :
      step (mk_state Exit false (mk_inputs src cur ip b g) o ph)
           (mk_state Exit true (mk_inputs src cur ip false g) o ph)
  (* [write], lines 109-119. The other end of the pipe is held by the tool only, since
     line 224 *)
  | caller_fetch p e src src' b ip io g o : provide buffer_size src = (b, src') ->
      step (mk_state p e (mk_inputs src None ip io g) o Writing)
           (mk_state p e (mk_inputs src' (Some (mk_chunk b (length b =? buffer_size) false)) ip io g) o Writing)
  | caller_put p e src c b f w ip g o : length ip < capacity ->
      step (mk_state p e (mk_inputs src (Some (mk_chunk (c :: b) f w)) ip true g) o Writing)
           (mk_state p e (mk_inputs src (Some (mk_chunk b f true)) (ip ++ [c]) true g) o Writing)
  | caller_written p e src f w ip io g o :
      step (mk_state p e (mk_inputs src (Some (mk_chunk [] f w)) ip io g) o Writing)
           (mk_state p e (mk_inputs src None ip io g) o (after_write f))
  (* EPIPE; SIGPIPE is ignored, line 137 *)
  | caller_broken p e src c b f ip g o :
      step (mk_state p e (mk_inputs src (Some (mk_chunk (c :: b) f false)) ip false g) o Writing)
           (mk_state p e (mk_inputs src None ip false g) o InWaitpid)
  (* a system call that has put a part of the buffer into the pipe succeeds *)
  | caller_short p e src c b f ip g o :
      step (mk_state p e (mk_inputs src (Some (mk_chunk (c :: b) f true)) ip false g) o Writing)
           (mk_state p e (mk_inputs src None ip false g) o (after_write f))
  | caller_waitpid p i o :
      step (mk_state p true i o InWaitpid) (mk_state p true i o JoiningOut)
  | caller_join_out p e i op ep r2 c1 c2 :
      step (mk_state p e i (mk_outputs op ep false r2 c1 c2) JoiningOut)
           (mk_state p e i (mk_outputs op ep false r2 c1 c2) JoiningErr)
  | caller_join_err p e i op ep r1 c1 c2 :
      step (mk_state p e i (mk_outputs op ep r1 false c1 c2) JoiningErr)
           (mk_state p e i (mk_outputs op ep r1 false c1 c2) Returned)
  (* [read], lines 121-131, with operator() for StdOut and StdErr,
     mem_io_redirector.hpp:29-37 *)
  | out_read p e i a op ep r2 c1 c2 ph : a <> [] -> length a <= buffer_size ->
      step (mk_state p e i (mk_outputs (a ++ op) ep true r2 c1 c2) ph)
           (mk_state p e i (mk_outputs op ep true r2 (c1 ++ a) c2) ph)
  | out_end p i ep r2 c1 c2 ph :
      step (mk_state p true i (mk_outputs [] ep true r2 c1 c2) ph)
           (mk_state p true i (mk_outputs [] ep false r2 c1 c2) ph)
  | err_read p e i op a ep r1 c1 c2 ph : a <> [] -> length a <= buffer_size ->
      step (mk_state p e i (mk_outputs op (a ++ ep) r1 true c1 c2) ph)
           (mk_state p e i (mk_outputs op ep r1 true c1 (c2 ++ a)) ph)
  | err_end p i op r1 c1 c2 ph :
      step (mk_state p true i (mk_outputs op [] r1 true c1 c2) ph)
           (mk_state p true i (mk_outputs op [] r1 false c1 c2) ph).

  (** [n] steps *)
  Inductive steps : nat -> state -> state -> Prop :=
  | steps_none s : steps 0 s s
  | steps_more n s1 s2 s3 : steps n s1 s2 -> step s2 s3 -> steps (S n) s1 s3.
End Steps.
