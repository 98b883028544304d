(** Model of core/io: Fifo, OutputBuffer, and InputBuffer. *)

From Coq Require Import Arith Bool.
From Coq Require Import List.
Import ListNotations.

Section Io.

Context {A : Type}.

(** * Fifo *)

(** Members of Fifo, core/io/fifo.hpp lines 57-62. m_elems: an array and its size
    are one list. [ptr]: what is stored at and after r_read_ptr, up to the end of
    the array. A null or dangling r_read_ptr is []. *)
Record fifo := mk_fifo { elems : list (list A); left : nat; ptr : list A }.

(** Fifo(), lines 17-19 *)
Definition empty_fifo : fifo := mk_fifo [] 0 [].

(** The critical section in write, lines 25-27. stop, lines 30-33, writes []. *)
Definition push (f : fifo) (chunk : list A) : fifo := mk_fifo (elems f ++ [chunk]) (left f) (ptr f).

(** The critical section that starts read, lines 39-43. [None]: the condition to
    wait for does not hold. *)
Definition latch (f : fifo) : option fifo :=
  match elems f with
  | [] => None
  | c :: _ => Some (mk_fifo (elems f) (length c) c)
  end.

(** Lines 46-49 *)
Definition copy (f : fifo) (size : nat) : fifo * list A :=
  let n := Nat.min size (left f) in
  (mk_fifo (elems f) (left f - n) (skipn n (ptr f)), firstn n (ptr f)).

(** Lines 50-54. [None]: undefined behaviour, pop_front on an empty list. *)
Definition pop (f : fifo) : option fifo :=
  if Nat.eqb (left f) 0 then
    match elems f with
    | [] => None
    | _ :: es => Some (mk_fifo es (left f) (ptr f))
    end
  else Some f.

(** * One thread that writes, and one that reads *)

(** Where the reading thread is *)
Inductive reader :=
| Idle              (* before line 37 *)
| Asleep            (* in m_cv.wait, line 40, with the mutex released *)
| Copying           (* before line 45 *)
| Copied (data : list A)    (* before line 49 *)
| Done.             (* read returned zero *)

(** [todo]: arguments to the remaining calls to write. [got]: what has been returned
    by read so far. *)
Record system := mk_system { queue : fifo; todo : list (list A); pc : reader; got : list (list A) }.

Inductive choice := Write | Read | Spurious.

(** The reader calls read until it returns zero. [size k] is the size of the buffer
    in call number k. Each critical section is one step. Result [None]: this choice
    is not possible. [Some None]: undefined behaviour. *)
Definition step (size : nat -> nat) (c : choice) (s : system) : option (option system) :=
  match c with
  | Write =>
      match todo s with
      | [] => None
      | chunk :: rest =>
          (* line 27: notify_one *)
          let pc' := match pc s with Asleep => Idle | p => p end in
          Some (Some (mk_system (push (queue s) chunk) rest pc' (got s)))
      end
  | Spurious =>
      match pc s with
      | Asleep => Some (Some (mk_system (queue s) (todo s) Idle (got s)))
      | _ => None
      end
  | Read =>
      match pc s with
      | Idle =>
          if Nat.eqb (left (queue s)) 0 then
            match latch (queue s) with
            | None => Some (Some (mk_system (queue s) (todo s) Asleep (got s)))
            | Some f => Some (Some (mk_system f (todo s) Copying (got s)))
            end
          else Some (Some (mk_system (queue s) (todo s) Copying (got s)))
      | Asleep => None
      | Copying =>
          let (f, data) := copy (queue s) (size (length (got s))) in
          Some (Some (mk_system f (todo s) (Copied data) (got s)))
      | Copied data =>
          match pop (queue s) with
          | None => Some None
          | Some f =>
              Some (Some (mk_system f (todo s) (match data with [] => Done | _ => Idle end) (got s ++ [data])))
          end
      | Done => None
      end
  end.

Definition start (writes : list (list A)) : system := mk_system empty_fifo writes Idle [].

Fixpoint run (size : nat -> nat) (cs : list choice) (s : system) : option (option system) :=
  match cs with
  | [] => Some (Some s)
  | c :: cs' =>
      match step size c s with
      | Some (Some s') => run size cs' s'
      | r => r
      end
  end.

(** * OutputBuffer *)

(** putchar, core/io/output_buffer.hpp lines 23-29, and flush, lines 54-59. [buf] is
    the content of m_buffer in front of r_write_ptr. Result: what was passed to the
    sink, and the new content. *)
Definition putchar (capacity : nat) (buf : list A) (x : A) : list (list A) * list A :=
  if Nat.eqb (length buf) capacity then ([buf], [x]) else ([], buf ++ [x]).

Fixpoint put_all (capacity : nat) (buf : list A) (xs : list A) : list (list A) * list A :=
  match xs with
  | [] => ([], buf)
  | x :: xs' =>
      let (w, buf') := putchar capacity buf x in
      let (ws, buf'') := put_all capacity buf' xs' in (w ++ ws, buf'')
  end.

(** All calls to write from construction to the end of the destructor (lines 38-41) *)
Definition output_buffer (capacity : nat) (xs : list A) : list (list A) :=
  let (ws, buf) := put_all capacity [] xs in ws ++ [buf].

(** * InputBuffer *)

(** getchar, core/io/input_buffer.hpp lines 24-34, and fetchAndResetPtr, lines 46-52.
    [unread]: from r_read_ptr to r_read_end. [results]: what the following calls to
    read return ([None]: -1). It is not modelled how that depends on the size asked
    for. When there are no more results, the call does not return. *)
Inductive getchar_result := Char (x : A) | Eof | Blocked.

Definition getchar (unread : list A) (results : list (option (list A)))
  : getchar_result * list A * list (option (list A)) :=
  match unread with
  | x :: u => (Char x, u, results)
  | [] =>
      match results with
      | [] => (Blocked, [], [])
      | None :: rs => (Eof, [], rs)
      | Some [] :: rs => (Eof, [], rs)
      | Some (x :: u) :: rs => (Char x, u, rs)
      end
  end.

(** The loops in the source file loaders call getchar until it returns -1. The
    result is [None] if that never happens. [fuel]: an upper limit for the number of
    calls. *)
Fixpoint get_all (fuel : nat) (unread : list A) (results : list (option (list A))) : option (list A) :=
  match fuel with
  | 0 => None
  | S fuel' =>
      match getchar unread results with
      | (Char x, u, rs) => option_map (cons x) (get_all fuel' u rs)
      | (Eof, _, _) => Some []
      | (Blocked, _, _) => None
      end
  end.

End Io.

Arguments fifo : clear implicits.
Arguments system : clear implicits.
Arguments reader : clear implicits.
