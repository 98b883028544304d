(** Vocabulary for statements about file descriptors. *)

From Coq Require Import List Arith.
From Verif Require Import FdModel.
Import ListNotations.

Definition ours (d : descriptor) : Prop := match object_of d with Other _ => False | _ => True end.

(** Other threads open and close files and pipes. They do not close what they have not opened.
    [may_close]: the descriptors they may close *)
Inductive others (may_close : nat -> Prop) (t : table) : table -> Prop :=
| other_open fd d : t fd = None -> ~ ours d -> others may_close t (set t fd (Some d))
| other_close fd d : t fd = Some d -> ~ ours d -> may_close fd -> others may_close t (set t fd None).

(** The states of a call, in a process that has the descriptors [t] when the call begins *)
Inductive reached (limit : nat) (may_close : nat -> Prop) (t : table) : call -> Prop :=
| reached_start : reached limit may_close t (call_start t)
| reached_step s fails s' : reached limit may_close t s -> call_step limit fails s = Some s' -> reached limit may_close t s'
| reached_others s t' : reached limit may_close t s -> others may_close (open_in s) t' ->
    reached limit may_close t (mk_call t' (pipes s) (at_place s)).

(** No other threads *)
Inductive alone (limit : nat) (t : table) : call -> Prop :=
| alone_start : alone limit t (call_start t)
| alone_step s fails s' : alone limit t s -> call_step limit fails s = Some s' -> alone limit t s'.

(** The standard streams of a tool are the pipes made for it. *)
Definition streams (t : table) : Prop :=
  t 0 = Some (mk_descriptor (ReadEnd StdinPipe) false) /\
  t 1 = Some (mk_descriptor (WriteEnd StdoutPipe) false) /\
  t 2 = Some (mk_descriptor (WriteEnd StderrPipe) false).

(** The tool started by a call that is about to create a process *)
Definition tool_of (s : call) : table :=
  tool (pipes s StdinPipe) (pipes s StdoutPipe) (pipes s StderrPipe) (pipes s ErrorPipe) (open_in s).

Definition child_of (s : call) : table * option nat :=
  child (pipes s StdinPipe) (pipes s StdoutPipe) (pipes s StderrPipe) (pipes s ErrorPipe) (open_in s).
