(** Vocabulary for running processes. *)

From Coq Require Import Ascii String ZArith Bool.
From Coq Require Import List.
From Verif Require Import Str ExecModel.
Import ListNotations.

(** What a process writes to its two outputs. *)
Fixpoint written_out (l : list action) : str :=
  match l with
  | [] => []
  | PutOut c :: l' => c :: written_out l'
  | _ :: l' => written_out l'
  end.

Fixpoint written_err (l : list action) : str :=
  match l with
  | [] => []
  | PutErr c :: l' => c :: written_err l'
  | _ :: l' => written_err l'
  end.

Definition returned (s : state) : Prop := caller s = Returned.

Definition reachable (capacity : nat) (actions : list action) (s : state) : Prop :=
  exists n, steps capacity n (start actions) s.

(** How the kernel encodes the end of a process (wait(2)): a process that called
    exit with [code], or was killed by a signal, possibly with a core dump. *)
Definition status_exited (code : Z) : Z := (code * 256)%Z.
Definition status_killed (signal : Z) (core : bool) : Z := (signal + if core then 128 else 0)%Z.
