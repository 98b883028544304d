(** Vocabulary for ownership. *)

From Coq Require Import List.
From Verif Require Import OwnModel.
Import ListNotations.

(** Resources are used and released only while they exist. *)
Definition sound (h : list event) : Prop :=
  forall before e after, h = before ++ e :: after ->
    match e with
    | Acquire r => ~ In (Acquire r) before
    | Release r | Use r => In (Acquire r) before /\ ~ In (Release r) before
    end.

(** Everything has been released. *)
Definition all_released (h : list event) : Prop := forall r, In (Acquire r) h -> In (Release r) h.
