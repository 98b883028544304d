(** Vocabulary for statements about the compilation log as a whole. *)

From Coq Require Import List.
From Verif Require Import Str ValueModel BuildModel LogModel SchedModel SchedSpec WriteModel.
Import ListNotations.

Section Records.
  Variable level : log_level.
  Variable info : nat -> task_info.
  Variable result : nat -> run_result.

  (** The record of a task: its part on stdout, and on stderr. *)
  Definition out_record (v : nat) : str :=
    match result v with
    | Raised => []
    | Skipped => log_skipped level (info v)
    | Executed status out err => fst (log_result level (info v) status out err)
    end.

  Definition err_record (v : nat) : str :=
    match result v with
    | Executed status out err => snd (log_result level (info v) status out err)
    | Raised | Skipped => []
    end.
End Records.

(** [order] lists what a task waits for before the task. *)
Definition dependencies_first (reads : nat -> list nat) (tasks order : list nat) : Prop :=
  forall l1 v l2, order = l1 ++ v :: l2 -> forall d, In d (reads v) -> In d tasks -> In d l1.

(** The texts written so far are complete records of the tasks in [order], and the
    beginning of at most one more. *)
Definition whole_records (level : log_level) (info : nat -> task_info) (result : nat -> run_result)
           (order : list nat) (out err : str) : Prop :=
  exists out_part err_part,
    out = concat (map (out_record level info result) order) ++ out_part /\
    err = concat (map (err_record level info result) order) ++ err_part /\
    ((out_part = [] /\ err_part = []) \/
     exists v out_rest err_rest, ~ In v order /\
       out_record level info result v = out_part ++ out_rest /\
       err_record level info result v = err_part ++ err_rest /\
       (err_part = [] \/ out_rest = [])).

(** Whatever the threads do, the build ends: as long as it has not, some thread can
    make a step, and this cannot go on forever. *)
Inductive build_ends (reads : nat -> list nat) (level : log_level) (info : nat -> task_info)
          (result : nat -> run_result) (tasks : list nat) (F : state * log_state) : Prop :=
| build_ends_now : final (ph (fst F)) -> build_ends reads level info result tasks F
| build_ends_later :
    (exists c l F', match c with ByPool c' => proper c' | ByLog _ => True end /\
                    full_step reads level info result c F = Some (l, F')) ->
    (forall c l F', match c with ByPool c' => proper c' | ByLog _ => True end ->
                    full_step reads level info result c F = Some (l, F') ->
                    build_ends reads level info result tasks F') ->
    build_ends reads level info result tasks F.
