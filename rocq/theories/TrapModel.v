(** Model of what the scripts of the integration test do when they end: trap "command" EXIT in
    integration_test/*.sh. The scripts, and the part of bash without traps, are in IntegModel.v. *)

From Coq Require Import Ascii String Bool Arith.
From Coq Require Import List.
From Verif Require Import Str IntegModel.
Import ListNotations.

Section Run.
  Variable run : list event -> list str -> str -> nat * str.

  (** The command that is run when the script ends, given the one that has been set before. The
      words are those at the time of the trap command, since they are in double quotes there: names
      must not contain characters that are special to the shell, except for white space. The status
      of the script is not changed by the command. Each case follows [exec]. *)
  Fixpoint trapped (s : script) (sh : shell) (t : option (list str)) : option (list str) :=
    match s with
    | End => t
    | Cmd ws k =>
        let '(evs, st, _) := run_one run true (value_of sh) (events sh) ws [] in
        if Nat.eqb st 0 then trapped k (mk_shell (value_of sh) evs (exit_status sh)) t else t
    | Let v pl k =>
        let '(evs, st, out) := run_pipeline run (value_of sh) (events sh) pl [] in
        if Nat.eqb st 0 then trapped k (mk_shell (set_value (value_of sh) v (substituted out)) evs (exit_status sh)) t else t
    | LetIgnored v ws k =>
        let '(evs, _, out) := run_one run false (value_of sh) (events sh) ws [] in
        trapped k (mk_shell (set_value (value_of sh) v (substituted out)) evs (exit_status sh)) t
    | Is v w k => trapped k (mk_shell (set_value (value_of sh) v (assigned (value_of sh) w)) (events sh) (exit_status sh)) t
    | Or ws k =>
        let '(evs, st, _) := run_one run true (value_of sh) (events sh) ws [] in
        trapped k (mk_shell (value_of sh) evs (if Nat.eqb st 0 then exit_status sh else st)) t
    | Trap ws k => trapped k sh (Some (expand (value_of sh) ws))
    | IfEqual a b yes no k =>
        let t' := trapped (if str_eqb (value_of sh a) (value_of sh b) then yes else no) sh t in
        match exec run (if str_eqb (value_of sh a) (value_of sh b) then yes else no) sh with
        | (sh', None) => trapped k sh' t'
        | _ => t'
        end
    | Exit _ _ => t
    | ExitStatus => t
    end.

  (** The command that is run at the end of a script, if there is one *)
  Definition at_end (s : script) (env : str -> str) : option (list str) := trapped s (mk_shell env [] 0) None.
End Run.
