(** Vocabulary for what is left by the integration test. *)

From Coq Require Import Ascii String Bool Arith.
From Coq Require Import List.
From Verif Require Import Str IntegModel IntegSpec.
Import ListNotations.
Local Open Scope string_scope.
Local Open Scope list_scope.

(** A directory, by the names on the way to it from the root *)
Definition place := list str.

Fixpoint components (s cur : str) : list str :=
  match s with
  | [] => [cur]
  | c :: s' => if Ascii.eqb c "/"%char then cur :: components s' [] else components s' (cur ++ [c])
  end.

Definition enter (d : place) (n : str) : place :=
  if str_eqb n [] || str_eqb n (lit ".") then d
  else if str_eqb n (lit "..") then removelast d else d ++ [n].

Definition absolute (s : str) : Prop := exists s', s = "/"%char :: s'.

(** What is meant by a name in a directory. There are no symbolic links. *)
Definition meant (d : place) (s : str) : place :=
  fold_left enter (components s []) (match s with "/"%char :: _ => [] | _ => d end).

(** The working directory after commands have been run *)
Definition moved (d : place) (e : event) : place :=
  match ran e with
  | [c; n] => if str_eqb c (lit "cd") && Nat.eqb (result e) 0 then meant d n else d
  | _ => d
  end.
Definition working_directory (start : place) (evs : list event) : place := fold_left moved evs start.

(** A temporary directory has been made. *)
Definition made_temporary (evs : list event) (d : str) : Prop :=
  exists e, In e evs /\ ran e = w ["mktemp"; "-d"] /\ result e = 0 /\ output e = unlines [d].

(** The command rm -rf in a directory removes what is at a place. *)
Definition removes (dir : place) (command : option (list str)) (p : place) : Prop :=
  exists ws n, command = Some (w ["rm"; "-rf"] ++ ws) /\ In n ws /\ meant dir n = p.
