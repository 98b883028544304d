(** Model of DirectoryScanner (core/source_tree_loader/directory_scanner.cpp) for the case that
    loading a file throws something that is not derived from std::exception. In order to run a
    recipe, pipes are made. If that is not possible, a character string is thrown
    (core/exec/execve.cpp:30), and that is not caught by directory_scanner.cpp:84.

    Everything else is as in ScanModel.v. *)

From Coq Require Import List Arith Bool ZArith.
From Verif Require Import Str Path SMap SchedModel ScanModel.
Import ListNotations.

(** SourceFileLoaderDelegator::load *)
Inductive outcome (Info : Type) :=
| Loaded (i : Info)
| ThrowsError               (* something derived from std::exception *)
| ThrowsText.               (* the string from execve.cpp:30 *)

Arguments Loaded {Info} i.
Arguments ThrowsError {Info}.
Arguments ThrowsText {Info}.

Section Lost.

Variable Info : Type.
Variable is_directory : path -> option bool.
Variable directory_entries : path -> list str * bool.
Variable load : path -> outcome Info.
Variables filter_name filter_path : str -> bool.
Variable recursive : bool.
Variable root : path.
Variable workers : nat.

(** As seen by ScanModel.v *)
Definition loads (p : path) : option Info := match load p with Loaded i => Some i | _ => None end.

Record lost_state := mk_lost {
  lost_scan : scan_state Info;
  lost_thrown : list path;     (* the files, the strings for which have been thrown, but not yet caught *)
  lost_kept : list path        (* those caught by the thread pool, the oldest one first. The pool
                                  stores the oldest one only (thread_pool.hpp:118-122). *)
}.

Inductive lost_choice :=
| Scan (c : scan_choice)
| Catch (i : nat).             (* thread_pool.hpp:118-122, for the string with number [i] *)

(** directory_scanner.cpp:60. The stack is unwound: the lock on the counter is released (the
    task becomes [Ending]), since it is a parameter of processPath. Only after that, the string
    is caught by the pool. *)
Definition throw_text (i : nat) (p : path) (st : lost_state) : lost_state :=
  let s := lost_scan st in
  mk_lost (mk_scan Info (scan_files s) (scan_counter s) (scan_errors s)
             (update i (Ending p) (scan_tasks s)) (scan_owner s) (scan_submitted s) (p :: scan_loaded s))
          (p :: lost_thrown st) (lost_kept st).

Definition ends (p : path) (t : scan_task Info) : bool := match t with Ending q => path_eqb p q | _ => false end.

(** The task may be counted as active for a shorter time than its thread is occupied, so there
    are more orders of events here than there are in the program. *)
Definition lost_step (c : lost_choice) (st : lost_state) : option lost_state :=
  let s := lost_scan st in
  let other c := option_map (fun s' => mk_lost s' (lost_thrown st) (lost_kept st))
    (scan_step Info is_directory directory_entries loads filter_name filter_path recursive root workers c s) in
  match c with
  | Scan (TaskStep i) =>
      match nth_error (scan_tasks s) i with
      | Some (Loading p) => match load p with ThrowsText => Some (throw_text i p st) | _ => other (TaskStep i) end
      | _ => other (TaskStep i)
      end
  | Scan c => other c
  | Catch i =>
      match nth_error (lost_thrown st) i with
      | Some p =>
          if existsb (ends p) (scan_tasks s) then None
          else Some (mk_lost s (remove_at i (lost_thrown st)) (lost_kept st ++ [p]))
      | None => None
      end
  end.

Fixpoint lost_run (cs : list lost_choice) (st : lost_state) : option lost_state :=
  match cs with
  | [] => Some st
  | c :: cs' => match lost_step c st with Some st' => lost_run cs' st' | None => None end
  end.

Definition lost_init : lost_state := mk_lost (scan_init Info root) [] [].

(** ** What the program does afterwards *)

(** An exception *)
Inductive thrown := Error | Text.

(** How the program ends: with a status, or std::terminate is called *)
Inductive ending := Status (n : nat) | Terminated.

(** core/bin/maike.cpp:407-411: nothing but std::exception is caught *)
Definition caught_by_main (e : option thrown) : ending :=
  match e with None => Status 0 | Some Error => Status 255 | Some Text => Terminated end.

(** What main does with the source tree: it prints the targets or the dependency graph
    (maike.cpp:359-371), or it compiles (maike.cpp:373-405) *)
Inductive job := Show | Compile.

(** - [before]: what is thrown between the scan and the start of the tasks, for example since a
      target is not found
    - [later]: what the pool catches after that, until core/db/task_list.cpp:122

    When the tasks are done, the oldest exception is thrown (task_list.cpp:124). *)
Definition main_ending (j : job) (before : option thrown) (later : list thrown) (st : lost_state) : option ending :=
  match scan_owner (lost_scan st) with
  | MainThrew _ => Some (Status 255)
  | MainReturned _ =>
      match before, j with
      | Some e, _ => Some (caught_by_main (Some e))
      | None, Show => Some (Status 0)
      | None, Compile => Some (caught_by_main (hd_error (map (fun _ => Text) (lost_kept st) ++ later)))
      end
  | _ => None
  end.

End Lost.

Arguments mk_lost {Info} _ _ _.
Arguments lost_scan {Info} _.
Arguments lost_thrown {Info} _.
Arguments lost_kept {Info} _.
Arguments main_ending {Info} j before later st.
