(** Model of DirectoryScanner (core/source_tree_loader/directory_scanner.hpp and
    directory_scanner.cpp).

    As in SchedModel and PoolModel, everything that is done while a mutex is held is
    one step, and all interleavings are considered. What a task does without touching
    anything shared is part of the step that follows. Tasks that have been submitted
    are started in any order, which includes the order in which ThreadPool starts
    them (C12), and not more than [workers] of them are active at the same time. The
    file system does not change during a scan. *)

From Coq Require Import List Arith Bool.
From Verif Require Import Str Path SMap SchedModel.
Import ListNotations.

Section Scan.

(** What the loader delivers for a file *)
Variable Info : Type.

(** std::filesystem::is_directory. [None]: throws an exception *)
Variable is_directory : path -> option bool.

(** What directory_iterator visits, and whether an exception is thrown after that *)
Variable directory_entries : path -> list str * bool.

(** SourceFileLoaderDelegator::load (see LoadModel.v). [None]: throws an exception (derived from
    std::exception; for other ones, see LostModel.v) *)
Variable loads : path -> option Info.

(** InputFilter::match, for file names and for paths relative to the source directory *)
Variables filter_name filter_path : str -> bool.

Variable recursive : bool.
Variable root : path.
Variable workers : nat.

(** The task is processPath, directory_scanner.cpp:37-94, for the given path. *)
Inductive scan_task :=
| Queued (p : path)                                     (* submitted *)
| Looking (p : path)                                    (* line 44 *)
| Loading (p : path)                                    (* line 60 *)
| Inserting (p : path) (i : Info)                       (* line 62 *)
| Listing (p : path) (names : list str) (fails : bool)  (* lines 72-81, the names that remain *)
| Failing (p : path)                                    (* line 84 *)
| Ending (p : path).                                    (* the lock on the counter is released *)

(** The thread that calls takeResult, directory_scanner.hpp:74-79 *)
Inductive scan_main :=
| MainChecking                                          (* m_counter.wait evaluates the condition *)
| MainSleeping                                          (* blocked in m_counter.wait *)
| MainReturned (files : smap Info)
| MainThrew (errors : list path).

Record scan_state := mk_scan {
  scan_files : smap Info;          (* m_source_files *)
  scan_counter : nat;              (* m_counter *)
  scan_errors : list path;         (* m_errlog: here, the paths the messages stem from *)
  scan_tasks : list scan_task;
  scan_owner : scan_main;
  (* for stating properties only: the tasks submitted, and the calls to load so far *)
  scan_submitted : list path;
  scan_loaded : list path
}.

(** m_cv.notify_one(), signaling_counter.hpp:28-42. There is one thread that waits. *)
Definition scan_notify (m : scan_main) : scan_main :=
  match m with MainSleeping => MainChecking | _ => m end.

(** Lines 44-51. [None]: is_directory throws *)
Definition skipped (p : path) : option bool :=
  if path_eqb p root then Some false
  else
    let filtered := filter_name (filename p) || filter_path (path_string (lexically_relative p root)) in
    if recursive then Some filtered
    else match is_directory p with
         | None => None
         | Some d => Some (d || filtered)
         end.

(** Lines 70-80, after the insertion: the task continues with ... *)
Definition after_insert (p : path) : scan_task :=
  match is_directory (lexically_normal p) with
  | None => Failing p
  | Some true => let (names, fails) := directory_entries (lexically_normal p) in Listing p names fails
  | Some false => Ending p
  end.

Definition is_queued (t : scan_task) : bool := match t with Queued _ => true | _ => false end.

Definition active (ts : list scan_task) : nat := length (filter (fun t => negb (is_queued t)) ts).

Fixpoint remove_at {X} (n : nat) (l : list X) : list X :=
  match n, l with
  | _, [] => []
  | 0, _ :: l' => l'
  | S n', x :: l' => x :: remove_at n' l'
  end.

Definition scan_become (i : nat) (t : scan_task) (s : scan_state) : scan_state :=
  mk_scan (scan_files s) (scan_counter s) (scan_errors s) (update i t (scan_tasks s)) (scan_owner s) (scan_submitted s) (scan_loaded s).

(** One step of task number [i] *)
Definition scan_task_step (i : nat) (s : scan_state) : option scan_state :=
  match nth_error (scan_tasks s) i with
  | None => None
  | Some (Queued p) =>
      if Nat.ltb (active (scan_tasks s)) workers then Some (scan_become i (Looking p) s) else None
  | Some (Looking p) =>
      match skipped p with
      | None => Some (scan_become i (Failing p) s)
      | Some true => Some (scan_become i (Ending p) s)
      | Some false =>
          (* lines 53-58 *)
          match map_find (lexically_normal p) (scan_files s) with
          | Some _ => Some (scan_become i (Ending p) s)
          | None => Some (scan_become i (Loading p) s)
          end
      end
  | Some (Loading p) =>
      Some (mk_scan (scan_files s) (scan_counter s) (scan_errors s)
              (update i (match loads p with Some info => Inserting p info | None => Failing p end) (scan_tasks s))
              (scan_owner s) (scan_submitted s) (p :: scan_loaded s))
  | Some (Inserting p info) =>
      (* lines 62-70 *)
      let key := lexically_normal p in
      match map_find key (scan_files s) with
      | Some _ => Some (scan_become i (Ending p) s)
      | None =>
          Some (mk_scan (map_insert key info (scan_files s)) (scan_counter s) (scan_errors s)
                  (update i (after_insert p) (scan_tasks s)) (scan_owner s) (scan_submitted s) (scan_loaded s))
      end
  | Some (Listing p (name :: names) fails) =>
      let child := append (lexically_normal p) (mk_path false [name]) in
      Some (mk_scan (scan_files s) (S (scan_counter s)) (scan_errors s)
              (update i (Listing p names fails) (scan_tasks s) ++ [Queued child])
              (scan_notify (scan_owner s)) (child :: scan_submitted s) (scan_loaded s))
  | Some (Listing p [] fails) =>
      Some (scan_become i (if fails then Failing p else Ending p) s)
  | Some (Failing p) =>
      (* lines 86-92 *)
      Some (mk_scan (scan_files s) (scan_counter s) (p :: scan_errors s)
              (update i (Ending p) (scan_tasks s)) (scan_owner s) (scan_submitted s) (scan_loaded s))
  | Some (Ending _) =>
      Some (mk_scan (scan_files s) (pred (scan_counter s)) (scan_errors s)
              (remove_at i (scan_tasks s)) (scan_notify (scan_owner s)) (scan_submitted s) (scan_loaded s))
  end.

(** takeResult *)
Definition scan_main_step (s : scan_state) : option scan_state :=
  let become m := mk_scan (scan_files s) (scan_counter s) (scan_errors s) (scan_tasks s) m (scan_submitted s) (scan_loaded s) in
  match scan_owner s with
  | MainChecking =>
      if Nat.eqb (scan_counter s) 0 then
        match scan_errors s with
        | [] => Some (become (MainReturned (scan_files s)))
        | e => Some (become (MainThrew e))
        end
      else Some (become MainSleeping)
  | _ => None
  end.

Inductive scan_choice := TaskStep (i : nat) | MainStep | MainSpurious.

Definition scan_step (c : scan_choice) (s : scan_state) : option scan_state :=
  match c with
  | TaskStep i => scan_task_step i s
  | MainStep => scan_main_step s
  | MainSpurious =>
      match scan_owner s with
      | MainSleeping =>
          Some (mk_scan (scan_files s) (scan_counter s) (scan_errors s) (scan_tasks s) MainChecking (scan_submitted s) (scan_loaded s))
      | _ => None
      end
  end.

(** processPath, lines 9-27, and the call to takeResult *)
Definition scan_init : scan_state := mk_scan [] 1 [] [Queued root] MainChecking [root] [].

Fixpoint scan_run (cs : list scan_choice) (s : scan_state) : option scan_state :=
  match cs with
  | [] => Some s
  | c :: cs' =>
      match scan_step c s with
      | Some s' => scan_run cs' s'
      | None => None
      end
  end.

End Scan.

Arguments Queued {Info} p.
Arguments Looking {Info} p.
Arguments Loading {Info} p.
Arguments Inserting {Info} p i.
Arguments Listing {Info} p names fails.
Arguments Failing {Info} p.
Arguments Ending {Info} p.
Arguments MainChecking {Info}.
Arguments MainSleeping {Info}.
Arguments MainReturned {Info} files.
Arguments MainThrew {Info} errors.
Arguments scan_files {Info} s.
Arguments scan_counter {Info} s.
Arguments scan_errors {Info} s.
Arguments scan_tasks {Info} s.
Arguments scan_owner {Info} s.
Arguments scan_submitted {Info} s.
Arguments scan_loaded {Info} s.
