(** Property C25: scanning the source directory. *)

From Coq Require Import Ascii String Bool Arith.
From Coq Require Import List.
From Verif Require Import Str Path SMap PathProofs LoadSpec ScanModel ScanSpec ScanProofs.
Import ListNotations.

(** C25. When the scan returns, there is nothing left to do, and the result contains
    every file and directory that belongs to the project, and nothing else. Each of
    them has been loaded exactly once. *)
Theorem C25_everything_is_loaded_once :
  forall (Info : Type) is_directory entries (loads : path -> option Info) filter_name filter_path recursive root workers,
    directory_ok (lexically_normal root) -> proper_entries entries ->
    let run := scan_run Info is_directory entries loads filter_name filter_path recursive root workers in
    let belongs := belongs Info is_directory entries loads filter_name filter_path recursive root in
    let faulty := faulty Info is_directory entries loads filter_name filter_path recursive root in
    forall cs s files, run cs (scan_init Info root) = Some s -> scan_owner s = MainReturned files ->
    scan_tasks s = [] /\ (forall p, ~ faulty p) /\
    sorted_map files /\
    (forall k i, In (k, i) files <-> exists p, belongs p /\ k = lexically_normal p /\ loads p = Some i) /\
    NoDup (scan_loaded s) /\ (forall p, In p (scan_loaded s) <-> belongs p).
Proof. exact scan_returns_all. Qed.
Print Assumptions C25_everything_is_loaded_once.

(** The scan throws only if something is wrong, and reports everything that is. *)
Theorem C25_errors_are_reported :
  forall (Info : Type) is_directory entries (loads : path -> option Info) filter_name filter_path recursive root workers,
    directory_ok (lexically_normal root) -> proper_entries entries ->
    let run := scan_run Info is_directory entries loads filter_name filter_path recursive root workers in
    let faulty := faulty Info is_directory entries loads filter_name filter_path recursive root in
    forall cs s errors, run cs (scan_init Info root) = Some s -> scan_owner s = MainThrew errors ->
    scan_tasks s = [] /\ errors <> [] /\ NoDup errors /\ forall p, In p errors <-> faulty p.
Proof. exact scan_reports_all. Qed.
Print Assumptions C25_errors_are_reported.

(** Until it has returned or thrown, the scan makes progress, ... *)
Theorem C25_not_stuck :
  forall (Info : Type) is_directory entries (loads : path -> option Info) filter_name filter_path recursive root workers,
    directory_ok (lexically_normal root) -> proper_entries entries ->
    let step := scan_step Info is_directory entries loads filter_name filter_path recursive root workers in
    let run := scan_run Info is_directory entries loads filter_name filter_path recursive root workers in
    forall cs s, 0 < workers -> run cs (scan_init Info root) = Some s ->
    (exists files, scan_owner s = MainReturned files) \/ (exists errors, scan_owner s = MainThrew errors) \/
    (exists i s', step (TaskStep i) s = Some s') \/ (exists s', scan_tasks s = [] /\ step MainStep s = Some s').
Proof. exact scan_not_stuck. Qed.
Print Assumptions C25_not_stuck.

(** ... and the workers come to an end if the tree is finite. *)
Theorem C25_terminates :
  forall (Info : Type) is_directory entries (loads : path -> option Info) filter_name filter_path recursive root workers,
    forall size, finite_tree entries size ->
    let run := scan_run Info is_directory entries loads filter_name filter_path recursive root workers in
    forall cs s, run cs (scan_init Info root) = Some s -> task_steps cs <= size root.
Proof. exact scan_terminates. Qed.
Print Assumptions C25_terminates.

(** * A concrete tree *)

Local Open Scope string_scope.
Local Open Scope list_scope.

Definition example_is_directory (p : path) : option bool :=
  Some (path_eqb p (parse_path (lit ".")) || path_eqb p (parse_path (lit "lib")) || path_eqb p (parse_path (lit "./lib")) ||
        path_eqb p (parse_path (lit "./doc")) || path_eqb p (parse_path (lit "doc"))).

Definition example_entries (p : path) : list str * bool :=
  if path_eqb p (parse_path (lit ".")) then ([lit "main.cpp"; lit "lib"; lit "doc"], false)
  else if path_eqb p (parse_path (lit "lib")) then ([lit "a.cpp"; lit "b.cpp"], false)
  else if path_eqb p (parse_path (lit "doc")) then ([lit "index.txt"], false)
  else ([], false).

Definition example_run (loads : path -> option nat) : list scan_choice -> option (scan_state nat) :=
  fun cs => scan_run nat example_is_directory example_entries loads (fun n => str_eqb n (lit "doc")) (fun _ => false)
                     true (parse_path (lit ".")) 2 cs (scan_init nat (parse_path (lit "."))).

Definition example_result (loads : path -> option nat) (cs : list scan_choice) : option (scan_main nat) :=
  option_map (@scan_owner nat) (example_run loads cs).

Definition one_worker : list scan_choice := repeat (TaskStep 0) 35 ++ [MainStep].

(** Two workers, with the thread that waits for them in between *)
Fixpoint take_turns (fuel k : nat) (s : scan_state nat) (loads : path -> option nat) : list scan_choice :=
  match fuel with
  | 0 => []
  | S fuel' =>
      let step c := scan_step nat example_is_directory example_entries loads (fun n => str_eqb n (lit "doc")) (fun _ => false)
                              true (parse_path (lit ".")) 2 c s in
      let candidates := [if Nat.eqb (k mod 3) 2 then MainStep else TaskStep (k mod 2); TaskStep 0; TaskStep 1; MainStep] in
      match find (fun c => match step c with Some _ => true | None => false end) candidates with
      | Some c => match step c with Some s' => c :: take_turns fuel' (S k) s' loads | None => [] end
      | None => []
      end
  end.

Example entries_are_proper : directory_ok (lexically_normal (parse_path (lit "."))) /\ proper_entries example_entries.
Proof.
  split; [left; reflexivity|]. intro dir. unfold example_entries.
  destruct (path_eqb dir (parse_path (lit "."))); [|destruct (path_eqb dir (parse_path (lit "lib"))); [|destruct (path_eqb dir (parse_path (lit "doc")))]];
    (split; [repeat constructor; try discriminate; simpl; intuition discriminate|repeat constructor; simpl; intuition discriminate]).
Qed.

Example scan_one_worker : example_result (fun p => Some (length (path_string p))) one_worker =
  Some (MainReturned [(parse_path (lit "."), 1); (parse_path (lit "lib"), 5); (parse_path (lit "lib/a.cpp"), 9);
                      (parse_path (lit "lib/b.cpp"), 9); (parse_path (lit "main.cpp"), 10)]).
Proof. vm_compute. reflexivity. Qed.

Example scan_errors : example_result (fun p => if str_eqb (filename p) (lit "b.cpp") then None else Some 0) one_worker =
  Some (MainThrew [parse_path (lit "lib/b.cpp")]).
Proof. vm_compute. reflexivity. Qed.

Example scan_two_workers :
  let loads := fun p => Some (length (path_string p)) in
  example_result loads (take_turns 200 0 (scan_init nat (parse_path (lit "."))) loads) = example_result loads one_worker.
Proof. vm_compute. reflexivity. Qed.

Definition example_size (p : path) : nat :=
  if path_eqb (lexically_normal p) (parse_path (lit ".")) then 80
  else if path_eqb (lexically_normal p) (parse_path (lit "lib")) then 26
  else if path_eqb (lexically_normal p) (parse_path (lit "doc")) then 17
  else 8.

Example tree_is_finite : finite_tree example_entries example_size.
Proof.
  intro p. unfold example_size at 2. unfold example_entries.
  destruct (path_eqb (lexically_normal p) (parse_path (lit "."))) eqn:E1.
  - apply path_eqb_eq in E1. rewrite E1. vm_compute. repeat constructor.
  - destruct (path_eqb (lexically_normal p) (parse_path (lit "lib"))) eqn:E2.
    + apply path_eqb_eq in E2. rewrite E2. vm_compute. repeat constructor.
    + destruct (path_eqb (lexically_normal p) (parse_path (lit "doc"))) eqn:E3.
      * apply path_eqb_eq in E3. rewrite E3. vm_compute. repeat constructor.
      * vm_compute. repeat constructor.
Qed.
