(** Property C119: files that get lost when there are no resources to load them. *)

From Coq Require Import Ascii String Bool Arith.
From Coq Require Import List.
From Verif Require Import Str Path SMap PathProofs LoadSpec ScanModel ScanSpec LostModel LostSpec LostProofs.
Import ListNotations.

(** C119. When the scan returns, the files for which a string has been thrown are left out of
    the result, and nothing else is. There are no other faults. All files that belong to the
    project have been tried exactly once. *)
Theorem C119_returned :
  forall (Info : Type) is_directory entries (load : path -> outcome Info) filter_name filter_path recursive root workers,
    directory_ok (lexically_normal root) -> proper_entries entries ->
    let run := lost_run Info is_directory entries load filter_name filter_path recursive root workers in
    let belongs := belongs Info is_directory entries (loads Info load) filter_name filter_path recursive root in
    let faulty := faulty Info is_directory entries (loads Info load) filter_name filter_path recursive root in
    forall cs st files, run cs (lost_init Info root) = Some st -> scan_owner (lost_scan st) = MainReturned files ->
    let lost := lost_thrown st ++ lost_kept st in
    scan_tasks (lost_scan st) = [] /\
    (NoDup lost /\ forall p, In p lost <-> belongs p /\ load p = ThrowsText) /\
    (forall p, faulty p -> In p lost) /\
    (sorted_map files /\ forall k i, In (k, i) files <-> exists p, belongs p /\ k = lexically_normal p /\ load p = Loaded i) /\
    NoDup (scan_loaded (lost_scan st)) /\ (forall p, In p (scan_loaded (lost_scan st)) <-> belongs p).
Proof. exact lost_returned. Qed.
Print Assumptions C119_returned.

(** If the scan throws, all faults are reported, except for these files. *)
Theorem C119_threw :
  forall (Info : Type) is_directory entries (load : path -> outcome Info) filter_name filter_path recursive root workers,
    directory_ok (lexically_normal root) -> proper_entries entries ->
    let run := lost_run Info is_directory entries load filter_name filter_path recursive root workers in
    let belongs := belongs Info is_directory entries (loads Info load) filter_name filter_path recursive root in
    let faulty := faulty Info is_directory entries (loads Info load) filter_name filter_path recursive root in
    forall cs st errors, run cs (lost_init Info root) = Some st -> scan_owner (lost_scan st) = MainThrew errors ->
    scan_tasks (lost_scan st) = [] /\ errors <> [] /\ NoDup errors /\
    forall p, In p errors <-> faulty p /\ ~ (belongs p /\ load p = ThrowsText).
Proof. exact lost_threw. Qed.
Print Assumptions C119_threw.

(** A file that gets lost does not keep the scan from coming to an end. *)
Theorem C119_not_stuck :
  forall (Info : Type) is_directory entries (load : path -> outcome Info) filter_name filter_path recursive root workers,
    directory_ok (lexically_normal root) -> proper_entries entries ->
    let step := lost_step Info is_directory entries load filter_name filter_path recursive root workers in
    let run := lost_run Info is_directory entries load filter_name filter_path recursive root workers in
    forall cs st, 0 < workers -> run cs (lost_init Info root) = Some st ->
    (exists files, scan_owner (lost_scan st) = MainReturned files) \/ (exists errors, scan_owner (lost_scan st) = MainThrew errors) \/
    (exists i st', step (Scan (TaskStep i)) st = Some st') \/
    (exists st', scan_tasks (lost_scan st) = [] /\ step (Scan MainStep) st = Some st').
Proof. exact lost_not_stuck. Qed.
Print Assumptions C119_not_stuck.

Theorem C119_terminates :
  forall (Info : Type) is_directory entries (load : path -> outcome Info) filter_name filter_path recursive root workers,
    directory_ok (lexically_normal root) -> proper_entries entries ->
    let run := lost_run Info is_directory entries load filter_name filter_path recursive root workers in
    forall size cs st, finite_tree entries size -> run cs (lost_init Info root) = Some st -> lost_steps cs <= size root.
Proof. exact lost_terminates. Qed.
Print Assumptions C119_terminates.

(** If the program compiles, ends with status 0, and the strings thrown have been caught before it
    asked for exceptions, then all files that belong to the project have been loaded. *)
Theorem C119_status :
  forall (Info : Type) is_directory entries (load : path -> outcome Info) filter_name filter_path recursive root workers,
    directory_ok (lexically_normal root) -> proper_entries entries ->
    let run := lost_run Info is_directory entries load filter_name filter_path recursive root workers in
    let belongs := belongs Info is_directory entries (loads Info load) filter_name filter_path recursive root in
    forall cs st before later, run cs (lost_init Info root) = Some st ->
    main_ending Compile before later st = Some (Status 0) -> in_time later st ->
    exists files, scan_owner (lost_scan st) = MainReturned files /\
    forall p, belongs p -> exists i, load p = Loaded i /\ In (lexically_normal p, i) files.
Proof.
  intros. destruct (scan_owner (lost_scan st)) as [| |f|e] eqn:O.
  all: try (unfold main_ending in *; rewrite O in *; discriminate).
  exists f. split; [reflexivity|]. eapply lost_status; eassumption.
Qed.
Print Assumptions C119_status.

(** * A directory with two files. There are no pipes left when the second one is loaded. *)

Local Open Scope string_scope.
Local Open Scope list_scope.

Definition here := parse_path (lit ".").
Definition file_a := parse_path (lit "a.cpp").
Definition file_b := parse_path (lit "./b.cpp").

Definition two_is_directory (p : path) : option bool := Some (path_eqb p here).
Definition two_entries (p : path) : list str * bool :=
  if path_eqb p here then ([lit "a.cpp"; lit "b.cpp"], false) else ([], false).
Definition two_load (p : path) : outcome nat :=
  if str_eqb (filename p) (lit "b.cpp") then ThrowsText else Loaded (length (path_string p)).

Definition two_run (load : path -> outcome nat) (cs : list lost_choice) : option (lost_state nat) :=
  lost_run nat two_is_directory two_entries load (fun _ => false) (fun _ => false) true here 2 cs (lost_init nat here).

Notation W i := (Scan (TaskStep i)).

(** One worker: the directory, [a.cpp], and [b.cpp] *)
Definition first_steps : list lost_choice := repeat (W 0) 8 ++ repeat (W 0) 5 ++ repeat (W 0) 4.
Definition kept_run : list lost_choice := first_steps ++ [Catch 0; Scan MainStep].
Definition late_run : list lost_choice := first_steps ++ [Scan MainStep].

Definition summary (st : option (lost_state nat)) : option (scan_main nat * list path * list path * list path) :=
  option_map (fun st => (scan_owner (lost_scan st), lost_thrown st, lost_kept st, scan_errors (lost_scan st))) st.

Example two_kept : summary (two_run two_load kept_run) = Some (MainReturned [(here, 1); (file_a, 7)], [], [file_b], []).
Proof. vm_compute. reflexivity. Qed.

Example two_late : summary (two_run two_load late_run) = Some (MainReturned [(here, 1); (file_a, 7)], [file_b], [], []).
Proof. vm_compute. reflexivity. Qed.

(** The string is not caught before the counter has been released. *)
Example two_early : summary (two_run two_load (repeat (W 0) 16)) = Some (MainChecking, [file_b], [], []) /\
  two_run two_load (repeat (W 0) 16 ++ [Catch 0]) = None.
Proof. split; vm_compute; reflexivity. Qed.

(** Something derived from std::exception is reported. *)
Example two_error :
  summary (two_run (fun p => if str_eqb (filename p) (lit "b.cpp") then ThrowsError else Loaded 0) (repeat (W 0) 18 ++ [Scan MainStep])) =
    Some (MainThrew [file_b], [], [], [file_b]).
Proof. vm_compute. reflexivity. Qed.

Example two_proper : directory_ok (lexically_normal here) /\ proper_entries two_entries.
Proof.
  split; [left; reflexivity|]. intro dir. unfold two_entries. destruct (path_eqb dir here);
    (split; [repeat constructor; try discriminate; simpl; intuition discriminate|repeat constructor; simpl; intuition discriminate]).
Qed.

Definition two_belongs := belongs nat two_is_directory two_entries (loads nat two_load) (fun _ => false) (fun _ => false) true here.

Lemma b_belongs : two_belongs file_b.
Proof.
  assert (N : forall p, ~ ignored two_is_directory (fun _ => false) (fun _ => false) true here p).
  { intros p (_ & [X | [X | (X & _)]]); discriminate. }
  assert (U : forall p, ~ unreadable two_is_directory true here p) by (intros p (_ & X & _); discriminate).
  split; [|split; [apply N|apply U]].
  refine (found_entry nat two_is_directory two_entries (loads nat two_load) (fun _ => false) (fun _ => false) true here
    here 1 (lit "b.cpp") _ _ _ _ _ _); [constructor|apply N|apply U|reflexivity|reflexivity|right; left; reflexivity].
Qed.

(** Asked for the targets or the graph, the program may succeed although files are missing. *)
Theorem C119_listing_refuted :
  exists cs st files, two_run two_load cs = Some st /\ scan_owner (lost_scan st) = MainReturned files /\
    main_ending Show None [] st = Some (Status 0) /\
    two_belongs file_b /\ forall i, ~ In (lexically_normal file_b, i) files.
Proof.
  exists kept_run. eexists. eexists. split; [vm_compute; reflexivity|]. split; [reflexivity|]. split; [reflexivity|]. split; [exact b_belongs|].
  intros i [X | [X | X]]; [discriminate|discriminate|destruct X].
Qed.
Print Assumptions C119_listing_refuted.

(** So it may when it compiles: the string is caught too late. *)
Theorem C119_late_refuted :
  exists cs st files, two_run two_load cs = Some st /\ scan_owner (lost_scan st) = MainReturned files /\
    main_ending Compile None [] st = Some (Status 0) /\
    two_belongs file_b /\ forall i, ~ In (lexically_normal file_b, i) files.
Proof.
  exists late_run. eexists. eexists. split; [vm_compute; reflexivity|]. split; [reflexivity|]. split; [reflexivity|]. split; [exact b_belongs|].
  intros i [X | [X | X]]; [discriminate|discriminate|destruct X].
Qed.
Print Assumptions C119_late_refuted.

(** The reason for the failure is not told: the program is terminated after all tasks have
    succeeded. *)
Theorem C119_reason_refuted :
  exists cs st, two_run two_load cs = Some st /\ scan_errors (lost_scan st) = [] /\ lost_kept st <> [] /\
    main_ending Compile None [] st = Some Terminated.
Proof.
  exists kept_run. eexists. split; [vm_compute; reflexivity|]. split; [reflexivity|]. split; [discriminate|reflexivity].
Qed.
Print Assumptions C119_reason_refuted.
