(** C126: what the integration test leaves behind. *)

From Coq Require Import Ascii String Bool Arith.
From Coq Require Import List.
From Verif Require Import Str IntegModel IntegSpec TrapModel TrapSpec TrapProofs TrapProofs2.
Import ListNotations.
Local Open Scope string_scope.
Local Open Scope list_scope.

(** Temporary directories are removed at the end, whichever command fails. *)
Theorem C126_temporary : Forall (fun s => forall run env start d, let r := script_run run s env in
    made_temporary (events (fst r)) d -> one_word d -> absolute d ->
    removes (working_directory start (events (fst r))) (at_end run s env) (meant [] d))
  [bootstrap_from_release; build_new_version; can_generate_working_bootstrap_script; check_release_tarball; install_and_rebuild;
   install_and_rebuild_out_of_tree_from_subpath; install_and_rebuild_out_of_tree_rel_path; main].
Proof.
  apply Forall_forall. intros s I run env start d r. apply tidy_removes. exact (proj1 (Forall_forall _ _) (tidy_all run) s I).
Qed.
Print Assumptions C126_temporary.

(** The remaining script makes two directories. The first is not removed if the second can not be
    made. *)
Theorem C126_out_of_tree_partial : forall run env start d, let r := script_run run install_and_rebuild_out_of_tree env in
  made_temporary (events (fst r)) d -> one_word d -> absolute d ->
  removes (working_directory start (events (fst r))) (at_end run install_and_rebuild_out_of_tree env) (meant [] d) \/
  exists e1 e2 e3, events (fst r) = [e1; e2; e3] /\ ran e3 = w ["mktemp"; "-d"] /\ result e3 <> 0 /\ status_of r = result e3.
Proof.
  intros run env start d r M O A. destruct (out_of_tree_temps run env d M O) as [(ws & E & I)|R]; [left|now right].
  exists ws, d. split; [exact E|]. split; [exact I|]. now apply meant_absolute.
Qed.
Print Assumptions C126_out_of_tree_partial.

Definition fails_at (p : list event -> list str -> bool) (h : list event) (ws : list str) (stdin : str) : nat * str :=
  if p h ws then (1, [])
  else if list_eq_dec (list_eq_dec ascii_dec) ws (w ["mktemp"; "-d"]) then (0, unlines [lit "/tmp/a"])
  else if list_eq_dec (list_eq_dec ascii_dec) ws (w ["pwd"]) then (0, unlines [lit "/home/maike"])
  else if list_eq_dec (list_eq_dec ascii_dec) ws (w ["basename"; "/home/maike"]) then (0, unlines [lit "maike"])
  else (0, []).

Definition home : place := [lit "home"; lit "maike"].

Lemma in_two (a b x : str) : In x [a; b] -> x = a \/ x = b.
Proof. intros [<-|[<-|[]]]; auto. Qed.

Theorem C126_second_refuted : ~ forall run env start d, let r := script_run run install_and_rebuild_out_of_tree env in
  made_temporary (events (fst r)) d -> one_word d -> absolute d ->
  removes (working_directory start (events (fst r))) (at_end run install_and_rebuild_out_of_tree env) (meant [] d).
Proof.
  intro H. specialize (H (fails_at (fun h _ => Nat.eqb (length h) 2)) (fun _ => []) home (lit "/tmp/a")).
  cbv zeta in H. destruct H as (ws & n & E & _).
  - eexists. split; [right; left; reflexivity|]. vm_compute. auto.
  - split; [discriminate|]. intros c I. repeat (destruct I as [<-|I]; [repeat split; discriminate|]). destruct I.
  - now exists (lit "tmp/a").
  - vm_compute in E. discriminate.
Qed.
Print Assumptions C126_second_refuted.

(** Directories with a relative name: those of install_and_rebuild.sh are always removed, *)
Theorem C126_targets : forall run env start d, let r := script_run run install_and_rebuild env in
  made_temporary (events (fst r)) d -> one_word d -> absolute d ->
  forall n, In n (w ["__targets_2"; "__targets_3"]) ->
  removes (working_directory start (events (fst r))) (at_end run install_and_rebuild env) (start ++ [n]).
Proof.
  intros run env start d r M O A n I. destruct (install_stays run env start d M O A) as (W & E). unfold r. rewrite W, E.
  exists (d :: w ["__targets_2"; "__targets_3"]), n. split; [reflexivity|]. split; [now right|]. destruct I as [<-|[<-|[]]]; reflexivity.
Qed.
Print Assumptions C126_targets.

(** and that of install_and_rebuild_out_of_tree_from_subpath.sh is removed if the script succeeds. *)
Theorem C126_subpath_partial : forall run env start, let r := script_run run install_and_rebuild_out_of_tree_from_subpath env in
  status_of r = 0 -> one_word (value_of (fst r) v_new) ->
  removes (working_directory start (events (fst r))) (at_end run install_and_rebuild_out_of_tree_from_subpath env) (start ++ [lit "temp_build_dir"]).
Proof. exact subpath_removed. Qed.
Print Assumptions C126_subpath_partial.

(** It may remain if the script fails, since it is looked for below itself then. The next time,
    the script fails at mkdir. *)
Theorem C126_subpath_refuted : ~ forall run env start l1 e l2, let r := script_run run install_and_rebuild_out_of_tree_from_subpath env in
  events (fst r) = l1 ++ e :: l2 -> ran e = w ["mkdir"; "temp_build_dir"] -> result e = 0 -> working_directory start l1 = start ->
  one_word (value_of (fst r) v_new) ->
  removes (working_directory start (events (fst r))) (at_end run install_and_rebuild_out_of_tree_from_subpath env) (start ++ [lit "temp_build_dir"]).
Proof.
  intro H. set (run := fails_at (fun h _ => Nat.eqb (length h) 5)).
  specialize (H run (fun _ => []) home
    (firstn 3 (events (fst (script_run run install_and_rebuild_out_of_tree_from_subpath (fun _ => [])))))
    (mk_event (w ["mkdir"; "temp_build_dir"]) [] 0 [] true)
    (skipn 4 (events (fst (script_run run install_and_rebuild_out_of_tree_from_subpath (fun _ => [])))))).
  cbv zeta in H. destruct H as (ws & n & E & I & M); try (vm_compute; reflexivity).
  - vm_compute. split; [discriminate|]. intros c I. repeat (destruct I as [<-|I]; [repeat split; discriminate|]). destruct I.
  - assert (Ew : ws = [lit "/tmp/a"; lit "temp_build_dir"]) by (vm_compute in E; vm_compute; congruence). rewrite Ew in I. apply in_two in I as [-> | ->]; vm_compute in M; discriminate.
Qed.
Print Assumptions C126_subpath_refuted.

(** The script install_and_rebuild_out_of_tree_rel_path.sh leaves maike_targets in the parent
    directory, even if it succeeds. *)
Theorem C126_parent_refuted : exists run env start l1 e l2, let r := script_run run install_and_rebuild_out_of_tree_rel_path env in
  status_of r = 0 /\ events (fst r) = l1 ++ e :: l2 /\ ran e = w ["maike_targets/core/bin/maike2"; "--version"] /\ result e = 0 /\
  working_directory start l1 = removelast start /\ (forall x, In x (events (fst r)) -> hd [] (ran x) <> lit "rm") /\
  forall p, removes (working_directory start (events (fst r))) (at_end run install_and_rebuild_out_of_tree_rel_path env) p ->
    ~ exists below, removelast start ++ [lit "maike_targets"] = p ++ below.
Proof.
  set (run := fails_at (fun _ _ => false)).
  exists run, (fun _ => []), home, (firstn 7 (events (fst (script_run run install_and_rebuild_out_of_tree_rel_path (fun _ => []))))),
    (mk_event (w ["maike_targets/core/bin/maike2"; "--version"]) [] 0 [] true),
    (skipn 8 (events (fst (script_run run install_and_rebuild_out_of_tree_rel_path (fun _ => []))))).
  cbv zeta. do 5 (split; [vm_compute; reflexivity|]). split.
  - intros x I. vm_compute in I. repeat (destruct I as [<-|I]; [vm_compute; discriminate|]). destruct I.
  - intros p (ws & n & E & I & M) (below & B). assert (Ew : ws = [lit "/tmp/a"]) by (vm_compute in E; vm_compute; congruence).
    rewrite Ew in I. destruct I as [<-|[]]. vm_compute in M. subst p. vm_compute in B. discriminate.
Qed.
Print Assumptions C126_parent_refuted.

Example trap_release : (status_of (script_run (fails_at (fun h _ => Nat.eqb (length h) 3)) bootstrap_from_release (fun _ => [])),
    at_end (fails_at (fun h _ => Nat.eqb (length h) 3)) bootstrap_from_release (fun _ => [])) =
  (1, Some (w ["rm"; "-rf"; "/tmp/a"])).
Proof. vm_compute. reflexivity. Qed.

Example trap_none : at_end (fails_at (fun h _ => Nat.eqb (length h) 1)) bootstrap_from_release (fun _ => []) = None.
Proof. vm_compute. reflexivity. Qed.

Example trap_subpath : (status_of (script_run (fails_at (fun h _ => Nat.eqb (length h) 5)) install_and_rebuild_out_of_tree_from_subpath (fun _ => [])),
    at_end (fails_at (fun h _ => Nat.eqb (length h) 5)) install_and_rebuild_out_of_tree_from_subpath (fun _ => []),
    working_directory home (events (fst (script_run (fails_at (fun h _ => Nat.eqb (length h) 5)) install_and_rebuild_out_of_tree_from_subpath (fun _ => []))))) =
  (1, Some (w ["rm"; "-rf"; "/tmp/a"; "temp_build_dir"]), home ++ [lit "temp_build_dir"]).
Proof. vm_compute. reflexivity. Qed.

Example trap_new_version : at_end (fails_at (fun _ _ => false)) build_new_version (fun _ => []) = None.
Proof. vm_compute. reflexivity. Qed.

Example trap_main : at_end (fails_at (fun _ _ => false)) main (fun _ => []) = Some (w ["rm"; "-rf"; "/tmp/a"]).
Proof. vm_compute. reflexivity. Qed.

Example trap_meant : map (meant home) [lit "/tmp/a"; lit "../x"; lit "./y/"; lit "a/b/.."] =
  [[lit "tmp"; lit "a"]; [lit "home"; lit "x"]; [lit "home"; lit "maike"; lit "y"]; [lit "home"; lit "maike"; lit "a"]].
Proof. vm_compute. reflexivity. Qed.
