(** C127: the integration test and the name of the source directory. *)

From Coq Require Import Ascii String Bool Arith.
From Coq Require Import List.
From Verif Require Import Str Path CmdModel MainModel JobModel IntegModel IntegSpec IntegProofs2 TrapSpec WhereSpec WhereProofs.
Import ListNotations.
Local Open Scope string_scope.
Local Open Scope list_scope.

(** The test that builds in a fresh directory passes only in a checkout called maike. *)
Theorem C127_out_of_tree : forall run env, programs_are_built run -> let r := script_run run install_and_rebuild_out_of_tree env in
  status_of r = 0 ->
  one_word (value_of (fst r) v_new) -> absolute (value_of (fst r) v_new) ->
  one_word (value_of (fst r) v_build) -> absolute (value_of (fst r) v_build) -> one_word (value_of (fst r) v_source) ->
  called (value_of (fst r) v_source) (lit "maike").
Proof. intros run env B r. exact (named_out_of_tree run B env). Qed.
Print Assumptions C127_out_of_tree.

(** So does the test that builds in the parent directory, unless a program is there already. *)
Theorem C127_rel_path : forall run env, programs_are_built run -> let r := script_run run install_and_rebuild_out_of_tree_rel_path env in
  status_of r = 0 ->
  one_word (value_of (fst r) v_new) -> absolute (value_of (fst r) v_new) ->
  one_word (value_of (fst r) (lit "pwd")) -> absolute (value_of (fst r) (lit "pwd")) -> one_word (value_of (fst r) v_source) ->
  called (value_of (fst r) v_source) (lit "maike").
Proof. intros run env B r. exact (named_rel_path run B env). Qed.
Print Assumptions C127_rel_path.

(** A machine on which every command works, and the programs that have been built are there, with
    the checkout in the directory here, whose last component is base *)
Definition path_dec (p q : path) : {p = q} + {p <> q}.
Proof. repeat decide equality. Defined.

Definition words_dec := list_eq_dec (list_eq_dec ascii_dec).

Definition built_by (t : str) (e : event) : bool :=
  match ran e with
  | [x; y] =>
      let m := firstn (length x - 11) x in
      let p := skipn 13 y in
      (if words_dec (ran e) [m ++ lit "/bin/maike2"; lit "--source-dir=" ++ p] then true else false) &&
      (if path_dec (target_of p) (parse_path t) then true else false)
  | _ => false
  end.

Definition with_target (h : list event) : bool :=
  existsb (fun e => existsb (fun x => if list_eq_dec ascii_dec (firstn 13 x) (lit "--target-dir=") then true else false) (ran e)) h.

Definition program_in (ws : list str) : option str :=
  match ws with
  | [x; v] =>
      let t := firstn (length x - 16) x in
      if words_dec ws [t ++ lit "/core/bin/maike2"; lit "--version"] then Some t else None
  | _ => None
  end.

Definition machine (here base : str) (h : list event) (ws : list str) (stdin : str) : nat * str :=
  match program_in ws with
  | Some t => if with_target h || existsb (built_by t) h then (0, []) else (127, [])
  | None =>
      if words_dec ws (w ["mktemp"; "-d"]) then (0, unlines [lit "/tmp/a"])
      else if words_dec ws (w ["pwd"]) then (0, unlines [here])
      else if words_dec ws [lit "basename"; here] then (0, unlines [base])
      else (0, [])
  end.

Lemma program_found t : program_in [t ++ lit "/core/bin/maike2"; lit "--version"] = Some t.
Proof.
  unfold program_in. rewrite app_length, Nat.add_sub, firstn_app, Nat.sub_diag, firstn_all, firstn_O, app_nil_r.
  destruct (words_dec _ _) as [_|N]; [reflexivity|now elim N].
Qed.

Lemma machine_builds here base : programs_are_built (machine here base).
Proof.
  intros h stdin t out R T. unfold machine in R. rewrite program_found in R.
  destruct (with_target h) eqn:W.
  - exfalso. apply existsb_exists in W as (e & I & W). apply existsb_exists in W as (x & J & W).
    destruct (list_eq_dec _ _ _) as [E|]; [|discriminate]. apply (T e x I J). exists (skipn 13 x). rewrite <- E. symmetry. apply firstn_skipn.
  - destruct (existsb (built_by t) h) eqn:X; [|discriminate]. apply existsb_exists in X as (e & I & X).
    unfold built_by in X. destruct (ran e) as [|x [|y [|]]] eqn:Q; try discriminate. apply andb_true_iff in X as (X1 & X2).
    destruct (words_dec _ _) as [E|]; [|discriminate]. destruct (path_dec _ _) as [P|]; [|discriminate].
    exists e, (firstn (length x - 11) x), (skipn 13 y). split; [exact I|]. split; [now rewrite Q|exact P].
Qed.

(** On such a machine all three tests pass in /home/maike; in /home/maike-2 only the one that gives
    the target directory. *)
Example where_maike : map (fun s => status_of (script_run (machine (lit "/home/maike") (lit "maike")) s (fun _ => [])))
  [install_and_rebuild_out_of_tree; install_and_rebuild_out_of_tree_rel_path; install_and_rebuild_out_of_tree_from_subpath] = [0; 0; 0].
Proof. vm_compute. reflexivity. Qed.

Example where_other : map (fun s => status_of (script_run (machine (lit "/home/maike-2") (lit "maike-2")) s (fun _ => [])))
  [install_and_rebuild_out_of_tree; install_and_rebuild_out_of_tree_rel_path; install_and_rebuild_out_of_tree_from_subpath] = [127; 127; 0].
Proof. vm_compute. reflexivity. Qed.

(** The result of the test does not depend on the name of the checkout: refuted, with the same
    machine otherwise. *)
Theorem C127_name_refuted : Forall (fun s => ~ forall dir base base',
    status_of (script_run (machine (dir ++ lit "/" ++ base) base) s (fun _ => [])) = status_of (script_run (machine (dir ++ lit "/" ++ base') base') s (fun _ => [])))
  [install_and_rebuild_out_of_tree; install_and_rebuild_out_of_tree_rel_path].
Proof.
  repeat constructor; intro H; specialize (H (lit "/home") (lit "maike") (lit "maike-2")); vm_compute in H; discriminate.
Qed.
Print Assumptions C127_name_refuted.

Example where_called : called (lit "/home/maike") (lit "maike") /\ ~ called (lit "/home/maike-2") (lit "maike") /\
  target_of (lit "/home/maike-2") = parse_path (lit "maike-2_targets") /\ target_of (lit ".") = parse_path (lit "__targets").
Proof. vm_compute. repeat split; discriminate. Qed.

Example where_machine : programs_are_built (machine (lit "/home/maike") (lit "maike")).
Proof. apply machine_builds. Qed.
