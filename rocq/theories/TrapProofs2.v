(** More proofs about what is left by the integration test: directories with relative names. *)

From Coq Require Import Ascii String Bool Arith Lia.
From Coq Require Import List.
From Verif Require Import Str PathProofs IntegModel IntegSpec IntegProofs IntegProofs2 TrapModel TrapSpec TrapProofs.
Import ListNotations.
Local Open Scope string_scope.
Local Open Scope list_scope.

Lemma meant_below d : meant d (lit "temp_build_dir") = d ++ [lit "temp_build_dir"].
Proof. reflexivity. Qed.

Lemma meant_up d : meant d (lit "..") = removelast d.
Proof. reflexivity. Qed.

Section Run.
Variable run : list event -> list str -> str -> nat * str.

Lemma e_cmd ws k sh : exec run (Cmd ws k) sh = let (n, o) := run (events sh) (expand (value_of sh) ws) [] in
  if Nat.eqb n 0 then exec run k (mk_shell (value_of sh) (events sh ++ [mk_event (expand (value_of sh) ws) [] n o true]) (exit_status sh))
  else (mk_shell (value_of sh) (events sh ++ [mk_event (expand (value_of sh) ws) [] n o true]) (exit_status sh), Some n).
Proof. cbn [exec]. unfold run_one. now destruct (run _ _ _). Qed.

Lemma t_cmd ws k sh t : trapped run (Cmd ws k) sh t = let (n, o) := run (events sh) (expand (value_of sh) ws) [] in
  if Nat.eqb n 0 then trapped run k (mk_shell (value_of sh) (events sh ++ [mk_event (expand (value_of sh) ws) [] n o true]) (exit_status sh)) t else t.
Proof. cbn [trapped]. unfold run_one. now destruct (run _ _ _). Qed.

Lemma e_let v ws k sh : exec run (Let v [ws] k) sh = let (n, o) := run (events sh) (expand (value_of sh) ws) [] in
  if Nat.eqb n 0 then exec run k (mk_shell (set_value (value_of sh) v (substituted o)) (events sh ++ [mk_event (expand (value_of sh) ws) [] n o true]) (exit_status sh))
  else (mk_shell (set_value (value_of sh) v (substituted o)) (events sh ++ [mk_event (expand (value_of sh) ws) [] n o true]) (exit_status sh), Some n).
Proof. cbn [exec run_pipeline]. unfold run_one. now destruct (run _ _ _). Qed.

Lemma t_let v ws k sh t : trapped run (Let v [ws] k) sh t = let (n, o) := run (events sh) (expand (value_of sh) ws) [] in
  if Nat.eqb n 0 then trapped run k (mk_shell (set_value (value_of sh) v (substituted o)) (events sh ++ [mk_event (expand (value_of sh) ws) [] n o true]) (exit_status sh)) t else t.
Proof. cbn [trapped run_pipeline]. unfold run_one. now destruct (run _ _ _). Qed.

Lemma e_trap ws k sh : exec run (Trap ws k) sh = exec run k sh.
Proof. reflexivity. Qed.

Lemma t_trap ws k sh t : trapped run (Trap ws k) sh t = trapped run k sh (Some (expand (value_of sh) ws)).
Proof. reflexivity. Qed.

Lemma t_is v x k sh t : trapped run (Is v x k) sh t = trapped run k (mk_shell (set_value (value_of sh) v (assigned (value_of sh) x)) (events sh) (exit_status sh)) t.
Proof. reflexivity. Qed.

Ltac go s := intros Z; let sh := fresh "sh" in let r := fresh "r" in destruct (start _ _ _ Z) as (sh & r & H & F0 & ->); clear Z; unfold s in H; assert (F : ok sh r) by (left; exact F0); clear F0;
  repeat (step H F || (cbn [exec value_of events exit_status] in H)).

Theorem subpath_removed env start : let r := script_run run install_and_rebuild_out_of_tree_from_subpath env in
  status_of r = 0 -> one_word (value_of (fst r) v_new) ->
  removes (working_directory start (events (fst r))) (at_end run install_and_rebuild_out_of_tree_from_subpath env) (start ++ [lit "temp_build_dir"]).
Proof.
  cbv zeta. intro Z. pose proof (did_subpath run env (value_of (fst (script_run run install_and_rebuild_out_of_tree_from_subpath env)) v_new) Z eq_refl) as D. revert D.
  revert Z. go install_and_rebuild_out_of_tree_from_subpath. injection H as <- <-. cbn [value_of]. sets. intros D O. specialize (D O).
  unfold did in D. cbn [events map ran] in D.
  assert (W : working_directory start
    (events (mk_shell (fun _ => []) (map (fun ws => mk_event ws [] 0 [] true) 
      [w ["echo"; "Install and rebuild out of tree (subath)"]; w ["mktemp"; "-d"]; [lit "make"; lit "PREFIX=" ++ substituted o0; lit "install"];
       w ["mkdir"; "temp_build_dir"]; w ["cd"; "temp_build_dir"]; [substituted o0 ++ lit "/bin/maike2"; lit "--source-dir=.."; lit "--target-dir=__targets"];
       w ["__targets/core/bin/maike2"; "--version"]; w ["cd"; ".."]]) 0)) = start).
  { unfold working_directory. cbn [events map fold_left moved ran w result]. change (moved (moved start (mk_event (w ["cd"; "temp_build_dir"]) [] 0 [] true)) (mk_event (w ["cd"; ".."]) [] 0 [] true) = start).
    change (meant (meant start (lit "temp_build_dir")) (lit "..") = start). rewrite meant_up, meant_below. apply removelast_last. }
  assert (M : forall evs evs' s, map ran evs = map ran evs' -> map result evs = map result evs' -> working_directory s evs = working_directory s evs').
  { induction evs as [|e evs IH]; intros [|e' evs'] s A B; try discriminate; [reflexivity|]. cbn [map] in A, B. unfold working_directory in *. cbn [fold_left].
    injection A as A1 A2. injection B as B1 B2. assert (E : moved s e = moved s e') by (unfold moved; now rewrite A1, B1). rewrite E. now apply IH. }
  eexists [substituted o0; lit "temp_build_dir"], (lit "temp_build_dir"). split; [|split; [cbn; tauto|]].
  - cbn [value_of events app exit_status] in R, R0. unfold at_end, install_and_rebuild_out_of_tree_from_subpath. rewrite t_cmd. cbn [value_of events app exit_status]. rewrite R. cbn [Nat.eqb].
    rewrite t_let. cbn [value_of events app exit_status]. rewrite R0. cbn [Nat.eqb]. rewrite t_is, t_trap. cbn [value_of events app exit_status].
    match goal with |- trapped run ?k ?s ?t = _ => rewrite (proj2 (quiet_spec run k eq_refl s) t) end. f_equal.
    assert (O1 : one_word (lit "temp_build_dir")) by (apply one_word_lit; [reflexivity|discriminate]). rewrite ?assigned_text. words. reflexivity.
  - rewrite <- meant_below. f_equal. etransitivity; [|exact W]. apply M; [|reflexivity]. cbn [events map ran]. rewrite D. reflexivity.
Qed.

(** install_and_rebuild.sh does not leave the working directory. *)
Theorem install_stays env start d : let r := script_run run install_and_rebuild env in
  made_temporary (events (fst r)) d -> one_word d -> absolute d ->
  working_directory start (events (fst r)) = start /\ at_end run install_and_rebuild env = Some (w ["rm"; "-rf"] ++ d :: w ["__targets_2"; "__targets_3"]).
Proof.
  cbv zeta. unfold script_run, at_end, install_and_rebuild, make_install, new_maike2. rewrite e_let, t_let. cbn [value_of events app exit_status].
  destruct (run [] _ []) as [n o]. intros (e & I & W & S & U) O (d' & A). 
  destruct (Nat.eqb_spec n 0) as [->|N].
  2:{ destruct I as [<-|[]]. now cbn in S. }
  rewrite e_trap, t_trap in *.
  assert (Q : quiet (Cmd make_install (Cmd [new_maike2; `"--target-dir=__targets_2"] (Cmd [`"__targets_2/core/bin/maike2"; `"--target-dir=__targets_3"] End))) = true) by reflexivity.
  match type of I with context [exec run ?k ?s] => destruct (quiet_spec run k Q s) as (X & Y) end.
  destruct (X e I) as [J|J]; [|contradiction]. destruct J as [<-|[]]. cbn [output] in U. subst o. rewrite (one_word_substituted d O) in *. clear X I W S.
  split; [|rewrite Y; cbn [value_of]; f_equal; words; reflexivity]. clear Y Q.
  assert (E1 : forall env', env' v_new = d -> expand env' [` "make"; [Text (lit "PREFIX="); Quoted v_new]; ` "install"] = [lit "make"; lit "PREFIX=" ++ d; lit "install"]) by (intros env' <-; words; reflexivity).
  assert (E2 : forall env', env' v_new = d -> expand env' [[Bare v_new; Text (lit "/bin/maike2")]; ` "--target-dir=__targets_2"] = [d ++ lit "/bin/maike2"; lit "--target-dir=__targets_2"]) by (intros env' Ev; words; rewrite bare_then by (now rewrite Ev); rewrite Ev; reflexivity).
  cbn [exec]. unfold run_one. cbn [value_of events app]. rewrite !E1, !E2 by apply set_get. rewrite A.
  repeat match goal with |- context [run ?a ?b ?c] => destruct (run a b c) as [? ?] end.
  repeat match goal with |- context [if Nat.eqb ?n 0 then _ else _] => destruct (Nat.eqb n 0) end; reflexivity.
Qed.

(** install_and_rebuild_out_of_tree.sh: a directory is left only if the other one can not be made. *)
Theorem out_of_tree_temps env d : let r := script_run run install_and_rebuild_out_of_tree env in
  made_temporary (events (fst r)) d -> one_word d ->
  covers (at_end run install_and_rebuild_out_of_tree env) d \/
  exists e1 e2 e3, events (fst r) = [e1; e2; e3] /\ ran e3 = w ["mktemp"; "-d"] /\ result e3 <> 0 /\ status_of r = result e3.
Proof.
  cbv zeta. unfold script_run, at_end, install_and_rebuild_out_of_tree. rewrite e_cmd, t_cmd.
  cbn [value_of events app exit_status]. intros (e & I & W & S & U) O. revert I.
  destruct (run [] _ []) as [n0 o0]. destruct (Nat.eqb_spec n0 0) as [->|N]; [|intros [<-|[]]; discriminate W].
  rewrite e_let, t_let. cbn [value_of events app exit_status]. destruct (run [_] _ []) as [n1 o1]. destruct (Nat.eqb_spec n1 0) as [->|N1]; [|intros [<-|[<-|[]]]; [discriminate W|now cbn in S]].
  rewrite e_let, t_let. cbn [value_of events app exit_status]. destruct (run [_; _] _ []) as [n2 o2]. destruct (Nat.eqb_spec n2 0) as [->|N2].
  2:{ intros _. right. do 3 eexists. split; [reflexivity|]. split; [reflexivity|]. split; [exact N2|reflexivity]. }
  rewrite e_trap, t_trap. match goal with |- context [exec run ?k ?s] => destruct (quiet_spec run k eq_refl s) as (X & Y) end.
  intro I. left. destruct (X e I) as [J|J]; [|contradiction]. cbn [events] in J.
  rewrite Y. cbn [value_of]. exists (expand (set_value (set_value env v_new (substituted o1)) v_build (substituted o2)) [[Bare v_new]; [Bare v_build]]). split; [reflexivity|].
  destruct J as [<-|[<-|[<-|[]]]]; [discriminate W| |]; cbn [output] in U; subst; rewrite (one_word_substituted d O); apply in_flat_map.
  - exists [Bare v_new]. split; [now left|]. rewrite bare_word by (sets; exact O). sets. now left.
  - exists [Bare v_build]. split; [right; now left|]. rewrite bare_word by (sets; exact O). sets. now left.
Qed.
End Run.
