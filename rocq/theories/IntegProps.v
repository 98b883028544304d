(** C122: the integration test. *)

From Coq Require Import Ascii String Bool Arith.
From Coq Require Import List.
From Verif Require Import Str AboutModel SetupModel IntegModel IntegSpec IntegProofs IntegProofs2 IntegProofs3.
Import ListNotations.
Local Open Scope string_scope.
Local Open Scope list_scope.

(** Either one of the first two parts fails, and so does the test, or all parts are run, and the
    test succeeds if and only if all of them do. Missing: the directory that is made at the
    beginning, see C122_mktemp_refuted. *)
Theorem C122_main : forall run env, let r := script_run run main env in
  (did (fst r) (w ["mktemp"; "-d"] :: parts) /\ (status_of r = 0 <-> passed (fst r))) \/
  (status_of r <> 0 /\ exists e, In e (firstn 3 (events (fst r))) /\ looked_at e = true /\ result e = status_of r).
Proof. exact main_runs. Qed.
Print Assumptions C122_main.

(** The parts without a comparison succeed if and only if all of their commands do. *)
Theorem C122_commands : Forall (fun s => forall run env, let r := script_run run s env in status_of r = 0 <-> passed (fst r))
  [can_generate_working_bootstrap_script; install_and_rebuild; install_and_rebuild_out_of_tree;
   install_and_rebuild_out_of_tree_rel_path; install_and_rebuild_out_of_tree_from_subpath; check_release_tarball].
Proof. repeat (apply Forall_cons; [intros run env; apply straight_passed; exact I|]). apply Forall_nil. Qed.
Print Assumptions C122_commands.

(** The others do not go on after a failure either. *)
Theorem C122_stops : Forall (fun s => forall run env, let r := script_run run s env in status_of r = 0 -> passed (fst r))
  [bootstrap_from_release; build_new_version].
Proof. repeat (apply Forall_cons; [intros run env; apply strict_passed; cbn; tauto|]). apply Forall_nil. Qed.
Print Assumptions C122_stops.

(** What has been done if a part succeeds. The names of directories are not taken apart by the
    shell, which holds if they have no white space. *)
Theorem C122_did_generate : forall run env, let r := script_run run can_generate_working_bootstrap_script env in status_of r = 0 ->
  did (fst r)
    [w ["echo"; "Can generate working boostrap script"];
     w ["rm"; "-rf"; "__targets_bootstrap"; "__buildcache"];
     w ["mkdir"; "__buildcache"];
     env (lit "1") :: w ["--target-dir=__targets_bootstrap"; "--num-workers=1"; "--force-rebuild"; "--dry-run";
        "--log-level=compilation_command"; "--build-id=0000000000000000000000000000000000000000000000000000000000000000"; ">"; "__buildcache/bootstrap.sh"];
     w ["sh"; "-x"; "__buildcache/bootstrap.sh"];
     w ["__targets_bootstrap/core/bin/maike2"; "--about"]].
Proof. exact did_generate. Qed.
Print Assumptions C122_did_generate.

(** The release that is loaded is the one with the given version, it is built with its own script,
    in a new directory, and what it has built is installed at the given place. *)
Theorem C122_did_release : forall run env, let r := script_run run bootstrap_from_release env in status_of r = 0 ->
  exists e, nth_error (events (fst r)) 1 = Some e /\ ran e = w ["mktemp"; "-d"] /\
    forall d, output e = unlines [d] -> one_word d ->
    firstn 7 (map ran (events (fst r))) =
      [[lit "echo"; lit "Bootstraping from " ++ env v_version];
       w ["mktemp"; "-d"];
       [lit "cd"; d];
       [lit "wget"; lit "https://github.com/milasudril/maike/releases/download/" ++ env v_version ++ lit "/maike-src.tar.gz"];
       w ["tar"; "-xf"; "maike-src.tar.gz"];
       w ["cd"; "maike-src"];
       w ["sh"; "-x"; "__buildcache/bootstrap.sh"]] /\
    nth_error (map ran (events (fst r))) 11 = Some [lit "make"; lit "PREFIX=" ++ env v_install; lit "install"].
Proof. intros run env r S. apply did_release. apply strict_passed; [cbn; tauto|exact S]. Qed.
Print Assumptions C122_did_release.

Theorem C122_did_install : forall run env, let r := script_run run install_and_rebuild env in status_of r = 0 ->
  forall d, value_of (fst r) v_new = d -> one_word d ->
  did (fst r)
    [w ["mktemp"; "-d"];
     [lit "make"; lit "PREFIX=" ++ d; lit "install"];
     [d ++ lit "/bin/maike2"; lit "--target-dir=__targets_2"];
     w ["__targets_2/core/bin/maike2"; "--target-dir=__targets_3"]].
Proof. intros run env r S d V O. exact (did_install run env d S V O). Qed.
Print Assumptions C122_did_install.

Theorem C122_did_out_of_tree : forall run env, let r := script_run run install_and_rebuild_out_of_tree env in status_of r = 0 ->
  forall d b here, value_of (fst r) v_new = d -> value_of (fst r) v_build = b -> value_of (fst r) v_source = here ->
  one_word d -> one_word b -> one_word here ->
  did (fst r)
    [w ["echo"; "Install and rebuild out of tree"];
     w ["mktemp"; "-d"];
     w ["mktemp"; "-d"];
     [lit "make"; lit "PREFIX=" ++ d; lit "install"];
     w ["pwd"];
     [lit "cd"; b];
     [d ++ lit "/bin/maike2"; lit "--source-dir=" ++ here];
     w ["maike_targets/core/bin/maike2"; "--version"];
     [lit "cd"; here]].
Proof. intros run env r S d b here. exact (did_out_of_tree run env d b here S). Qed.
Print Assumptions C122_did_out_of_tree.

Theorem C122_did_subpath : forall run env, let r := script_run run install_and_rebuild_out_of_tree_from_subpath env in status_of r = 0 ->
  forall d, value_of (fst r) v_new = d -> one_word d ->
  did (fst r)
    [w ["echo"; "Install and rebuild out of tree (subath)"];
     w ["mktemp"; "-d"];
     [lit "make"; lit "PREFIX=" ++ d; lit "install"];
     w ["mkdir"; "temp_build_dir"];
     w ["cd"; "temp_build_dir"];
     [d ++ lit "/bin/maike2"; lit "--source-dir=.."; lit "--target-dir=__targets"];
     w ["__targets/core/bin/maike2"; "--version"];
     w ["cd"; ".."]].
Proof. intros run env r S d. exact (did_subpath run env d S). Qed.
Print Assumptions C122_did_subpath.

Theorem C122_did_rel_path : forall run env, let r := script_run run install_and_rebuild_out_of_tree_rel_path env in status_of r = 0 ->
  forall d here, value_of (fst r) v_new = d -> value_of (fst r) v_source = here -> one_word d -> one_word here -> one_word (value_of (fst r) (lit "pwd")) ->
  did (fst r)
    [w ["echo"; "Install and rebuild out of tree (relative path)"];
     w ["mktemp"; "-d"];
     [lit "make"; lit "PREFIX=" ++ d; lit "install"];
     w ["pwd"];
     [lit "basename"; value_of (fst r) (lit "pwd")];
     w ["cd"; ".."];
     [d ++ lit "/bin/maike2"; lit "--source-dir=" ++ here];
     w ["maike_targets/core/bin/maike2"; "--version"];
     [lit "cd"; here]].
Proof. intros run env r S d here. exact (did_rel_path run env d here S). Qed.
Print Assumptions C122_did_rel_path.

Theorem C122_did_tarball : forall run env, let r := script_run run check_release_tarball env in status_of r = 0 ->
  forall d here, value_of (fst r) v_extract = d -> value_of (fst r) v_source = here -> one_word d -> one_word here ->
  did (fst r)
    [w ["echo"; "Check release tarball"];
     w ["mktemp"; "-d"];
     w ["make"; "clean"];
     w ["make"; "source-archive"];
     [lit "mv"; lit "__targets/maike-src.tar.gz"; d];
     w ["pwd"];
     [lit "cd"; d];
     w ["tar"; "-xf"; "maike-src.tar.gz"];
     w ["cd"; "maike-src"];
     w ["__buildcache/bootstrap.sh"];
     w ["__targets_bootstrap/core/bin/maike2"; "--version"];
     [lit "cd"; here]].
Proof. intros run env r S d here. exact (did_tarball run env d here S). Qed.
Print Assumptions C122_did_tarball.

(** If nothing fails, the new program is accepted if and only if it tells the id of the build that
    made it. *)
Theorem C122_new_version : forall run, tools_work run -> forall env d t, env v_install = d -> env v_target = t -> one_word d -> one_word t ->
  let r := script_run run build_new_version env in passed (fst r) ->
  exists e1 e2, nth_error (events (fst r)) 2 = Some e1 /\ ran e1 = [d ++ lit "/bin/maike2"; lit "--target-dir=" ++ t] /\
    nth_error (events (fst r)) 6 = Some e2 /\ ran e2 = w ["__targets/core/bin/maike2"; "--version"] /\ result e2 = 0 /\
    forall id1 id2, log_tells (output e1) id1 -> version_tells (output e2) id2 -> (status_of r = 0 <-> id1 = id2).
Proof. exact new_version_id. Qed.
Print Assumptions C122_new_version.

Theorem C122_release : forall run, tools_work run -> forall env,
  let r := script_run run bootstrap_from_release env in passed (fst r) ->
  exists e1 e2, nth_error (events (fst r)) 7 = Some e1 /\ ran e1 = w ["__targets_bootstrap/core/bin/maike2"; "--target-dir=__targets"] /\
    nth_error (events (fst r)) 12 = Some e2 /\ ran e2 = [env v_install ++ lit "/bin/maike2"; lit "--version"] /\
    forall id1 id2, log_tells (output e1) id1 -> version_tells (output e2) id2 -> (status_of r = 0 <-> id1 = id2).
Proof. exact release_id. Qed.
Print Assumptions C122_release.

(** What the program writes tells the id, unless another line looks the same. *)
Theorem C122_log : forall workers started id source target rest, id_text id ->
  (forall x, In x ((lit "# Build job with " ++ workers ++ lit " workers started") :: (lit "# Start time: " ++ started) ::
                   (lit "# Source dir: " ++ source) :: (lit "# Target dir: " ++ target) :: rest) -> ~ id_line x /\ ~ In "010"%char x) ->
  log_tells (job_started workers started id source target ++ unlines rest) id.
Proof. exact job_tells. Qed.
Print Assumptions C122_log.

Theorem C122_version : forall (v : variables) id, v (lit "BuildId") = id -> id_text id ->
  (forall x, In x [lit "# Maike " ++ v (lit "VcsTag") ++ lit " (" ++ v (lit "VcsRevisionId") ++ lit ")";
                   lit "Build start time: " ++ v (lit "BuildStartTime"); lit "Build host: " ++ v (lit "BuildHost")] ->
             ~ has (lit "Build id") x /\ ~ In "010"%char x) ->
  version_tells (print_version v) id.
Proof. exact version_tells_id. Qed.
Print Assumptions C122_version.

(** * Examples *)

Definition told (id commit : string) : variables := fun n =>
  if str_eqb n (lit "BuildId") then lit id else if str_eqb n (lit "VcsRevisionId") then lit commit
  else if str_eqb n (lit "VcsTag") then lit "2.0.0" else lit "x".

(** The build ends with [status], and logs the id 0a1b. The program that it made tells [id] and
    [commit]. *)
Definition world (status : nat) (id commit : string) (h : list event) (ws : list str) (stdin : str) : nat * str :=
  match tool ws stdin with
  | Some r => r
  | None =>
      if list_eq_dec (list_eq_dec ascii_dec) ws (w ["/tmp/i/bin/maike2"; "--target-dir=__targets"]) then
        (status, job_started (lit "4") (lit "12:00") (lit "0a1b") (lit ".") (lit "__targets") ++ unlines [lit "# Compiling"])
      else if list_eq_dec (list_eq_dec ascii_dec) ws (w ["__targets/core/bin/maike2"; "--version"]) then (0, print_version (told id commit))
      else if list_eq_dec (list_eq_dec ascii_dec) ws (w ["git"; "rev-parse"; "HEAD"]) then (0, lit "c0ffee" ++ nl)
      else (0, [])
  end.

Lemma world_tools status id commit : tools_work (world status id commit).
Proof. intros h ws stdin r E. unfold world. now rewrite E. Qed.

Definition given : str -> str := fun n => if str_eqb n v_install then lit "/tmp/i" else if str_eqb n v_target then lit "__targets" else [].

Example integ_same : status_of (script_run (world 0 "0a1b" "c0ffee") build_new_version given) = 0.
Proof. vm_compute. reflexivity. Qed.

Example integ_other : status_of (script_run (world 0 "0a1c" "c0ffee") build_new_version given) = 1.
Proof. vm_compute. reflexivity. Qed.

Example integ_values :
  let sh := fst (script_run (world 0 "0a1b" "c0ffee") build_new_version given) in
  (value_of sh (lit "build_id_expected"), value_of sh (lit "build_id"), value_of sh (lit "commit")) = (lit "0a1b", lit "0a1b", lit "c0ffee").
Proof. vm_compute. reflexivity. Qed.

(** A part that fails *)
Definition one_fails (name : string) (h : list event) (ws : list str) (stdin : str) : nat * str :=
  if list_eq_dec (list_eq_dec ascii_dec) ws (w [name]) then (3, []) else (0, lit "/tmp/i" ++ nl).

Example integ_part :
  let r := script_run (one_fails "integration_test/install_and_rebuild.sh") main (fun _ => []) in
  (status_of r, length (events (fst r)), value_of (fst r) v_install) = (3, 9, lit "/tmp/i").
Proof. vm_compute. reflexivity. Qed.

Example integ_all : status_of (script_run (one_fails "nothing") main (fun _ => [])) = 0.
Proof. vm_compute. reflexivity. Qed.

Example integ_words : expand (fun _ => lit " a b" ++ nl) [`"cd"; [Bare v_tmp]; [Text (lit "x"); Bare v_tmp; Text (lit "y")]; [Quoted v_tmp]] =
  [lit "cd"; lit "a"; lit "b"; lit "x"; lit "a"; lit "b"; lit "y"; lit " a b" ++ nl].
Proof. vm_compute. reflexivity. Qed.

(** * What is not noticed *)

(** C122. Wrong: the new program tells the commit it was built from. The script ends before the
    comparison. *)
Theorem C122_commit_refuted : ~ forall run, tools_work run -> forall env, let r := script_run run build_new_version env in
  status_of r = 0 -> value_of (fst r) (lit "commit") = value_of (fst r) (lit "commit_expected").
Proof.
  intro H. specialize (H _ (world_tools 0 "0a1b" "decade") given). cbv zeta in H.
  assert (S : status_of (script_run (world 0 "0a1b" "decade") build_new_version given) = 0) by (vm_compute; reflexivity).
  apply H in S. vm_compute in S. discriminate S.
Qed.
Print Assumptions C122_commit_refuted.

(** C122. Wrong: the build of the new version has succeeded. It may have failed, for instance in a
    unit test, after the program has been made. *)
Theorem C122_build_refuted : ~ forall run, tools_work run -> forall env, let r := script_run run build_new_version env in
  status_of r = 0 -> forall e, nth_error (events (fst r)) 2 = Some e -> result e = 0.
Proof.
  intro H. specialize (H _ (world_tools 255 "0a1b" "c0ffee") given). cbv zeta in H.
  assert (S : status_of (script_run (world 255 "0a1b" "c0ffee") build_new_version given) = 0) by (vm_compute; reflexivity).
  specialize (H S). destruct (nth_error _ 2) as [e|] eqn:E; [|vm_compute in E; discriminate E].
  specialize (H e eq_refl). vm_compute in E. injection E as <-. discriminate H.
Qed.
Print Assumptions C122_build_refuted.

(** C122. Wrong: there is a directory to install the program to. If it can not be made, the name is
    empty, and the program is installed to /bin. *)
Theorem C122_mktemp_refuted : ~ forall run env, let r := script_run run main env in
  status_of r = 0 -> value_of (fst r) v_install <> [].
Proof.
  intro H. apply (H (fun _ ws _ => if list_eq_dec (list_eq_dec ascii_dec) ws (w ["mktemp"; "-d"]) then (1, []) else (0, [])) (fun _ => [])); vm_compute; reflexivity.
Qed.
Print Assumptions C122_mktemp_refuted.

(** With make PREFIX= install, install.sh is called with an empty name (Makefile:23-27). *)
Example integ_prefix : forall here, place_of here ([] ++ lit "/bin") = [lit "bin"].
Proof. intro here. reflexivity. Qed.
