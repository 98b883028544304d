(** C97: what has been asked for is up to date after the program has succeeded, and there is
    nothing left to do for another run. *)

From Coq Require Import Ascii String ZArith.
From Coq Require Import List.
From Verif Require Import Str Path DbModel DepGraphSpec FileListModel FileListSpec SchedModel SchedSpec TaskListModel TaskListSpec.
From Verif Require Import BuildModel BuildSpec CmdModel CmdSpec MainModel MainSpec MainExample WholeSpec WholeProofs WholeRun.
Import ListNotations.

(** C97, in part: up to date. Missing: files that have been asked for by one of several names
    other than the last, if there are recipes that are run whether needed or not
    (C97_always_refuted, C97_forced_refuted); and names of files that are not normalised. *)
Theorem C97_up_to_date_partial : forall env accepts argv s td fs ts g,
  genuine env (fst (main env accepts argv)) -> In (Scanned s td fs) (fst (main env accepts argv)) ->
  load_project fs = Loaded (ts, g) -> proper_names fs g ->
  forall D0 D dec p, snd (main env accepts argv) = 0%Z -> no_query accepts argv -> ~ given accepts argv DryRun ->
  unfolds (fst (main env accepts argv)) D0 D dec -> asked_for accepts argv fs g td p ->
  only_when_needed accepts argv fs \/ asked_last accepts argv fs g td p ->
  up_to_date_file fs g D p.
Proof. exact run_up_to_date. Qed.
Print Assumptions C97_up_to_date_partial.

(** C97: nothing left to do, for a second run that asks for the same things, or fewer. *)
Theorem C97_again : forall env1 env2 accepts argv1 argv2 s1 s2 td fs ts g,
  genuine env1 (fst (main env1 accepts argv1)) -> genuine env2 (fst (main env2 accepts argv2)) ->
  In (Scanned s1 td fs) (fst (main env1 accepts argv1)) -> In (Scanned s2 td fs) (fst (main env2 accepts argv2)) ->
  load_project fs = Loaded (ts, g) -> proper_names fs g ->
  snd (main env1 accepts argv1) = 0%Z -> no_query accepts argv1 -> ~ given accepts argv1 DryRun ->
  only_when_needed accepts argv2 fs ->
  ~ given accepts argv1 ForceRebuild \/ (forall p, asked_for accepts argv1 fs g td p -> asked_last accepts argv1 fs g td p) ->
  (forall p, asked_for accepts argv2 fs g td p -> asked_for accepts argv1 fs g td p) ->
  forall D0 D1 D2 dec1 dec2, unfolds (fst (main env1 accepts argv1)) D0 D1 dec1 ->
  unfolds (fst (main env2 accepts argv2)) D1 D2 dec2 ->
  (forall p, ~ recipe_run g dec2 p) /\ forall q, D2 q = D1 q.
Proof. exact second_run. Qed.
Print Assumptions C97_again.

(** ...but if two targets are asked for that share a file that is always rebuilt, this file is made
    once more for the second one, and the first one is out of date when the program is done. *)
Theorem C97_always_refuted : let argv := [lit "--config-default"; lit "--targets=a,b"] in
  exists env s td fs ts g p D0 D dec, let events := fst (main env any_text argv) in
  genuine env events /\ In (Scanned s td fs) events /\ load_project fs = Loaded (ts, g) /\ proper_names fs g /\
  ~ given any_text argv ForceRebuild /\
  snd (main env any_text argv) = 0%Z /\ no_query any_text argv /\ ~ given any_text argv DryRun /\
  unfolds events D0 D dec /\ asked_for any_text argv fs g td p /\ ~ up_to_date_file fs g D p.
Proof. exact always_outdated. Qed.
Print Assumptions C97_always_refuted.

(** The same with any shared file, if a rebuild is forced. *)
Theorem C97_forced_refuted : let argv := [lit "--config-default"; lit "--targets=a,b"; lit "--force-rebuild"] in
  exists env s td fs ts g p D0 D dec, let events := fst (main env any_text argv) in
  genuine env events /\ In (Scanned s td fs) events /\ load_project fs = Loaded (ts, g) /\ proper_names fs g /\
  (forall q info, In (q, info) fs -> si_policy info <> Always) /\
  snd (main env any_text argv) = 0%Z /\ no_query any_text argv /\ ~ given any_text argv DryRun /\
  unfolds events D0 D dec /\ asked_for any_text argv fs g td p /\ ~ up_to_date_file fs g D p.
Proof. exact forced_outdated. Qed.
Print Assumptions C97_forced_refuted.

(** * Examples *)

(** Two programs that share a generated file: the run with both of them as targets makes three
    files, and the theorems apply to it, and to a second run. *)
Example e_made : exists D dec, unfolds (fst (main good_env any_text two_targets)) sources_only D dec /\
  (forall p, In p [name "a.src"; name "b.src"; name "x.src"] -> recipe_run good_graph dec p) /\
  up_to_date_file good_files good_graph D (name "a.src") /\
  exists D' dec', unfolds (fst (main good_env any_text two_targets)) D D' dec' /\
    (forall p, ~ recipe_run good_graph dec' p) /\ forall q, D' q = D q.
Proof.
  destruct shared_first as (D & dec & U & R & D' & dec' & U'). destruct (shared_loads OnlyIfOutOfDate) as (ts & L).
  assert (In (Scanned (mk_path false [dot]) default_target_dir good_files) (fst (main good_env any_text two_targets))) as Sc by (vm_compute; tauto).
  assert (snd (main good_env any_text two_targets) = 0%Z) as Z by (vm_compute; reflexivity).
  assert (no_query any_text two_targets) as N by (apply no_query_test; vm_compute; reflexivity).
  assert (~ given any_text two_targets DryRun) as Dr by (apply not_given_test; vm_compute; reflexivity).
  exists D, dec. split; [exact U|]. split; [exact R|]. split.
  - apply (C97_up_to_date_partial good_env any_text two_targets _ _ _ _ _ good_genuine Sc L (shared_names _) _ _ _ _ Z N Dr U).
    + apply shared_asked. vm_compute. reflexivity.
    + left. exact good_needed.
  - exists D', dec'. split; [exact U'|].
    apply (C97_again good_env good_env any_text two_targets two_targets _ _ _ _ _ _ good_genuine good_genuine Sc Sc L (shared_names _) Z N Dr
             good_needed (or_introl (proj1 good_needed)) (fun _ A => A) _ _ _ _ _ U U').
Qed.
