(** C114 and C115: what the program tells. *)

From Coq Require Import Ascii String Bool ZArith.
From Coq Require Import List.
From Verif Require Import Str Path SMap JsonModel DbModel GraphModel DepGraphModel DepGraphSpec FileListModel FileListSpec FileListProofs.
From Verif Require Import SchedModel SchedSpec TaskListModel TaskListSpec LoadModel CfgModel ValueModel ValueSpec ValueProofs.
From Verif Require Import CmdModel CmdSpec CmdProofs JobModel MainModel MainSpec MainProofs MainExample.
From Verif Require Import WhyModel WhySpec WhyProofs WhyProofs2 WhyExample.
Import ListNotations.

(** * C114: The reason for a failure is told *)

(** The program with messages does the same as the one without (MainModel.v), and ends with
    the same status. In particular, there is no undefined behaviour. *)
Theorem C114_same_run : forall env msg accepts argv, checks_ids accepts -> genuine env (fst (main env accepts argv)) ->
  exists notes, main_told env msg accepts argv = (fst (main env accepts argv), notes, Some (snd (main env accepts argv))).
Proof. intros env msg accepts argv C G. exact (told_same env msg accepts argv C G). Qed.
Print Assumptions C114_same_run.

(** If the status is not zero, the last message is an error, and the only one. It tells
    something that is really the case. *)
Theorem C114_reason : forall env msg accepts argv events notes status, checks_ids accepts ->
  main_told env msg accepts argv = (events, notes, Some status) -> status <> 0%Z ->
  genuine env events -> explained env msg events ->
  exists l m, notes = l ++ [ErrorNote m] /\ (forall n, In n l -> ~ is_error n) /\ reason env msg accepts argv events m.
Proof.
  intros env msg accepts argv events ns status C M Z G X.
  destruct (told_facts _ _ _ _ _ _ _ C M G) as (-> & -> & St & G').
  apply (told_reason env msg accepts argv C G' X).
  set (z := snd (main env accepts argv)) in *. clearbody z. injection St as <-. exact Z.
Qed.
Print Assumptions C114_reason.

(** Otherwise, there is none. *)
Theorem C114_silent : forall env msg accepts argv events notes, checks_ids accepts ->
  main_told env msg accepts argv = (events, notes, Some 0%Z) -> genuine env events ->
  forall n, In n notes -> ~ is_error n.
Proof.
  intros env msg accepts argv events ns C M G n I.
  destruct (told_facts _ _ _ _ _ _ _ C M G) as (-> & -> & St & G').
  apply (told_silent env msg accepts argv C G'); [|exact I].
  set (z := snd (main env accepts argv)) in *. clearbody z. injection St as <-. reflexivity.
Qed.
Print Assumptions C114_silent.

(** All problems found while looking for files are told, each on a line of its own. *)
Theorem C114_scan_lines : forall errors,
  scan_message errors = concat (map (fun m => m ++ ["010"%char]) errors).
Proof. intro errors. unfold scan_message. apply flat_map_concat_map. Qed.
Print Assumptions C114_scan_lines.

(** Wrong: a file is told if there is a cyclic dependency. *)
Theorem C114_cycle_refuted : ~ forall fs m, scanned fs -> reaches_cycle fs -> load_told fs = Thrown m ->
  NoDup (map fst (declared_targets fs)) -> exists p, In p (map fst fs) /\ occurs (path_string p) m.
Proof.
  intro H. destruct (H cycle_files (lit "Cyclic dependency detected")) as (p & I & O).
  - exact cycle_scanned.
  - exact cycle_reached.
  - vm_compute. reflexivity.
  - repeat constructor; cbn; intuition discriminate.
  - apply occurs_test in O. destruct I as [<- | [<- | []]]; vm_compute in O; discriminate.
Qed.
Print Assumptions C114_cycle_refuted.

(** Wrong: if a target has been declared by two files, both of them are told. *)
Theorem C114_duplicate_refuted : ~ forall fs m name t1 t2 l1 l2 l3, scanned fs ->
  declared_targets fs = l1 ++ (name, t1) :: l2 ++ (name, t2) :: l3 -> load_told fs = Thrown m -> t_source t1 <> t_source t2 ->
  occurs (path_string (t_source t1)) m /\ occurs (path_string (t_source t2)) m.
Proof.
  intro H.
  destruct (H twice_files _ _ _ _ [] [] [] twice_scanned eq_refl eq_refl) as [_ O]; [discriminate|].
  apply occurs_test in O. vm_compute in O. discriminate.
Qed.
Print Assumptions C114_duplicate_refuted.

(** Wrong: an option with an invalid value is told. *)
Theorem C114_flag_refuted : ~ forall argv m, command_line_told job_accepts argv = Thrown m ->
  exists arg o text, In arg argv /\ picks (option_table job_accepts) arg (option_item job_accepts o) text /\
    (occurs (option_name o) m \/ occurs arg m \/ occurs text m).
Proof.
  intro H. destruct (H [lit "--dry-run=yes"] (lit "Option does not take any value")) as (arg & o & text & [<- | []] & P & O).
  - vm_compute. reflexivity.
  - assert (Q : picks (option_table job_accepts) (lit "--dry-run=yes") (option_item job_accepts DryRun) (lit "yes")).
    { split; [discriminate|]. exists (lit "--dry-run"). split; [right; reflexivity|]. split; [vm_compute; intuition discriminate|].
      apply (find_option_selected (option_table job_accepts) (lit "--dry-run") (lit "yes") (lit "--dry-run=yes") (table_names job_accepts));
        [right; reflexivity|vm_compute; intuition discriminate|vm_compute; reflexivity]. }
    destruct (picks_unique _ _ _ _ _ _ P Q) as [E ->]. assert (o = DryRun) as ->.
    { apply option_name_inj. exact (f_equal opt_name E). }
    destruct O as [O | [O | O]]; apply occurs_test in O; vm_compute in O; discriminate.
Qed.
Print Assumptions C114_flag_refuted.

(** * C115: The numbers in the messages are right *)

(** The number of entries is that of files which are available, and the other one that of
    declared targets. *)
Theorem C115_loaded : forall env msg accepts argv events notes status n k, checks_ids accepts ->
  main_told env msg accepts argv = (events, notes, status) -> genuine env events -> In (LoadedNote n k) notes ->
  exists s td fs files, In (Scanned s td fs) events /\ lists (available fs) files /\ n = length files /\
    k = length (declared_targets fs).
Proof.
  intros env msg accepts argv events ns status n k C M G I.
  destruct (told_facts _ _ _ _ _ _ _ C M G) as (-> & -> & _ & G'). exact (told_loaded env msg accepts argv C G' n k I).
Qed.
Print Assumptions C115_loaded.

(** It is the first message if the project could be loaded, whatever happens thereafter. *)
Theorem C115_tree : forall env msg accepts argv events notes status s td fs ts g, checks_ids accepts ->
  main_told env msg accepts argv = (events, notes, status) -> genuine env events ->
  In (Scanned s td fs) events -> load_project fs = Loaded (ts, g) ->
  exists files rest, lists (available fs) files /\
    notes = LoadedNote (length files) (length (declared_targets fs)) :: rest /\ forall n k, ~ In (LoadedNote n k) rest.
Proof.
  intros env msg accepts argv events ns status s td fs ts g C M G I L.
  destruct (told_facts _ _ _ _ _ _ _ C M G) as (-> & -> & _ & G'). exact (told_tree env msg accepts argv C G' s td fs ts g I L).
Qed.
Print Assumptions C115_tree.

(** After a build without problems, there are exactly two messages. The number of tasks is
    that of the files from which something is built. With targets, those that belong to them
    are counted for each of them. *)
Theorem C115_counts : forall env msg accepts argv events notes, checks_ids accepts ->
  main_told env msg accepts argv = (events, notes, Some 0%Z) -> genuine env events -> no_query accepts argv ->
  exists s td fs ts g files n, In (Scanned s td fs) events /\ load_project fs = Loaded (ts, g) /\
    lists (available fs) files /\
    notes = [LoadedNote (length files) (length (declared_targets fs)); CompletedNote n] /\
    (~ given accepts argv Targets -> exists l, lists (builds fs) l /\ n = length l) /\
    forall names, has_value accepts argv Targets (PathsValue names) ->
      exists ls, Forall2 (fun name l => lists (part_of_target fs g td name) l) names ls /\ n = total ls.
Proof.
  intros env msg accepts argv events ns C M G N.
  destruct (told_facts _ _ _ _ _ _ _ C M G) as (-> & -> & St & G').
  apply (told_counts env msg accepts argv C G'); [|exact N]. set (z := snd (main env accepts argv)) in *. clearbody z. injection St as <-. reflexivity.
Qed.
Print Assumptions C115_counts.

(** It is not said that tasks have been completed if there was an error, or nothing to build. *)
Theorem C115_incomplete : forall env msg accepts argv events notes status n, checks_ids accepts ->
  main_told env msg accepts argv = (events, notes, Some status) -> genuine env events ->
  status <> 0%Z \/ ~ no_query accepts argv -> ~ In (CompletedNote n) notes.
Proof.
  intros env msg accepts argv events ns status n C M G N I.
  destruct (told_facts _ _ _ _ _ _ _ C M G) as (-> & -> & St & G').
  destruct (status_cases env accepts argv) as [Z | Z].
  - destruct N as [N | N]; [|exact (told_query env msg accepts argv C Z N n I)].
    apply N. rewrite Z in St. injection St as ->. reflexivity.
  - apply (told_incomplete env msg accepts argv C G') in I; [exact I|]. rewrite Z. discriminate.
Qed.
Print Assumptions C115_incomplete.

(** The numbers are written in decimal. *)
Theorem C115_text : forall seconds average n k, exists x y z rest rest',
  numeral 10 x (Z.of_nat n) /\ numeral 10 y (Z.of_nat k) /\ numeral 10 z (Z.of_nat n) /\
  note_text seconds average (LoadedNote n k) =
    lit "# Loaded source tree with " ++ x ++ lit " entries (" ++ y ++ lit " targets) in " ++ seconds ++ rest /\
  note_text seconds average (CompletedNote n) = lit "# Completed " ++ z ++ lit " tasks in " ++ seconds ++ rest'.
Proof.
  intros seconds average n k. exists (decimal (Z.of_nat n)), (decimal (Z.of_nat k)), (decimal (Z.of_nat n)).
  exists (lit " seconds  (" ++ average ++ lit " seconds/entry)" ++ ["010"%char]), (lit " seconds (" ++ average ++ lit " seconds/task)" ++ ["010"%char]).
  repeat (split; [apply decimal_numeral; apply Zle_0_nat|]). split; unfold note_text; now rewrite <- !app_assoc.
Qed.
Print Assumptions C115_text.

(** Wrong: the number is that of files which are compiled. If a target is given twice, its
    tasks are counted twice. *)
Theorem C115_tasks_refuted : ~ forall env msg argv events notes n names s td fs ts g,
  main_told env msg job_accepts argv = (events, notes, Some 0%Z) -> genuine env events -> In (CompletedNote n) notes ->
  has_value job_accepts argv Targets (PathsValue names) -> In (Scanned s td fs) events -> load_project fs = Loaded (ts, g) ->
  exists l, lists (fun p => exists name, In name names /\ part_of_target fs g td name p) l /\ n = length l.
Proof.
  intro H. destruct twice_run as (events & notes & ts & g & M & G & I & V & J & L & One).
  destruct (H _ _ _ _ _ _ _ _ _ _ _ _ M G I V J L) as (l & [Nd Hl] & E).
  destruct l as [|p [|q l]]; [discriminate| |]; [discriminate|].
  assert (Sp : p = mk_path false [lit "app.cpp"]).
  { destruct (proj1 (Hl p) (or_introl eq_refl)) as (name & [<- | [<- | []]] & P); exact (One p P). }
  assert (Sq : q = mk_path false [lit "app.cpp"]).
  { destruct (proj1 (Hl q) (or_intror (or_introl eq_refl))) as (name & [<- | [<- | []]] & P); exact (One q P). }
  subst. inversion Nd as [|? ? No _]; subst. apply No. now left.
Qed.
Print Assumptions C115_tasks_refuted.

(** * Concrete cases *)

Local Open Scope string_scope.
Local Open Scope list_scope.

(** Build ids are checked in the program. *)
Example ids_checked : checks_ids job_accepts.
Proof. exact job_checks_ids. Qed.

(** A task fails: the hypotheses of C114_reason, and what is told *)
Example told_failure : let argv := [lit "--config-default"] in let env := tiny_env default_target_dir Fails in
  let msg := tiny_messages Fails (lit "?") in
  genuine env (fst (main env job_accepts argv)) /\ explained env msg (fst (main env job_accepts argv)) /\
  snd (fst (main_told env msg job_accepts argv)) = [LoadedNote 4 2; ErrorNote (lit ".: Compilation failed")] /\
  snd (main_told env msg job_accepts argv) = Some 255%Z.
Proof.
  cbv zeta. split; [apply tiny_genuine; vm_compute; reflexivity|]. split; [apply tiny_explained; vm_compute; reflexivity|].
  split; vm_compute; reflexivity.
Qed.

(** Success *)
Example told_success : let argv := [lit "--config-default"] in let env := tiny_env default_target_dir Succeeds in
  let msg := tiny_messages Succeeds [] in
  genuine env (fst (main env job_accepts argv)) /\
  snd (fst (main_told env msg job_accepts argv)) = [LoadedNote 4 2; CompletedNote 2] /\
  snd (main_told env msg job_accepts argv) = Some 0%Z /\ no_query job_accepts argv /\ ~ given job_accepts argv Targets.
Proof.
  cbv zeta. split; [apply tiny_genuine; vm_compute; reflexivity|]. split; [vm_compute; reflexivity|]. split; [vm_compute; reflexivity|].
  split; [apply no_query_test; vm_compute; reflexivity|apply not_given_test; vm_compute; reflexivity].
Qed.

(** Something that is not a target, or not an option *)
Example told_unknown : let env := tiny_env default_target_dir Succeeds in let msg := tiny_messages Succeeds [] in
  snd (fst (main_told env msg job_accepts [lit "--config-default"; lit "--targets=lib"])) =
    [LoadedNote 4 2; ErrorNote (lit "Unkonwn target `lib`")] /\
  main_told env msg job_accepts [lit "--taget-dir=x"] = ([], [ErrorNote (lit "Invalid command line option --taget-dir=x")], Some 255%Z) /\
  main_told env msg job_accepts [lit "--build-id=12x4"] =
    ([], [ErrorNote (lit "Invalid BuildId: `x` is not a hexadecimal digit")], Some 255%Z).
Proof. cbv zeta. split; [|split]; vm_compute; reflexivity. Qed.

(** Files that do not make up a project *)
Example told_problems : load_told cycle_files = Thrown (lit "Cyclic dependency detected") /\
  load_told twice_files = Thrown (lit "Target has out/app has already been defined in a.cpp") /\
  load_told [(mk_path false [lit "a.hpp"], mk_source_file_info [use (lit "b.hpp")] [] [] [] None no_compiler Project OnlyIfOutOfDate false)] =
    Thrown (lit "a.hpp: error: Failed to resolve b.hpp").
Proof. split; [|split]; vm_compute; reflexivity. Qed.

Example told_text : note_text (lit "1.5") (lit "0.5") (LoadedNote 3 12) =
  lit "# Loaded source tree with 3 entries (12 targets) in 1.5 seconds  (0.5 seconds/entry)" ++ ["010"%char].
Proof. vm_compute. reflexivity. Qed.
