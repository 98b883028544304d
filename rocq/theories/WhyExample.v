(** Runs with messages *)

From Coq Require Import Ascii String Bool ZArith.
From Coq Require Import List.
From Verif Require Import Str Path SMap PathProofs JsonModel DbModel GraphModel DepGraphModel DepGraphSpec FileListModel FileListSpec.
From Verif Require Import LoadModel CfgModel FileListProofs SchedModel SchedSpec TaskListModel TaskListSpec ValueModel.
From Verif Require Import CmdModel CmdSpec CmdProofs JobModel MainModel MainSpec MainProofs MainExample WhyModel WhySpec WhyProofs WhyProofs2.
Import ListNotations.

Lemma told_facts : forall env msg accepts argv events ns st, checks_ids accepts ->
  main_told env msg accepts argv = (events, ns, st) -> genuine env events ->
  events = fst (main env accepts argv) /\ ns = notes env msg accepts argv /\ st = Some (snd (main env accepts argv)) /\
  genuine env (fst (main env accepts argv)).
Proof.
  intros env msg accepts argv events ns st C M G.
  assert (Ev : fst (fst (main_told env msg accepts argv)) = fst (main env accepts argv)).
  { destruct (command_line (option_table accepts) argv) as [a|] eqn:E.
    - rewrite (told_accepted env msg accepts argv C a E), (body_events env msg accepts argv a E).
      destruct (main_body_told env msg a) as [[es ns'] [x|m|]]; reflexivity.
    - destruct (told_rejected env msg accepts argv C E) as (m & -> & _). now rewrite (main_rejected env accepts argv E). }
  rewrite M in Ev. cbn [fst] in Ev. subst events. destruct (told_same env msg accepts argv C G) as (ns' & S).
  split; [reflexivity|]. split; [unfold notes; now rewrite M|]. split; [|exact G].
  rewrite S in M. exact (f_equal snd (eq_sym M)).
Qed.

Fixpoint has_prefix (part s : str) : bool :=
  match part, s with
  | [], _ => true
  | c :: part', d :: s' => Ascii.eqb c d && has_prefix part' s'
  | _, _ => false
  end.

Fixpoint somewhere (part s : str) : bool :=
  has_prefix part s || match s with [] => false | _ :: s' => somewhere part s' end.

Lemma occurs_test : forall part s, occurs part s -> somewhere part s = true.
Proof.
  intros part s (s1 & s2 & ->). induction s1 as [|c s1 IH].
  - assert (H : has_prefix part (part ++ s2) = true)
      by (induction part as [|c part IH]; cbn; [reflexivity|rewrite Ascii.eqb_refl; exact IH]).
    cbn [app]. destruct (part ++ s2); cbn in *; now rewrite H.
  - cbn [app somewhere]. rewrite IH. apply orb_true_r.
Qed.

(** Two files that include each other *)
Definition use (name : str) : dependency := mk_dependency None (mk_path false [name]) Project [].

Definition cycle_files : file_list :=
  [(mk_path false [lit "a.hpp"], mk_source_file_info [use (lit "b.hpp")] [] [] [] None no_compiler Project OnlyIfOutOfDate false);
   (mk_path false [lit "b.hpp"], mk_source_file_info [use (lit "a.hpp")] [] []
      [mk_target_info (mk_path false [lit "out"; lit "b"]) []] None no_compiler Project OnlyIfOutOfDate false)].

(** Two files with the same target *)
Definition twice_files : file_list :=
  [(mk_path false [lit "a.cpp"], tiny_info [mk_target_info (mk_path false [lit "out"; lit "app"]) []]);
   (mk_path false [lit "b.cpp"], tiny_info [mk_target_info (mk_path false [lit "out"; lit "app"]) []])].

Lemma twice_scanned : scanned twice_files.
Proof.
  split.
  - repeat constructor.
  - intros p info [H | [H | []]]; injection H as <- <-; (split; [reflexivity|]); cbn;
      (split; [intros d []|]); (split; [intros d []|]); intros t d [<- | []] [].
Qed.

Lemma cycle_scanned : scanned cycle_files.
Proof.
  split.
  - repeat constructor.
  - intros p info [H | [H | []]]; injection H as <- <-; (split; [reflexivity|]);
      (split; [intros d [<- | []]; reflexivity|]); (split; [intros d []|]); [intros t d []|intros t d [<- | []] []].
Qed.

Lemma cycle_reached : reaches_cycle cycle_files.
Proof.
  assert (AB : file_depends cycle_files (mk_path false [lit "a.hpp"]) (mk_path false [lit "b.hpp"])).
  { split; [exists 1; reflexivity|]. exists (use (lit "b.hpp")). split; [|reflexivity]. eexists. split; [left; reflexivity|]. left. now left. }
  assert (BA : file_depends cycle_files (mk_path false [lit "b.hpp"]) (mk_path false [lit "a.hpp"])).
  { split; [exists 0; reflexivity|]. exists (use (lit "a.hpp")). split; [|reflexivity]. eexists. split; [right; left; reflexivity|]. left. now left. }
  exists (mk_path false [lit "out"; lit "b"]). eexists. exists (mk_path false [lit "b.hpp"]).
  split; [left; reflexivity|]. split; [apply reach_self|]. exists (mk_path false [lit "a.hpp"]). split; [exact BA|].
  eapply reach_step; [exact AB|apply reach_self].
Qed.

(** What is told about tasks, with some text for exceptions that are not considered *)
Definition tiny_told (n : nat) (outcome : task_outcome) (other : str) (g : file_list) (rs : list task_result) (tasks : list nat)
  (dryrun force : bool) : str :=
  match one_run n outcome g rs tasks with
  | Some (tr, s) => match ph s with Threw u => task_message g outcome other u | _ => [] end
  | None => []
  end.

Definition tiny_messages (outcome : task_outcome) (other : str) : messages :=
  mk_messages (fun _ _ => other) (fun _ _ _ _ _ => [other])
    (tiny_told 60 outcome other).

(** What has to be computed in order to know that they are told properly *)
Definition failed_test (n : nat) (outcome : task_outcome) (e : event) : bool :=
  match e with
  | Processed g rs tasks _ _ tr =>
      match one_run n outcome g rs tasks with
      | Some (_, s) =>
          match ph s with
          | Threw u => existsb (fun l => match l, outcome with
                                         | Finish v Fails, Fails => u =? v
                                         | Finish v Throws, Throws => u =? v
                                         | _, _ => false
                                         end) tr
          | _ => false
          end
      | None => false
      end
  | _ => true
  end.

Lemma tiny_failed : forall n outcome other g rs tasks d f tr, failed_test n outcome (Processed g rs tasks d f tr) = true ->
  tr = fst (tiny_process n outcome g rs tasks d f) -> failed_execution g rs tasks tr (tiny_told n outcome other g rs tasks d f).
Proof.
  intros n outcome other g rs tasks d f tr T Etr. cbn [failed_test] in T. unfold tiny_process in Etr. unfold tiny_told.
  destruct (one_run_run n outcome g rs tasks) as (cs & R).
  destruct (one_run n outcome g rs tasks) as [[tr' s]|]; [|discriminate]. cbn [fst] in Etr. subst tr'.
  assert (Ph : exists u, ph s = Threw u) by (destruct (ph s); try discriminate; eexists; reflexivity).
  destruct Ph as (u & Ph). rewrite Ph in T |- *.
  exists one_worker, cs, s, u, outcome, other.
  split; [split; [discriminate|intros w [<- | []]; auto]|]. split; [exact R|]. split; [exact Ph|].
  apply existsb_exists in T. destruct T as (l & J & T). destruct l as [| |v o]; try discriminate.
  destruct o, outcome; try discriminate; apply Nat.eqb_eq in T; subst v; (split; [exact J|]); (split; [discriminate|reflexivity]).
Qed.

Lemma tiny_env_process : forall td outcome, env_process (tiny_env td outcome) = tiny_process 60 outcome.
Proof. reflexivity. Qed.

Lemma tiny_msg_process : forall outcome other, msg_process (tiny_messages outcome other) = tiny_told 60 outcome other.
Proof. reflexivity. Qed.

Lemma tiny_explained : forall td outcome other accepts argv,
  forallb (failed_test 60 outcome) (fst (main (tiny_env td outcome) accepts argv)) = true ->
  explained (tiny_env td outcome) (tiny_messages outcome other) (fst (main (tiny_env td outcome) accepts argv)).
Proof.
  intros td outcome other accepts argv H g rs tasks d f tr I _.
  rewrite forallb_forall in H. pose proof (H _ I) as T.
  destruct (processed_event _ _ _ _ _ _ _ _ _ I) as (a & fs & ts' & _ & _ & _ & _ & _ & Etr & _).
  rewrite tiny_env_process in Etr. rewrite tiny_msg_process. exact (tiny_failed 60 outcome other g rs tasks d f tr T Etr).
Qed.

Lemma job_checks_ids : checks_ids job_accepts.
Proof.
  intros s H. unfold job_accepts in H. cbn [job_convert] in H. destruct (id_of_string s); [discriminate|reflexivity].
Qed.

Lemma any_checks_ids : checks_ids any_text.
Proof. intros s H. discriminate. Qed.

(** The same target, twice *)
Lemma twice_run : exists events ns ts g,
  let env := tiny_env default_target_dir Succeeds in let argv := [lit "--targets=app,app"; lit "--config-default"] in
  main_told env (tiny_messages Succeeds []) job_accepts argv = (events, ns, Some 0%Z) /\ genuine env events /\
  In (CompletedNote 2) ns /\ has_value job_accepts argv Targets (PathsValue [mk_path false [lit "app"]; mk_path false [lit "app"]]) /\
  In (Scanned (mk_path false [dot]) default_target_dir (tiny_files default_target_dir)) events /\
  load_project (tiny_files default_target_dir) = Loaded (ts, g) /\
  forall p, part_of_target (tiny_files default_target_dir) g default_target_dir (mk_path false [lit "app"]) p -> p = mk_path false [lit "app.cpp"].
Proof.
  set (env := tiny_env default_target_dir Succeeds). set (argv := [lit "--targets=app,app"; lit "--config-default"]).
  assert (G : genuine env (fst (main env job_accepts argv))) by (apply tiny_genuine; vm_compute; reflexivity).
  destruct (told_same env (tiny_messages Succeeds []) job_accepts argv job_checks_ids G) as (ns & S).
  assert (Z : snd (main env job_accepts argv) = 0%Z) by (vm_compute; reflexivity).
  assert (N : snd (fst (main_told env (tiny_messages Succeeds []) job_accepts argv)) = [LoadedNote 4 2; CompletedNote 2])
    by (vm_compute; reflexivity).
  rewrite Z in S. rewrite S in N. cbn [fst snd] in N.
  destruct (load_project (tiny_files default_target_dir)) as [[ts g]|] eqn:L; [|vm_compute in L; discriminate].
  exists (fst (main env job_accepts argv)), ns, ts, g.
  split; [exact S|]. split; [exact G|]. split; [rewrite N; right; now left|].
  split; [apply value_test; vm_compute; reflexivity|]. split; [vm_compute; tauto|]. split; [reflexivity|].
  intros p (t & [J | [J | []]] & _ & Re); [vm_compute in J; discriminate|].
  assert (T : t_source t = mk_path false [lit "app.cpp"]) by (apply (f_equal snd) in J; cbn [snd] in J; now rewrite <- J).
  rewrite T in Re. clear T J S G. remember (mk_path false [lit "app.cpp"]) as q eqn:Q. destruct Re as [q|q r p D _]; [reflexivity|].
  exfalso. destruct D as (_ & d & (info & J & K) & _). subst q.
  vm_compute in L. apply (f_equal (fun x => match x with Loaded (_, g) => g | Failed _ => [] end)) in L. cbv beta iota in L. subst g.
  clear Z N. cbn [In] in J. destruct J as [J | [J | [J | [J | []]]]]; pose proof (f_equal fst J) as J1; cbn [fst] in J1; try discriminate.
  apply (f_equal snd) in J. cbn [snd] in J. subst info. destruct K as [[] | []].
Qed.
