(** Builds of a small project, with contents. Helpers for examples and counterexamples. *)

From Coq Require Import Ascii String ZArith.
From Coq Require Import List.
From Verif Require Import Str Path SMap PathProofs DbModel DepGraphModel DepGraphSpec FileListModel FileListSpec.
From Verif Require Import SchedModel SchedSpec TaskListModel TaskListSpec BuildModel BuildSpec BuildProofs CleanSpec CleanProofs.
From Verif Require Import DepGraphProps FileListProps SchedProps BuildProps FailRun DueProps.
Import ListNotations.

Local Open Scope string_scope.
Local Open Scope list_scope.

Definition put {content : Type} (q : path) (c : content) (F : path -> content) : path -> content :=
  fun x => if path_eqb x q then c else F x.

Lemma put_other : forall (content : Type) q (c : content) F x, x <> q -> put q c F x = F x.
Proof. intros content q c F x H. unfold put. destruct (path_eqb x q) eqn:E; auto. apply path_eqb_eq in E. contradiction. Qed.

Section Steps.
  Context {content : Type}.
  Variables (g : file_list) (force : bool) (folder : path -> bool) (make : nat -> (path -> content) -> path -> content).
  Variables (D0 : disk) (F0 : path -> content).

  (** A recipe with one target is run. *)
  Lemma one_run tr D F dec v q c t : producing g force folder make D0 F0 tr D F dec ->
    (forall o, ~ In (Finish v o) tr) -> ~ In (v, None) dec ->
    task_needs_run g D force v = Some true -> (forall q', target_of g v q' <-> q' = q) ->
    make v (put q c F) q = c -> task_needs_run g (write q t D) false v = Some false ->
    producing g force folder make D0 F0 ((tr ++ [Start v]) ++ [Finish v Succeeds]) (write q t D) (put q c F) ((v, Some true) :: dec).
  Proof.
    intros H Nf Nn R Q M C.
    assert (P : in_progress (tr ++ [Start v]) v).
    { split; [apply in_or_app; right; now left|]. intros o I. apply in_app_or in I. destruct I as [I|[I|[]]]; [exact (Nf o I)|discriminate]. }
    apply producing_finishes; [|exact P| | | |].
    - apply (producing_writes g force folder make D0 F0 (tr ++ [Start v]) D F (write q t D) (put q c F) _ v); [|now left|exact P|].
      + rewrite <- R. now apply producing_starts.
      + intros x Hx. assert (x <> q) by (intro E; apply Hx; now apply Q). split; [now apply write_other|now apply put_other].
    - intros _ _. exact (not_needed_current g _ _ _ C).
    - intros _ _ x Hx _. apply Q in Hx. subst x. unfold write, put at 1. rewrite (proj2 (path_eqb_eq q q) eq_refl).
      split; [now exists t|]. symmetry. exact M.
    - intros _ N. now destruct N.
    - intros [I|I]; [discriminate|destruct (Nn I)].
  Qed.

  (** There is nothing to do. *)
  Lemma one_skipped tr D F dec v : producing g force folder make D0 F0 tr D F dec ->
    (forall o, ~ In (Finish v o) tr) -> (forall b, ~ In (v, b) dec) -> task_needs_run g D force v = Some false ->
    producing g force folder make D0 F0 ((tr ++ [Start v]) ++ [Finish v Succeeds]) D F ((v, Some false) :: dec).
  Proof.
    intros H Nf Nn R.
    assert (P : in_progress (tr ++ [Start v]) v).
    { split; [apply in_or_app; right; now left|]. intros o I. apply in_app_or in I. destruct I as [I|[I|[]]]; [exact (Nf o I)|discriminate]. }
    assert (Ni : ~ invoked ((v, Some false) :: dec) v) by (intros [I|I]; [discriminate|exact (Nn _ I)]).
    apply producing_finishes; [|exact P| | | |].
    - rewrite <- R. now apply producing_starts.
    - intro I. destruct (Ni I).
    - intro I. destruct (Ni I).
    - intro I. destruct (Ni I).
    - intros [I|I]; [discriminate|destruct (Nn _ I)].
  Qed.

  Definition yet (tr : list label) (v : nat) : bool :=
    existsb (fun l => match l with Finish w _ => Nat.eqb v w | _ => false end) tr.

  Lemma not_finished tr v : yet tr v = false -> forall o, ~ In (Finish v o) tr.
  Proof.
    intros H o I. assert (K : yet tr v = true); [|congruence]. apply existsb_exists. exists (Finish v o).
    split; [exact I|]. apply PeanoNat.Nat.eqb_refl.
  Qed.
End Steps.

(** What compilers and linkers do: the compiler adds [flag]. *)
Definition tool (flag : nat) (v : nat) (F : path -> list nat) (q : path) : list nat :=
  match v with
  | 1 => flag :: F (file "app.cpp") ++ F (file "lib/a.hpp")
  | 3 => flag :: F (file "lib/a.cpp") ++ F (file "lib/a.hpp")
  | 6 => F (file "app.o") ++ F (file "lib/a.o")
  | _ => []
  end.

Definition lib_only (q : path) : bool := path_eqb q (file "lib").

Lemma linked_input_internal : forall x, In x [file "app.cpp"; file "lib/a.cpp"; file "lib/a.hpp"; file "app.o"; file "lib/a.o"] ->
  internal linked_graph x.
Proof.
  assert (A : forallb (fun e => forallb (fun d => negb (existsb (path_eqb (dep_name d))
                   [file "app.cpp"; file "lib/a.cpp"; file "lib/a.hpp"; file "app.o"; file "lib/a.o"])
                 || negb (is_external (dep_origin d)))%bool (use_deps (snd e) ++ build_deps (snd e))) linked_graph = true) by (vm_compute; reflexivity).
  intros x Hx d (p & info & I & Hd) Eq. rewrite forallb_forall in A. pose proof (A _ I) as A'.
  cbn [snd] in A'. rewrite forallb_forall in A'. pose proof (A' d (in_or_app _ _ _ Hd)) as A2.
  assert (X : existsb (path_eqb (dep_name d)) [file "app.cpp"; file "lib/a.cpp"; file "lib/a.hpp"; file "app.o"; file "lib/a.o"] = true).
  { apply existsb_exists. exists x. split; [exact Hx|]. apply path_eqb_eq. exact Eq. }
  rewrite X in A2. destruct (is_external (dep_origin d)); [discriminate|reflexivity].
Qed.

Definition direct (p q : path) : bool :=
  existsb (fun e => (path_eqb (fst e) p && existsb (fun d => path_eqb (dep_name d) q) (use_deps (snd e) ++ build_deps (snd e)))%bool) linked_graph
  && existsb (path_eqb q) (map fst linked_graph).

Lemma direct_needed p q : direct p q = true -> path_eqb q p = false -> file_needs linked_graph p q.
Proof.
  intros H Ne. apply andb_prop in H. destruct H as [H K].
  apply existsb_exists in H. destruct H as ([p' info] & I & H). apply andb_prop in H. destruct H as [E H].
  cbn [fst snd] in E, H. apply path_eqb_eq in E. subst p'. apply existsb_exists in H. destruct H as (d & Hd & E).
  apply path_eqb_eq in E. apply existsb_exists in K. destruct K as (q' & Hq & Eq). apply path_eqb_eq in Eq. subst q'.
  split; [|intro X; rewrite X, (proj2 (path_eqb_eq p p) eq_refl) in Ne; discriminate].
  eapply reach_step; [|constructor]. split.
  - apply In_nth_error in Hq. destruct Hq as (k & Hk). exists k. exact Hk.
  - exists d. split; [|exact E]. exists info. split; [exact I|]. apply in_app_or in Hd. exact Hd.
Qed.

Lemma linked_inputs : forall v x, In (v, x) [(1, file "app.cpp"); (1, file "lib/a.hpp"); (3, file "lib/a.cpp"); (3, file "lib/a.hpp");
    (6, file "app.o"); (6, file "lib/a.o")] -> input linked_graph lib_only v x.
Proof.
  intros v x H.
  assert (I : In x [file "app.cpp"; file "lib/a.cpp"; file "lib/a.hpp"; file "app.o"; file "lib/a.o"]).
  { repeat (destruct H as [H|H]; [injection H as <- <-; cbn; tauto|]). destruct H. }
  split; [|split; [exact (linked_input_internal x I)|]].
  - repeat (destruct H as [H|H]; [injection H as <- <-|]); [..|destruct H].
    + exists (file "app.cpp"). split; [vm_compute; reflexivity|now left].
    + exists (file "app.cpp"). split; [vm_compute; reflexivity|right]. apply direct_needed; vm_compute; reflexivity.
    + exists (file "lib/a.cpp"). split; [vm_compute; reflexivity|now left].
    + exists (file "lib/a.cpp"). split; [vm_compute; reflexivity|right]. apply direct_needed; vm_compute; reflexivity.
    + exists (file "link"). split; [vm_compute; reflexivity|right]. apply direct_needed; vm_compute; reflexivity.
    + exists (file "link"). split; [vm_compute; reflexivity|right]. apply direct_needed; vm_compute; reflexivity.
  - clear H. repeat (destruct I as [<-|I]; [vm_compute; reflexivity|]). destruct I.
Qed.

Lemma tool_repeatable flag : repeatable linked_graph lib_only (tool flag).
Proof.
  intros v q F F' _ H. unfold tool.
  do 7 (destruct v as [|v]; [try reflexivity; rewrite !H by (apply linked_inputs; cbn; tauto); reflexivity|]).
  reflexivity.
Qed.

Lemma linked_unbuilt : unbuilt linked_graph lib_only nothing_built.
Proof.
  split.
  - intros x t. unfold nothing_built, write.
    repeat match goal with |- context [path_eqb x ?y] => destruct (path_eqb x y) eqn:? end; intro H; try discriminate. assumption.
  - intros v q Q _. apply linked_targets in Q. repeat (destruct Q as [<-|Q]; [vm_compute; reflexivity|]). destruct Q.
Qed.

Definition texts : path -> list nat := fun x =>
  if path_eqb x (file "app.cpp") then [1] else if path_eqb x (file "lib/a.cpp") then [2] else if path_eqb x (file "lib/a.hpp") then [3] else [].

(** The contents after all three recipes have been run *)
Definition object_1 (flag : nat) (F : path -> list nat) := put (file "lib/a.o") (tool flag 3 F (file "lib/a.o")) F.
Definition object_2 (flag : nat) (F : path -> list nat) := put (file "app.o") (tool flag 1 F (file "app.o")) F.
Definition program (flag : nat) (F : path -> list nat) := put (file "app") (tool flag 6 F (file "app")) F.

Lemma target_3 q : target_of linked_graph 3 q <-> q = file "lib/a.o".
Proof.
  split; [|intros ->; apply is_target; vm_compute; reflexivity].
  intros (p & info & t & E & It & <-). vm_compute in E. injection E as <- <-. destruct It as [<-|[]]. reflexivity.
Qed.
Lemma target_1 q : target_of linked_graph 1 q <-> q = file "app.o".
Proof.
  split; [|intros ->; apply is_target; vm_compute; reflexivity].
  intros (p & info & t & E & It & <-). vm_compute in E. injection E as <- <-. destruct It as [<-|[]]. reflexivity.
Qed.
Lemma target_6 q : target_of linked_graph 6 q <-> q = file "app".
Proof.
  split; [|intros ->; apply is_target; vm_compute; reflexivity].
  intros (p & info & t & E & It & <-). vm_compute in E. injection E as <- <-. destruct It as [<-|[]]. reflexivity.
Qed.

Ltac no_decision_yet := let H := fresh in intro H; repeat (destruct H as [H|H]; [discriminate H|]); destruct H.

Ltac was_run K v T := specialize (K ltac:(apply not_finished; reflexivity)); specialize (K ltac:(no_decision_yet));
  specialize (K ltac:(vm_compute; reflexivity)); specialize (K T); specialize (K eq_refl); specialize (K ltac:(vm_compute; reflexivity)).
Ltac was_skipped K v := specialize (K ltac:(apply not_finished; reflexivity)); specialize (K ltac:(intro; no_decision_yet));
  specialize (K ltac:(vm_compute; reflexivity)).

Lemma all_run flag F : producing linked_graph false lib_only (tool flag) nothing_built F (link_events Succeeds) everything_built
    (program flag (object_2 flag (object_1 flag F))) [(6, Some true); (1, Some true); (3, Some true)].
Proof.
  assert (B0 : producing linked_graph false lib_only (tool flag) nothing_built F [Submit 3; Submit 1] nothing_built F []).
  { apply (producing_submits linked_graph false lib_only (tool flag) nothing_built F [Submit 3] _ _ [] 1).
    apply (producing_submits linked_graph false lib_only (tool flag) nothing_built F [] _ _ [] 3). constructor. }
  pose proof (one_run linked_graph false lib_only (tool flag) nothing_built F _ _ _ _ 3 (file "lib/a.o") (tool flag 3 F (file "lib/a.o")) 10 B0) as B1. was_run B1 3 target_3.
  cbn [app] in B1. fold (object_1 flag F) in B1. change (write (file "lib/a.o") 10 nothing_built) with object_1_built in B1.
  pose proof (one_run linked_graph false lib_only (tool flag) nothing_built F _ _ _ _ 1 (file "app.o") (tool flag 1 (object_1 flag F) (file "app.o")) 11 B1) as B2. was_run B2 1 target_1.
  cbn [app] in B2. fold (object_2 flag (object_1 flag F)) in B2. change (write (file "app.o") 11 object_1_built) with objects_built in B2.
  pose proof (producing_submits linked_graph false lib_only (tool flag) nothing_built F _ _ _ _ 6 B2) as B3.
  pose proof (one_run linked_graph false lib_only (tool flag) nothing_built F _ _ _ _ 6 (file "app") (tool flag 6 (object_2 flag (object_1 flag F)) (file "app")) 12 B3) as K. was_run K 6 target_6. exact K.
Qed.

Lemma all_skipped flag F : producing linked_graph false lib_only (tool flag) everything_built F (link_events Succeeds) everything_built
    F [(6, Some false); (1, Some false); (3, Some false)].
Proof.
  assert (B0 : producing linked_graph false lib_only (tool flag) everything_built F [Submit 3; Submit 1] everything_built F []).
  { apply (producing_submits linked_graph false lib_only (tool flag) everything_built F [Submit 3] _ _ [] 1).
    apply (producing_submits linked_graph false lib_only (tool flag) everything_built F [] _ _ [] 3). constructor. }
  pose proof (one_skipped linked_graph false lib_only (tool flag) everything_built F _ _ _ _ 3 B0) as B1. was_skipped B1 3.
  pose proof (one_skipped linked_graph false lib_only (tool flag) everything_built F _ _ _ _ 1 B1) as B2. was_skipped B2 1.
  pose proof (producing_submits linked_graph false lib_only (tool flag) everything_built F _ _ _ _ 6 B2) as B3.
  pose proof (one_skipped linked_graph false lib_only (tool flag) everything_built F _ _ _ _ 6 B3) as K. was_skipped K 6. exact K.
Qed.

Lemma link_built flag D F D' F' dec : producing linked_graph false lib_only (tool flag) D F (link_events Succeeds) D' F' dec ->
  forall q, In q [file "lib/a.o"; file "app.o"; file "app"] -> built linked_graph lib_only (tool flag) D F D' F' q.
Proof.
  intros P q Hq. destruct (link_run Succeeds (or_introl eq_refl)) as (s & R & Ph).
  assert (V : exists v, In v (snd link_setup) /\ target_of linked_graph v q /\ lib_only q = false).
  { destruct Hq as [<-|[<-|[<-|[]]]]; [exists 3|exists 1|exists 6];
      (split; [vm_compute; tauto|split; [apply is_target; vm_compute; reflexivity|vm_compute; reflexivity]]). }
  destruct V as (v & Hv & Q & Fq).
  exists (fst link_setup), (snd link_setup), two_workers, (link_choices Succeeds), (link_events Succeeds), s, 3, false, dec, v.
  split; [exact link_task_list|]. split; [exact two_workers_idle|]. split; [exact R|]. split; [exact Ph|].
  exact (conj P (conj Hv (conj Q Fq))).
Qed.

Lemma linked_history flag F : history lib_only linked_project linked_graph (tool flag) everything_built
  (program flag (object_2 flag (object_1 flag F))).
Proof.
  destruct (link_run Succeeds (or_introl eq_refl)) as (s & R & Ph).
  apply (history_builds lib_only linked_project linked_graph (tool flag) nothing_built F (fst link_setup) (snd link_setup) two_workers
           (link_choices Succeeds) (link_events Succeeds) s false _ _ [(6, Some true); (1, Some true); (3, Some true)]).
  - apply history_begins; [exact (conj linked_loaded linked_names)|exact (tool_repeatable flag)|exact linked_unbuilt].
  - exact link_task_list.
  - exact two_workers_idle.
  - exact R.
  - rewrite Ph. exact I.
  - exact (all_run flag F).
Qed.

(** app.cpp has been changed, and then everything is built again. lib/a.o stays as it is. *)
Definition app_edited : disk := write (file "app.cpp") 20 everything_built.
Definition app_built : disk := write (file "app") 22 (write (file "app.o") 21 app_edited).

Lemma edited_build flag F : producing linked_graph false lib_only (tool flag) app_edited F (link_events Succeeds) app_built
    (program flag (object_2 flag F)) [(6, Some true); (1, Some true); (3, Some false)].
Proof.
  assert (B0 : producing linked_graph false lib_only (tool flag) app_edited F [Submit 3; Submit 1] app_edited F []).
  { apply (producing_submits linked_graph false lib_only (tool flag) app_edited F [Submit 3] _ _ [] 1).
    apply (producing_submits linked_graph false lib_only (tool flag) app_edited F [] _ _ [] 3). constructor. }
  pose proof (one_skipped linked_graph false lib_only (tool flag) app_edited F _ _ _ _ 3 B0) as B1. was_skipped B1 3.
  pose proof (one_run linked_graph false lib_only (tool flag) app_edited F _ _ _ _ 1 (file "app.o") (tool flag 1 F (file "app.o")) 21 B1) as B2.
  was_run B2 1 target_1.
  pose proof (producing_submits linked_graph false lib_only (tool flag) app_edited F _ _ _ _ 6 B2) as B3.
  pose proof (one_run linked_graph false lib_only (tool flag) app_edited F _ _ _ _ 6 (file "app")
                (tool flag 6 (object_2 flag F) (file "app")) 22 B3) as K. was_run K 6 target_6. exact K.
Qed.

Lemma edited_history flag F c : history lib_only linked_project linked_graph (tool flag) app_edited
  (put (file "app.cpp") c (program flag (object_2 flag (object_1 flag F)))).
Proof.
  apply (history_changes lib_only linked_project linked_graph (tool flag) everything_built _ _ _ _ _ _ (linked_history flag F)).
  - exact (conj linked_loaded linked_names).
  - exact (tool_repeatable flag).
  - intros x t. unfold app_edited, everything_built, objects_built, object_1_built, nothing_built, write.
    repeat match goal with |- context [path_eqb x ?y] => destruct (path_eqb x y) eqn:? end; intro H; try discriminate. assumption.
  - exists 12%Z. split; [|split].
    + intros x t. unfold stamped, everything_built, objects_built, object_1_built, nothing_built, write.
      repeat match goal with |- context [path_eqb x ?y] => destruct (path_eqb x y) end; intros [H|H]; try discriminate; injection H as <-; discriminate.
    + intros x _. destruct (path_eqb x (file "app.cpp")) eqn:E.
      * right. left. apply path_eqb_eq in E. subst x. split.
        -- intros u Q. apply linked_targets in Q. repeat (destruct Q as [Q|Q]; [vm_compute in Q; discriminate Q|]). destruct Q.
        -- exists 20%Z. split; [vm_compute; reflexivity|reflexivity].
      * left. unfold app_edited, write at 1, put at 1. rewrite E. split; reflexivity.
    + intros v' q Q _. right. exists v'. split; [exact Q|]. split; [intro x; apply iff_refl|]. split; [intros x _; apply iff_refl|reflexivity].
Qed.

(** The contents of app.cpp has been replaced, but its time stamp is as it was. Nothing is done. *)
Lemma old_file_kept : exists folder fs g (make : nat -> (path -> list nat) -> path -> list nat) D F x F' D1 F1 D2 D2' F2 q,
    history folder fs g make D F /\ not_built g x /\ (forall y, y <> x -> F' y = F y) /\
    built g folder make D F' D1 F1 q /\ unbuilt g folder D2 /\ built g folder make D2 F' D2' F2 q /\ F1 q <> F2 q.
Proof.
  set (F := program 0 (object_2 0 (object_1 0 texts))). set (F' := put (file "app.cpp") [7] F).
  exists lib_only, linked_project, linked_graph, (tool 0), everything_built, F, (file "app.cpp"), F', everything_built, F', nothing_built,
    everything_built, (program 0 (object_2 0 (object_1 0 F'))), (file "app").
  split; [exact (linked_history 0 texts)|]. split; [|split; [|split; [|split; [|split]]]].
  - intros u Q. apply linked_targets in Q. repeat (destruct Q as [Q|Q]; [vm_compute in Q; discriminate Q|]). destruct Q.
  - intros y Ny. apply put_other. exact Ny.
  - apply (link_built 0 _ _ _ _ _ (all_skipped 0 F')). right. right. left. reflexivity.
  - exact linked_unbuilt.
  - apply (link_built 0 _ _ _ _ _ (all_run 0 F')). right. right. left. reflexivity.
  - intro H. vm_compute in H. discriminate H.
Qed.

(** The compiler flag has been changed. Nothing is done. *)
Lemma old_flags_kept : exists folder fs g (make make' : nat -> (path -> list nat) -> path -> list nat) D F D1 F1 D2 D2' F2 q,
    history folder fs g make D F /\ repeatable g folder make' /\
    built g folder make' D F D1 F1 q /\ unbuilt g folder D2 /\ built g folder make' D2 F D2' F2 q /\ F1 q <> F2 q.
Proof.
  set (F := program 0 (object_2 0 (object_1 0 texts))).
  exists lib_only, linked_project, linked_graph, (tool 0), (tool 9), everything_built, F, everything_built, F, nothing_built,
    everything_built, (program 9 (object_2 9 (object_1 9 F))), (file "app").
  split; [exact (linked_history 0 texts)|]. split; [exact (tool_repeatable 9)|]. split; [|split; [|split]].
  - apply (link_built 9 _ _ _ _ _ (all_skipped 9 F)). right. right. left. reflexivity.
  - exact linked_unbuilt.
  - apply (link_built 9 _ _ _ _ _ (all_run 9 F)). right. right. left. reflexivity.
  - intro H. vm_compute in H. discriminate H.
Qed.
