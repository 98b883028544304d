(** Builds of a small project in which the linker fails. Helpers for examples and
    counterexamples. *)

From Coq Require Import Ascii String ZArith.
From Coq Require Import List.
From Verif Require Import Str Path SMap PathProofs DbModel DepGraphModel DepGraphSpec FileListModel FileListSpec.
From Verif Require Import SchedModel SchedSpec TaskListModel TaskListSpec BuildModel BuildSpec BuildProofs FailSpec FailProofs.
From Verif Require Import DepGraphProps FileListProps SchedProps BuildProps.
Import ListNotations.

Local Open Scope string_scope.
Local Open Scope list_scope.

(** The objects are up to date, and the linker is run. It ends with [o]. *)
Definition link_events (o : task_outcome) : list label :=
  [Submit 3; Submit 1; Start 3; Finish 3 Succeeds; Start 1; Finish 1 Succeeds; Submit 6; Start 6; Finish 6 o].

Definition link_setup : list task_result * list nat :=
  match make_target_task_list linked_graph (file "link") with Some x => x | None => ([], []) end.

Definition link_choices (o : task_outcome) : list choice :=
  greedy (task_reads linked_graph) (fun v => if Nat.eqb v 6 then o else Succeeds) 200 (init (fst link_setup) (snd link_setup) two_workers).

Lemma link_task_list : task_list linked_graph (fst link_setup) (snd link_setup).
Proof. right. exists (file "link"). split; [exists 6; vm_compute; reflexivity|vm_compute; reflexivity]. Qed.

Lemma link_run : forall o, o = Succeeds \/ o = Fails -> exists s,
    run (task_reads linked_graph) (link_choices o) (init (fst link_setup) (snd link_setup) two_workers) = Some (link_events o, s) /\
    ph s = match o with Succeeds => Returned 3 | _ => Threw 6 end.
Proof. intros o [-> | ->]; eexists; (split; [vm_compute; reflexivity|reflexivity]). Qed.

(** Up to the decision about the linker *)
Lemma link_begins : forall W D, (D = objects_built \/ D = everything_built) ->
    exists left, noted_build linked_graph false W D
      [Submit 3; Submit 1; Start 3; Finish 3 Succeeds; Start 1; Finish 1 Succeeds; Submit 6; Start 6] D
      [(6, task_needs_run linked_graph D false 6); (1, Some false); (3, Some false)] left.
Proof.
  intros W D HD. set (g := linked_graph).
  assert (E3 : task_needs_run g D false 3 = Some false) by (destruct HD as [-> | ->]; vm_compute; reflexivity).
  assert (E1 : task_needs_run g D false 1 = Some false) by (destruct HD as [-> | ->]; vm_compute; reflexivity).
  exists [(1, Succeeds, D); (3, Succeeds, D)].
  assert (B1 : noted_build g false W D [Submit 3; Submit 1; Start 3] D [(3, Some false)] []).
  { rewrite <- E3. apply (noted_starts g false W D [Submit 3; Submit 1] D [] [] 3).
    apply (noted_submits g false W D [Submit 3] D [] [] 1). apply (noted_submits g false W D [] D [] [] 3). constructor. }
  assert (B2 : noted_build g false W D [Submit 3; Submit 1; Start 3; Finish 3 Succeeds; Start 1] D [(1, Some false); (3, Some false)]
                 [(3, Succeeds, D)]).
  { rewrite <- E1 at 1. apply (noted_starts g false W D [Submit 3; Submit 1; Start 3; Finish 3 Succeeds] D [(3, Some false)] [(3, Succeeds, D)] 1).
    apply (noted_finishes g false W D [Submit 3; Submit 1; Start 3] D _ _ 3 Succeeds B1);
      [running_now|intros [H|[]]; discriminate|intros [H|[]]; discriminate]. }
  apply (noted_starts g false W D [Submit 3; Submit 1; Start 3; Finish 3 Succeeds; Start 1; Finish 1 Succeeds; Submit 6] D
           [(1, Some false); (3, Some false)] [(1, Succeeds, D); (3, Succeeds, D)] 6).
  apply (noted_submits g false W D [Submit 3; Submit 1; Start 3; Finish 3 Succeeds; Start 1; Finish 1 Succeeds] D
           [(1, Some false); (3, Some false)] [(1, Succeeds, D); (3, Succeeds, D)] 6).
  apply (noted_finishes g false W D [Submit 3; Submit 1; Start 3; Finish 3 Succeeds; Start 1] D _ _ 1 Succeeds B2);
    [running_now|intros [H|[H|[]]]; discriminate|intros [H|[H|[]]]; discriminate].
Qed.

Lemma only_app : forall D t q, ~ target_of linked_graph 6 q -> write (file "app") t D q = D q.
Proof. intros D t q Hq. apply write_other. intros ->. apply Hq. apply is_target. vm_compute. reflexivity. Qed.

(** The linker fails, and has written its output ([true]) or not ([false]). *)
Definition after_failure (written : bool) : disk := if written then everything_built else objects_built.

Lemma link_fails : forall written, exists dec left,
    noted_build linked_graph false anything objects_built (link_events Fails) (after_failure written) dec left /\
    invoked dec 6 /\ In (6, Fails, after_failure written) left.
Proof.
  intro written. destruct (link_begins anything objects_built (or_introl eq_refl)) as (left & B).
  assert (E6 : task_needs_run linked_graph objects_built false 6 = Some true) by (vm_compute; reflexivity).
  rewrite E6 in B. exists [(6, Some true); (1, Some false); (3, Some false)], ((6, Fails, after_failure written) :: left). split; [|split].
  - apply (noted_finishes linked_graph false anything objects_built
             [Submit 3; Submit 1; Start 3; Finish 3 Succeeds; Start 1; Finish 1 Succeeds; Submit 6; Start 6] _ _ left 6 Fails);
      [|running_now|discriminate|discriminate].
    destruct written; [|exact B].
    eapply (noted_writes linked_graph false anything objects_built _ _ _ _ _ 6 B); [left; reflexivity|running_now| |exact I].
    intros q Hq. apply only_app, Hq.
  - left. reflexivity.
  - left. reflexivity.
Qed.

(** Another build, with nothing to do *)
Lemma link_not_again : forall W, exists dec left,
    noted_build linked_graph false W everything_built (link_events Succeeds) everything_built dec left /\ forall v, ~ invoked dec v.
Proof.
  intro W. destruct (link_begins W everything_built (or_intror eq_refl)) as (left & B).
  assert (E6 : task_needs_run linked_graph everything_built false 6 = Some false) by (vm_compute; reflexivity).
  rewrite E6 in B. exists [(6, Some false); (1, Some false); (3, Some false)], ((6, Succeeds, everything_built) :: left). split.
  - apply (noted_finishes linked_graph false W everything_built
             [Submit 3; Submit 1; Start 3; Finish 3 Succeeds; Start 1; Finish 1 Succeeds; Submit 6; Start 6] _ _ left 6 Succeeds B);
      [running_now|intros [H|[H|[H|[]]]]; discriminate|intros [H|[H|[H|[]]]]; discriminate].
  - intros v [H|[H|[H|[]]]]; discriminate.
Qed.

(** Another build, where the linker succeeds *)
Lemma link_again : exists dec left,
    noted_build linked_graph false (since 11 objects_built) objects_built (link_events Succeeds) everything_built dec left.
Proof.
  destruct (link_begins (since 11 objects_built) objects_built (or_introl eq_refl)) as (left & B).
  assert (E6 : task_needs_run linked_graph objects_built false 6 = Some true) by (vm_compute; reflexivity).
  rewrite E6 in B. exists [(6, Some true); (1, Some false); (3, Some false)], ((6, Succeeds, everything_built) :: left).
  apply (noted_finishes linked_graph false (since 11 objects_built) objects_built
           [Submit 3; Submit 1; Start 3; Finish 3 Succeeds; Start 1; Finish 1 Succeeds; Submit 6; Start 6] _ _ left 6 Succeeds);
    [|running_now| |intros [H|[H|[H|[]]]]; discriminate].
  - eapply (noted_writes linked_graph false _ objects_built _ _ everything_built _ _ 6 B); [left; reflexivity|running_now| |].
    + intros q Hq. apply only_app, Hq.
    + intro q. destruct (path_eqb q (file "app")) eqn:E.
      * apply path_eqb_eq in E. subst q. right. right. left. exists 12%Z. split; [vm_compute; reflexivity|discriminate].
      * left. apply write_other. apply path_eqb_neq. exact E.
  - intros _ _. apply (not_needed_current linked_graph _ false). vm_compute. reflexivity.
Qed.

Lemma link_not_current : ~ current linked_graph objects_built 6.
Proof.
  intros (p & info & Hn & Hup).
  destruct (nth_error linked_graph 6) as [[p' info']|] eqn:E; [|discriminate]. injection Hn as -> ->.
  assert (Ht : exists t, In t (targets info) /\ ti_name t = file "app").
  { vm_compute in E. injection E as <- <-. eexists. split; [left; reflexivity|vm_compute; reflexivity]. }
  destruct Ht as (t & Ht & Et). specialize (Hup t Ht). rewrite Et in Hup.
  destruct Hup as [[z H]|[(ta & [H|H] & _) _]]; vm_compute in H; discriminate.
Qed.

Lemma link_not_affected : ~ affected_by_policy linked_graph 6.
Proof.
  assert (N : forall u, ~ always_rebuilt linked_graph u).
  { intros u (p & info & H & Hp).
    assert (F : forallb (fun e => negb (is_always (si_policy (snd e)))) linked_graph = true) by (vm_compute; reflexivity).
    rewrite forallb_forall in F. specialize (F _ (nth_error_In _ _ H)). cbn in F. rewrite Hp in F. discriminate. }
  intros [H|(p & u & q & _ & _ & H & _)]; eapply N; eauto.
Qed.

Lemma link_not_after : not_after 11 linked_graph 6 objects_built.
Proof.
  intros q t (p & info & ti & Hn & Ht & Hq) Hs. vm_compute in Hn. injection Hn as <- <-.
  destruct Ht as [<-|[]]. cbn in Hq. subst q. destruct Hs as [H|H]; vm_compute in H; discriminate.
Qed.

Lemma failure_forgotten : exists fs g rs tasks ws cs1 tr1 s1 D0 D1 dec1 left1 v cs2 tr2 s2 D2 dec2 left2,
    loaded fs g /\ proper_names fs g /\ task_list g rs tasks /\ idle_pool ws /\
    run (task_reads g) cs1 (init rs tasks ws) = Some (tr1, s1) /\
    noted_build g false anything D0 tr1 D1 dec1 left1 /\
    invoked dec1 v /\ In (Finish v Fails) tr1 /\ ph s1 = Threw v /\
    run (task_reads g) cs2 (init rs tasks ws) = Some (tr2, s2) /\
    noted_build g false anything D1 tr2 D2 dec2 left2 /\
    ph s2 = Returned 3 /\ forall u, ~ invoked dec2 u.
Proof.
  destruct (link_run Fails (or_intror eq_refl)) as (s1 & R1 & P1).
  destruct (link_run Succeeds (or_introl eq_refl)) as (s2 & R2 & P2).
  destruct (link_fails true) as (dec1 & left1 & B1 & I1 & _). destruct (link_not_again anything) as (dec2 & left2 & B2 & I2).
  exists linked_project, linked_graph, (fst link_setup), (snd link_setup), two_workers, (link_choices Fails), (link_events Fails), s1,
    objects_built, everything_built, dec1, left1, 6, (link_choices Succeeds), (link_events Succeeds), s2, everything_built, dec2, left2.
  split; [exact linked_loaded|]. split; [exact linked_names|]. split; [exact link_task_list|]. split; [exact two_workers_idle|].
  split; [exact R1|]. split; [exact B1|]. split; [exact I1|]. split; [cbn; tauto|]. split; [exact P1|].
  split; [exact R2|]. split; [exact B2|]. split; [exact P2|exact I2].
Qed.
