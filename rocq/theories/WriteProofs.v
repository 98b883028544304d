(** Proofs about the compilation log as a whole. *)

From Coq Require Import List Arith Bool Lia Permutation Wf_nat.
From Verif Require Import Str ValueModel BuildModel LogModel SchedModel SchedSpec SchedProofs WriteModel WriteSpec.
Import ListNotations.

Lemma lookup_set : forall v p o out err L u,
  lookup_todo u (todo (set_todo v p o out err L)) = if v =? u then p else lookup_todo u (todo L).
Proof. intros. reflexivity. Qed.

Lemma step_labels : forall reads c s l s', step reads c s = Some (l, s') -> l = [] \/ exists x, l = [x].
Proof.
  intros reads c s l s' H. destruct c as [k|i o| |i]; simpl in H.
  - unfold process_step in H.
    repeat match type of H with context [match ?x with _ => _ end] => destruct x end;
      inversion H; subst; eauto.
  - unfold worker_step in H.
    repeat match type of H with context [match ?x with _ => _ end] => destruct x end;
      inversion H; subst; eauto.
  - unfold spurious_process in H. destruct (ph s); inversion H; subst; auto.
  - unfold spurious_worker in H. destruct (nth_error (workers s) i) as [[]|]; inversion H; subst; auto.
Qed.

Section Logged.
  Variable reads : nat -> list nat.
  Variable level : log_level.
  Variable info : nat -> task_info.
  Variable result : nat -> run_result.
  Variable rs : list task_result.
  Variable tasks : list nat.
  Variable ws : list worker.
  Hypothesis Hsetup : task_setup reads rs tasks.
  Hypothesis Hpool : idle_pool ws.

  Inductive fexec : list label -> state * log_state -> Prop :=
  | fexec_init : fexec [] (full_init rs tasks ws)
  | fexec_step : forall tr F c l F', fexec tr F -> full_step reads level info result c F = Some (l, F') ->
                                     fexec (tr ++ l) F'.

  Lemma full_run_fexec : forall cs tr0 F0 tr F, fexec tr0 F0 ->
    full_run reads level info result cs F0 = Some (tr, F) -> fexec (tr0 ++ tr) F.
  Proof.
    induction cs as [|c cs IH]; intros tr0 F0 tr F H0 H; cbn [full_run] in H.
    - inversion H; subst. now rewrite app_nil_r.
    - destruct (full_step reads level info result c F0) as [[l F1]|] eqn:E; [|discriminate].
      destruct (full_run reads level info result cs F1) as [[tr' F2]|] eqn:E'; [|discriminate].
      inversion H; subst. rewrite app_assoc. apply IH with F1; [|exact E'].
      apply fexec_step with F0 c; assumption.
  Qed.

  Lemma fexec_exec : forall tr F, fexec tr F -> exec reads (init rs tasks ws) tr (fst F).
  Proof.
    intros tr F H. induction H as [|tr F c l F' H IH Hs].
    - constructor.
    - destruct c as [c|v]; cbn [full_step] in Hs.
      + destruct (step reads c (fst F)) as [[l' s]|] eqn:E; [|discriminate].
        destruct (accept_all level info result l' (snd F)) as [L|]; [|discriminate].
        inversion Hs; subst. apply exec_step with (s := fst F) (c := c); assumption.
      + destruct (act v (snd F)) as [L|]; [|discriminate]. inversion Hs; subst. now rewrite app_nil_r.
  Qed.

  Local Notation outs order := (concat (map (out_record level info result) order)).
  Local Notation errs order := (concat (map (err_record level info result) order)).
  Local Notation actions v := (task_actions level (info v) (result v)).

  (** How far the owner of the mutex has come. *)
  Definition within (v : nat) (order : list nat) (L : log_state) : Prop :=
    exists out_part err_part out_rest err_rest,
      out_text L = outs order ++ out_part /\ err_text L = errs order ++ err_part /\
      out_record level info result v = out_part ++ out_rest /\
      err_record level info result v = err_part ++ err_rest /\
      ((err_part = [] /\ result v = Skipped /\ err_rest = [] /\
        lookup_todo v (todo L) = [PutOut out_rest; Unlock]) \/
       (err_part = [] /\ lookup_todo v (todo L) = [PutOut out_rest; PutErr err_rest; Unlock]) \/
       (out_rest = [] /\ lookup_todo v (todo L) = [PutErr err_rest; Unlock]) \/
       (out_rest = [] /\ err_rest = [] /\ lookup_todo v (todo L) = [Unlock])).

  Record linv (tr : list label) (L : log_state) (order : list nat) : Prop := mk_linv {
    li_nodup : NoDup order;
    li_order : forall v, In v order -> In (Start v) tr /\ result v <> Raised /\ lookup_todo v (todo L) = [];
    li_started : forall v, In (Start v) tr -> ~ In v order -> owner L <> Some v ->
                           lookup_todo v (todo L) = actions v;
    li_others : forall v, ~ In (Start v) tr -> lookup_todo v (todo L) = [];
    li_owner : match owner L with
               | None => out_text L = outs order /\ err_text L = errs order
               | Some v => In (Start v) tr /\ ~ In v order /\ result v <> Raised /\ within v order L
               end;
    li_finished : forall v o, In (Finish v o) tr -> o = task_end (result v) /\ (result v = Raised \/ In v order);
    li_first : dependencies_first reads tasks order
  }.

  Lemma linv_init : linv [] (mk_log_state None [] [] []) [].
  Proof.
    constructor; try (intros; contradiction); auto.
    - constructor.
    - now split.
    - intros l1 v l2 E. destruct l1; discriminate.
  Qed.

  Lemma actions_nil : forall v, actions v = [] -> result v = Raised.
  Proof. intros v H. destruct (result v); [reflexivity|discriminate|discriminate]. Qed.

  Lemma within_todo : forall v order L, within v order L -> lookup_todo v (todo L) <> [].
  Proof.
    intros v order L (a & b & c & d & _ & _ & _ & _ & H) E. rewrite E in H.
    destruct H as [H | [H | [H | H]]]; decompose [and] H; discriminate.
  Qed.

  Lemma within_same : forall v order L L', within v order L ->
    out_text L' = out_text L -> err_text L' = err_text L -> lookup_todo v (todo L') = lookup_todo v (todo L) ->
    within v order L'.
  Proof. intros v order L L' H E1 E2 E3. unfold within in *. rewrite E1, E2, E3. exact H. Qed.

  Lemma linv_label : forall tr s l L L' order, exec reads (init rs tasks ws) (tr ++ [l]) s ->
    linv tr L order -> accept level info result l L = Some L' -> linv (tr ++ [l]) L' order.
  Proof.
    intros tr s l L L' order Hex [Hn Ho Hs Hoth Hown Hfin Hfst] H.
    assert (In_l : forall x, In x (tr ++ [l]) <-> In x tr \/ x = l).
    { intros x. rewrite in_app_iff. simpl. intuition congruence. }
    destruct l as [v|v|v o]; cbn [accept] in H.
    - inversion H; subst L'. constructor; auto.
      + intros u Hu. destruct (Ho u Hu) as (A & B & C). rewrite In_l. auto.
      + intros u Hu. apply Hs. apply In_l in Hu. destruct Hu as [Hu|Hu]; [exact Hu|discriminate].
      + intros u Hu. apply Hoth. intro X. apply Hu, In_l. now left.
      + destruct (owner L); [|exact Hown]. rewrite In_l. intuition.
      + intros u o' Hu. apply In_l in Hu. destruct Hu as [Hu|Hu]; [|discriminate]. now apply Hfin.
    - inversion H; subst L'. clear H.
      assert (Hnew : ~ In (Start v) tr).
      { destruct (started_tasks reads rs tasks ws Hsetup Hpool _ _ Hex) as [Hnd _].
        rewrite started_app in Hnd. simpl in Hnd. intro X. apply started_in in X.
        apply NoDup_remove_2 in Hnd. apply Hnd. rewrite app_nil_r. exact X. }
      assert (Hno : ~ In v order). { intro X. apply Hnew. now apply Ho. }
      constructor; auto.
      + intros u Hu. destruct (Ho u Hu) as (A & B & C). rewrite In_l, lookup_set.
        destruct (Nat.eqb_spec v u) as [->|N]; [contradiction|]. auto.
      + intros u Hu Hu' Hu''. rewrite lookup_set. destruct (Nat.eqb_spec v u) as [->|N]; [reflexivity|].
        apply Hs; auto. apply In_l in Hu. destruct Hu as [Hu|Hu]; [exact Hu|]. inversion Hu. congruence.
      + intros u Hu. rewrite lookup_set. destruct (Nat.eqb_spec v u) as [->|N].
        * exfalso. apply Hu, In_l. now right.
        * apply Hoth. intro X. apply Hu, In_l. now left.
      + cbn [owner set_todo]. destruct (owner L) as [u|] eqn:E; [|exact Hown].
        destruct Hown as (A & B & C & D). rewrite In_l. split; [now left|]. split; [exact B|]. split; [exact C|].
        apply (within_same u order L); auto. rewrite lookup_set.
        destruct (Nat.eqb_spec v u) as [->|N]; [contradiction|reflexivity].
      + intros u o' Hu. apply In_l in Hu. destruct Hu as [Hu|Hu]; [|discriminate]. now apply Hfin.
    - assert (HL : L' = L /\ lookup_todo v (todo L) = [] /\ o = task_end (result v)).
      { destruct (lookup_todo v (todo L)); [|discriminate].
        destruct o, (task_end (result v)); inversion H; auto. }
      destruct HL as (-> & Hnil & Hend). clear H. constructor; auto.
      + intros u Hu. destruct (Ho u Hu) as (A & B & C). rewrite In_l. auto.
      + intros u Hu. apply Hs. apply In_l in Hu. destruct Hu as [Hu|Hu]; [exact Hu|discriminate].
      + intros u Hu. apply Hoth. intro X. apply Hu, In_l. now left.
      + destruct (owner L); [|exact Hown]. rewrite In_l. intuition.
      + intros u o' Hu. apply In_l in Hu. destruct Hu as [Hu|Hu]; [now apply Hfin|].
        inversion Hu; subst u o'. split; [exact Hend|].
        destruct (in_dec Nat.eq_dec v order) as [X|X]; [now right|left]. apply actions_nil.
        rewrite <- Hs; auto.
        * assert (Y : In (Start v) (tr ++ [Finish v o])).
          { apply (finish_started reads rs tasks ws Hsetup Hpool _ _ v o Hex). apply In_l. now right. }
          apply In_l in Y. destruct Y as [Y|Y]; [exact Y|discriminate].
        * intro E. rewrite E in Hown. destruct Hown as (_ & _ & _ & D). now apply (within_todo _ _ _ D).
  Qed.

  Lemma outs_last : forall order v, outs (order ++ [v]) = outs order ++ out_record level info result v.
  Proof. intros. rewrite map_app, concat_app. simpl. now rewrite app_nil_r. Qed.

  Lemma errs_last : forall order v, errs (order ++ [v]) = errs order ++ err_record level info result v.
  Proof. intros. rewrite map_app, concat_app. simpl. now rewrite app_nil_r. Qed.

  Lemma first_last : forall order v, dependencies_first reads tasks order ->
    (forall d, In d (reads v) -> In d tasks -> In d order) -> ~ In v order ->
    dependencies_first reads tasks (order ++ [v]).
  Proof.
    intros order v H Hv Hno l1 u l2 E d Hd Ht.
    destruct l2 as [|x l2] using rev_ind.
    - apply app_inj_tail in E. destruct E as [-> ->]. now apply Hv.
    - rewrite app_comm_cons, app_assoc in E. apply app_inj_tail in E. destruct E as [-> _].
      now apply (H l1 u l2).
  Qed.

  (** A step that does not release the mutex. *)
  Lemma linv_act : forall tr s v L L' order, exec reads (init rs tasks ws) tr s ->
    linv tr L order -> act v L = Some L' -> exists order', linv tr L' order'.
  Proof.
    intros tr s v L L' order Hex [Hn Ho Hs Hoth Hown Hfin Hfst] H. unfold act in H.
    assert (Hst : In (Start v) tr).
    { destruct (in_dec Nat.eq_dec v (started tr)) as [X|X]; [now apply started_in|].
      rewrite Hoth in H; [discriminate|]. intro Y. apply X. now apply started_in. }
    assert (Hno : ~ In v order). { intro X. destruct (Ho v X) as (_ & _ & E). rewrite E in H. discriminate. }
    (* nobody else's actions change *)
    assert (Keep : forall p o' out err, owner L = Some v ->
              (o' = Some v \/ o' = None) ->
              (forall u, In u order -> lookup_todo u (todo (set_todo v p o' out err L)) = []) /\
              (forall u, In (Start u) tr -> ~ In u order -> u <> v ->
                         lookup_todo u (todo (set_todo v p o' out err L)) = actions u) /\
              (forall u, ~ In (Start u) tr -> lookup_todo u (todo (set_todo v p o' out err L)) = [])).
    { intros p o' out err Eo _. repeat split; intros u Hu.
      - rewrite lookup_set. destruct (Nat.eqb_spec v u) as [->|N]; [contradiction|]. now apply Ho.
      - intros Hu' Nv. rewrite lookup_set. destruct (Nat.eqb_spec v u) as [->|N]; [congruence|].
        apply Hs; auto. rewrite Eo. congruence.
      - rewrite lookup_set. destruct (Nat.eqb_spec v u) as [->|N]; [contradiction|]. now apply Hoth. }
    destruct (owner L) as [w|] eqn:Eo.
    - destruct (Nat.eq_dec w v) as [->|Nw].
      + destruct Hown as (_ & _ & Hr & Hw).
        destruct Hw as (op & ep & orest & erest & Eout & Eerr & Eor & Eer & Hcase).
        assert (Same : forall p out err, L' = set_todo v p (Some v) out err L ->
                  within v order L' -> linv tr L' order).
        { intros p out err -> HW. destruct (Keep p (Some v) out err eq_refl (or_introl eq_refl)) as (K1 & K2 & K3).
          constructor; auto.
          - intros u Hu. destruct (Ho u Hu) as (A & B & _). auto.
          - intros u Hu Hu' Hu''. apply K2; auto. intro; subst. now apply Hu''.
          - cbn [owner set_todo]. auto. }
        destruct Hcase as [(-> & Esk & -> & Et) | [(-> & Et) | [(-> & Et) | (-> & -> & Et)]]]; rewrite Et in H.
        * exists order. destruct orest as [|c orest]; inversion H; subst L'.
          -- apply (Same _ _ _ eq_refl). exists op, [], [], [].
             repeat split; auto. right; right; right. repeat split; auto.
             rewrite lookup_set, Nat.eqb_refl. reflexivity.
          -- apply (Same _ _ _ eq_refl). exists (op ++ [c]), [], orest, [].
             cbn [out_text err_text set_todo].
             repeat split; auto. now rewrite Eout, app_assoc. now rewrite Eor, <- app_assoc.
             left. repeat split; auto. rewrite lookup_set, Nat.eqb_refl. reflexivity.
        * exists order. destruct orest as [|c orest]; inversion H; subst L'.
          -- apply (Same _ _ _ eq_refl). exists op, [], [], erest.
             repeat split; auto. right; right; left. split; auto.
             rewrite lookup_set, Nat.eqb_refl. reflexivity.
          -- apply (Same _ _ _ eq_refl). exists (op ++ [c]), [], orest, erest.
             cbn [out_text err_text set_todo].
             repeat split; auto. now rewrite Eout, app_assoc. now rewrite Eor, <- app_assoc.
             right; left. repeat split; auto. rewrite lookup_set, Nat.eqb_refl. reflexivity.
        * exists order. destruct erest as [|c erest]; inversion H; subst L'.
          -- apply (Same _ _ _ eq_refl). exists op, ep, [], [].
             repeat split; auto. right; right; right. repeat split; auto.
             rewrite lookup_set, Nat.eqb_refl. reflexivity.
          -- apply (Same _ _ _ eq_refl). exists op, (ep ++ [c]), [], erest.
             cbn [out_text err_text set_todo].
             repeat split; auto. now rewrite Eerr, app_assoc. now rewrite Eer, <- app_assoc.
             right; right; left. repeat split; auto. rewrite lookup_set, Nat.eqb_refl. reflexivity.
        * exists (order ++ [v]). inversion H; subst L'. clear H.
          destruct (Keep [] None (out_text L) (err_text L) eq_refl (or_intror eq_refl)) as (K1 & K2 & K3).
          rewrite app_nil_r in Eor, Eer.
          constructor; auto.
          -- apply Permutation_NoDup with (v :: order); [apply Permutation_cons_append|]. now constructor.
          -- intros u Hu. apply in_app_or in Hu. destruct Hu as [Hu | [<- | []]].
             ++ destruct (Ho u Hu) as (A & B & _). auto.
             ++ split; [exact Hst|]. split; [exact Hr|]. rewrite lookup_set, Nat.eqb_refl. reflexivity.
          -- intros u Hu Hu' _. apply K2; auto.
             ++ intro X. apply Hu', in_or_app. now left.
             ++ intros ->. apply Hu', in_or_app. right. now left.
          -- cbn [owner set_todo out_text err_text]. rewrite outs_last, errs_last, Eor, Eer. now split.
          -- intros u o Hu. destruct (Hfin u o Hu) as (A & [B|B]); split; auto.
             right. apply in_or_app. now left.
          -- apply first_last; auto. intros d Hd Ht.
             apply in_split in Hst. destruct Hst as (tr1 & tr2 & Etr).
             assert (Hf : In (Finish d Succeeds) tr).
             { rewrite Etr. apply in_or_app. left.
               apply (started_ready reads rs tasks ws Hsetup Hpool tr s Hex tr1 v tr2 Etr d Hd Ht). }
             destruct (Hfin d Succeeds Hf) as (A & [B|B]); [|exact B].
             rewrite B in A. discriminate.
      + exfalso. rewrite Hs in H; auto; [|congruence].
        destruct (result v); cbn [task_actions write_result write_skipped] in H; discriminate.
    - assert (Et : lookup_todo v (todo L) = actions v). { apply Hs; auto. discriminate. }
      assert (Hr : result v <> Raised). { intro X. rewrite Et, X in H. discriminate. }
      destruct Hown as [Eout Eerr].
      assert (K : forall p, L' = set_todo v p (Some v) (out_text L) (err_text L) L -> within v order L' -> linv tr L' order).
      { intros p -> HW. constructor; auto.
        - intros u Hu. destruct (Ho u Hu) as (A & B & C). rewrite lookup_set.
          destruct (Nat.eqb_spec v u) as [->|N]; [contradiction|]. auto.
        - intros u Hu Hu' Hu''. rewrite lookup_set. destruct (Nat.eqb_spec v u) as [->|N].
          + exfalso. now apply Hu''.
          + apply Hs; auto. discriminate.
        - intros u Hu. rewrite lookup_set. destruct (Nat.eqb_spec v u) as [->|N]; [contradiction|]. now apply Hoth.
        - cbn [owner set_todo]. auto. }
      exists order. rewrite Et in H. unfold within in K.
      destruct (result v) as [| |st o e] eqn:Er; [congruence| |];
        cbn [task_actions write_result write_skipped] in H; inversion H; subst L'; apply (K _ eq_refl);
        exists [], [], (out_record level info result v), (err_record level info result v);
        cbn [out_text err_text set_todo]; rewrite !app_nil_r; repeat split; auto.
      + left. repeat split; auto.
        * unfold err_record. now rewrite Er.
        * unfold out_record. rewrite Er. change ((if v =? v then [PutOut (log_skipped level (info v)); Unlock] else lookup_todo v (todo L))
             = [PutOut (log_skipped level (info v)); Unlock]). now rewrite Nat.eqb_refl.
      + right; left. split; auto. unfold out_record, err_record. rewrite Er. rewrite lookup_set, Nat.eqb_refl. reflexivity.
  Qed.

  Lemma fexec_linv : forall tr F, fexec tr F -> exists order, linv tr (snd F) order.
  Proof.
    intros tr F H. induction H as [|tr F c l F' H IH Hs].
    - exists []. apply linv_init.
    - destruct IH as [order IH].
      assert (Hex : exec reads (init rs tasks ws) (tr ++ l) (fst F')).
      { apply fexec_exec. apply fexec_step with F c; assumption. }
      destruct c as [c|v]; cbn [full_step] in Hs.
      + destruct (step reads c (fst F)) as [[l' s]|] eqn:E; [|discriminate].
        destruct (accept_all level info result l' (snd F)) as [L|] eqn:EL; [|discriminate].
        inversion Hs; subst l' F'. cbn [fst snd] in *.
        destruct (step_labels _ _ _ _ _ E) as [-> | [x ->]].
        * cbn [accept_all] in EL. inversion EL; subst L. rewrite app_nil_r. now exists order.
        * cbn [accept_all] in EL. destruct (accept level info result x (snd F)) as [L1|] eqn:Ea; [|discriminate].
          inversion EL; subst L1. exists order. apply (linv_label tr s x (snd F) L order); assumption.
      + destruct (act v (snd F)) as [L|] eqn:Ea; [|discriminate]. inversion Hs; subst l F'.
        rewrite app_nil_r in *. cbn [fst snd] in *. apply (linv_act tr (fst F) v (snd F) L order); assumption.
  Qed.

  (** At any time. *)
  Theorem records_whole : forall tr F, fexec tr F ->
    exists order, NoDup order /\ (forall v, In v order -> In v (started tr) /\ In v tasks) /\
      dependencies_first reads tasks order /\
      (forall v o, In (Finish v o) tr -> o = Throws \/ In v order) /\
      whole_records level info result order (out_text (snd F)) (err_text (snd F)).
  Proof.
    intros tr F H. pose proof (fexec_exec tr F H) as Hex. destruct (fexec_linv tr F H) as [order I].
    exists order. split; [apply I|]. split; [|split; [apply I|split]].
    - intros v Hv. assert (X : In v (started tr)) by (apply started_in; now apply (li_order _ _ _ I)).
      split; [exact X|]. now apply (started_tasks reads rs tasks ws Hsetup Hpool _ _ Hex).
    - intros v o Hf. destruct (li_finished _ _ _ I v o Hf) as (A & [B|B]); [left|now right].
      rewrite A, B. reflexivity.
    - pose proof (li_owner _ _ _ I) as Ho. destruct (owner (snd F)) as [v|].
      + destruct Ho as (_ & Hno & _ & (op & ep & orest & erest & E1 & E2 & E3 & E4 & Hc)).
        exists op, ep. split; [exact E1|]. split; [exact E2|]. right. exists v, orest, erest.
        repeat split; auto. destruct Hc as [(-> & _) | [(-> & _) | [(-> & _) | (-> & _)]]]; auto.
      + destruct Ho as [E1 E2]. exists [], []. rewrite !app_nil_r. auto.
  Qed.

  (** At the end. *)
  Theorem records_at_end : forall tr F, fexec tr F -> final (ph (fst F)) ->
    exists order, NoDup order /\
      (forall v, In v order <-> In (Finish v Succeeds) tr \/ In (Finish v Fails) tr) /\
      dependencies_first reads tasks order /\
      out_text (snd F) = outs order /\ err_text (snd F) = errs order.
  Proof.
    intros tr F H Hf. pose proof (fexec_exec tr F H) as Hex. destruct (fexec_linv tr F H) as [order I].
    assert (Fin : forall v, In (Start v) tr -> exists o, In (Finish v o) tr).
    { intros v Hv. pose proof (final_finished reads rs tasks ws Hsetup Hpool tr (fst F) Hex Hf) as P.
      apply started_in in Hv. apply finished_in. destruct P as [P _]. revert P Hv. clear. intros P Hv.
      first [exact (Permutation_in v P Hv) | exact (Permutation_in v (Permutation_sym P) Hv)]. }
    exists order. split; [apply I|]. split; [|split; [apply I|]].
    - intros v. split.
      + intros Hv. destruct (li_order _ _ _ I v Hv) as (A & B & _). destruct (Fin v A) as [o Ho].
        destruct (li_finished _ _ _ I v o Ho) as [-> _].
        destruct (result v) as [| |st ? ?]; [congruence|now left|]. cbn [task_end] in Ho.
        destruct (failed st); [now right|now left].
      + intros Hv. assert (X : exists o, In (Finish v o) tr /\ o <> Throws).
        { destruct Hv as [Hv|Hv]; [exists Succeeds|exists Fails]; split; auto; discriminate. }
        destruct X as (o & Ho & No). destruct (li_finished _ _ _ I v o Ho) as (A & [B|B]); [|exact B].
        rewrite A, B in No. now elim No.
    - pose proof (li_owner _ _ _ I) as Ho. destruct (owner (snd F)) as [v|]; [|exact Ho].
      exfalso. destruct Ho as (A & B & C & D). destruct (Fin v A) as [o Hv].
      destruct (li_finished _ _ _ I v o Hv) as (_ & [E|E]); contradiction.
  Qed.

  (** ** The build ends *)

  Hypothesis Hraised : forall v, In v tasks -> result v = Raised -> not_waited_for reads tasks v.

  Definition cost (a : action) : nat :=
    match a with Lock | Unlock => 1 | PutOut s | PutErr s => S (length s) end.
  Definition costs (p : list action) : nat := fold_right (fun a n => cost a + n) 0 p.
  Definition log_work (L : log_state) : nat := fold_right (fun v n => costs (lookup_todo v (todo L)) + n) 0 tasks.

  Lemma act_todo : forall v L L', act v L = Some L' -> exists p o out err,
    L' = set_todo v p o out err L /\ costs p < costs (lookup_todo v (todo L)).
  Proof.
    intros v L L' H. unfold act in H. destruct (lookup_todo v (todo L)) as [|a p]; [discriminate|].
    destruct a as [|[|c s]|[|c s]|].
    - destruct (owner L); [discriminate|]. inversion H. do 4 eexists. split; [reflexivity|]. simpl. lia.
    - inversion H. do 4 eexists. split; [reflexivity|]. simpl. lia.
    - inversion H. do 4 eexists. split; [reflexivity|]. simpl. lia.
    - inversion H. do 4 eexists. split; [reflexivity|]. simpl. lia.
    - inversion H. do 4 eexists. split; [reflexivity|]. simpl. lia.
    - inversion H. do 4 eexists. split; [reflexivity|]. simpl. lia.
  Qed.

  Lemma log_work_less : forall v p o out err L, In v tasks -> costs p < costs (lookup_todo v (todo L)) ->
    log_work (set_todo v p o out err L) < log_work L.
  Proof.
    intros v p o out err L Hin Hlt. unfold log_work.
    set (f := fun u n => costs (lookup_todo u (todo (set_todo v p o out err L))) + n).
    set (g := fun u n => costs (lookup_todo u (todo L)) + n).
    assert (Le : forall l, fold_right f 0 l <= fold_right g 0 l).
    { induction l as [|u l IH]; [auto|]. cbn [fold_right]. unfold f at 1, g at 1. rewrite lookup_set.
      destruct (Nat.eqb_spec v u) as [->|]; lia. }
    revert Hin. generalize tasks as l. induction l as [|u l IH]; intros Hin; [contradiction|].
    cbn [fold_right]. specialize (Le l). unfold f at 1, g at 1. rewrite lookup_set.
    destruct Hin as [-> | Hin].
    - rewrite Nat.eqb_refl. lia.
    - specialize (IH Hin). destruct (Nat.eqb_spec v u) as [->|]; lia.
  Qed.

  Lemma act_decreases : forall tr F v L', fexec tr F -> act v (snd F) = Some L' -> log_work L' < log_work (snd F).
  Proof.
    intros tr F v L' H Ha. pose proof (fexec_exec tr F H) as Hex. destruct (fexec_linv tr F H) as [order I].
    destruct (act_todo _ _ _ Ha) as (p & o & out & err & -> & Hlt).
    apply log_work_less; [|exact Hlt].
    apply (started_tasks reads rs tasks ws Hsetup Hpool _ _ Hex).
    destruct (in_dec Nat.eq_dec v (started tr)) as [X|X]; [exact X|].
    rewrite (li_others _ _ _ I) in Hlt; [simpl in Hlt; lia|]. intro Y. apply X. now apply started_in.
  Qed.

  (** A thread that has something to write, or the one it waits for, can proceed. *)
  Lemma act_enabled : forall tr F v, fexec tr F -> lookup_todo v (todo (snd F)) <> [] ->
    exists u L', act u (snd F) = Some L'.
  Proof.
    intros tr F v H Hv. destruct (fexec_linv tr F H) as [order I].
    pose proof (li_owner _ _ _ I) as Ho. destruct (owner (snd F)) as [u|] eqn:Eo.
    - destruct Ho as (_ & _ & _ & (op & ep & orest & erest & _ & _ & _ & _ & Hc)).
      exists u. unfold act.
      destruct Hc as [(_ & _ & _ & ->) | [(_ & ->) | [(_ & ->) | (_ & _ & ->)]]];
        try destruct orest; try destruct erest; eauto.
    - exists v. unfold act. destruct (lookup_todo v (todo (snd F))) as [|a p] eqn:E; [congruence|].
      rewrite Eo. destruct a as [|[|c s]|[|c s]|]; eauto.
  Qed.

  Lemma full_progress : forall tr F, fexec tr F -> ~ final (ph (fst F)) ->
    exists c l F', match c with ByPool c' => proper c' | ByLog _ => True end /\
                   full_step reads level info result c F = Some (l, F').
  Proof.
    intros tr F H Hf. pose proof (fexec_exec tr F H) as Hex. destruct (fexec_linv tr F H) as [order I].
    assert (Hh : harmless reads tasks tr).
    { intros v Hv. destruct (li_finished _ _ _ I v Throws Hv) as [E _]. apply Hraised.
      - apply (started_tasks reads rs tasks ws Hsetup Hpool _ _ Hex). apply started_in.
        apply (finish_started reads rs tasks ws Hsetup Hpool _ _ v Throws Hex Hv).
      - destruct (result v) as [| |st ? ?]; [reflexivity|discriminate|]. cbn [task_end] in E.
        destruct (failed st); discriminate. }
    destruct (progress reads rs tasks ws Hsetup Hpool tr (fst F) Hex Hh Hf) as (c & l & s' & Hp & Hs).
    assert (Acc : forall L, accept_all level info result l (snd F) = Some L ->
              exists c l F', match c with ByPool c' => proper c' | ByLog _ => True end /\
                   full_step reads level info result c F = Some (l, F')).
    { intros L HL. exists (ByPool c), l, (s', L). split; [exact Hp|]. cbn [full_step]. now rewrite Hs, HL. }
    destruct (step_labels _ _ _ _ _ Hs) as [-> | [[v|v|v o] ->]]; try (eapply Acc; reflexivity).
    destruct c as [k|i o'| |i]; cbn [step] in Hs; try contradiction.
    - exfalso. clear - Hs. unfold process_step in Hs.
      repeat match type of Hs with context [match ?x with _ => _ end] => destruct x end; inversion Hs.
    - assert (Hw : nth_error (workers (fst F)) i = Some (WRunning v)).
      { clear - Hs. unfold worker_step in Hs. destruct (nth_error (workers (fst F)) i) as [[| |u|u|u|u]|]; try discriminate.
        - destruct (queue (fst F)); inversion Hs.
        - destruct o'; inversion Hs; subst; reflexivity. }
      destruct (lookup_todo v (todo (snd F))) as [|a p] eqn:E.
      + assert (X : exists s'', worker_step i (task_end (result v)) (fst F) = Some ([Finish v (task_end (result v))], s'')).
        { unfold worker_step. rewrite Hw. destruct (task_end (result v)); eauto. }
        destruct X as [s'' X]. exists (ByPool (ByWorker i (task_end (result v)))), [Finish v (task_end (result v))], (s'', snd F).
        split; [exact Logic.I|]. cbn [full_step step]. rewrite X. cbn [accept_all accept]. rewrite E.
        destruct (task_end (result v)); reflexivity.
      + destruct (act_enabled tr F v H) as (u & L' & Hu); [congruence|].
        exists (ByLog u), [], (fst F, L'). split; [exact Logic.I|]. cbn [full_step]. now rewrite Hu.
  Qed.

  Theorem build_always_ends : forall tr F, fexec tr F -> build_ends reads level info result tasks F.
  Proof.
    assert (K : forall s n tr L, fexec tr (s, L) -> log_work L <= n -> build_ends reads level info result tasks (s, L)).
    { intros s. induction s as [s IHs] using (well_founded_induction (terminates reads)).
      induction n as [n IHn] using lt_wf_ind. intros tr L H Hn.
      assert (Hdec : final (ph s) \/ ~ final (ph s)) by (destruct (ph s); simpl; auto).
      destruct Hdec as [Hf|Hf]; [now apply build_ends_now|]. apply build_ends_later.
      - apply (full_progress tr (s, L)); assumption.
      - intros c l F' Hp Hst. assert (H' : fexec (tr ++ l) F') by (now apply fexec_step with (s, L) c).
        destruct F' as [s' L']. destruct c as [c|v]; cbn [full_step fst snd] in Hst.
        + destruct (step reads c s) as [[l' s1]|] eqn:E; [|discriminate].
          destruct (accept_all level info result l' L) as [L1|]; [|discriminate]. inversion Hst; subst.
          apply (IHs s') with (n := log_work L') (tr := tr ++ l); [|exact H'|lia].
          exists c, l. auto.
        + destruct (act v L) as [L1|] eqn:E; [|discriminate]. inversion Hst; subst.
          apply (IHn (log_work L')) with (tr := tr ++ []); [|exact H'|lia].
          pose proof (act_decreases tr (s', L) v L' H E) as X. cbn [snd] in X. lia. }
    intros tr [s L] H. apply (K s (log_work L) tr L H). lia.
  Qed.
End Logged.

(** * Projects *)

From Verif Require Import Path DbModel DepGraphSpec FileListModel FileListSpec TaskListModel TaskListSpec TaskListProofs.

Theorem project_records : forall fs g, loaded fs g ->
  forall rs tasks, task_list g rs tasks -> forall ws, idle_pool ws ->
  forall level info result cs tr F n,
  full_run (task_reads g) level info result cs (full_init rs tasks ws) = Some (tr, F) ->
  ph (fst F) = Returned n ->
  exists order, Permutation tasks order /\
    out_text (snd F) = concat (map (out_record level info result) order) /\
    err_text (snd F) = concat (map (err_record level info result) order) /\
    (forall l1 v l2 p, order = l1 ++ v :: l2 -> numbered g v p ->
     forall d q, numbered g d q -> file_needs g p q -> builds g q -> In d l1).
Proof.
  intros fs g Hl rs tasks Ht ws Hws level info result cs tr F n Hrun Hph.
  destruct (task_list_facts fs g Hl rs tasks Ht) as (Hsetup & _ & Hreads).
  apply (full_run_fexec (task_reads g) level info result rs tasks ws cs [] _ tr F) in Hrun; [|constructor].
  cbn [app] in Hrun.
  destruct (records_at_end (task_reads g) level info result rs tasks ws Hsetup Hws tr F Hrun) as (order & H1 & H2 & H3 & H4 & H5).
  { rewrite Hph. exact I. }
  pose proof (fexec_exec _ _ _ _ _ _ _ _ _ Hrun) as Hex.
  destruct (returned_all _ _ _ _ Hsetup Hws _ _ _ Hex Hph) as (_ & Hperm & Hall).
  assert (Hsame : forall v, In v tasks <-> In v order).
  { intros v. rewrite H2. split; [intros Hv; left; now apply Hall|].
    intros Hv. apply (started_tasks _ _ _ _ Hsetup Hws _ _ Hex). apply started_in.
    destruct Hv as [Hv|Hv]; exact (finish_started _ _ _ _ Hsetup Hws _ _ _ _ Hex Hv). }
  exists order. split; [|split; [exact H4|split; [exact H5|]]].
  - apply NoDup_Permutation; auto. apply Hsetup.
  - intros l1 v l2 p E Hvp d q Hd Hn Hb.
    assert (Hv : In v tasks). { apply Hsame. rewrite E. apply in_or_app. right. now left. }
    apply (H3 l1 v l2 E).
    + apply (Hreads v p Hv Hvp). eauto.
    + exact (task_list_closed fs g Hl rs tasks Ht v p Hv Hvp d q Hd Hn Hb).
Qed.
