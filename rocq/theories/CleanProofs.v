(** Proofs about the contents of what is built. *)

From Coq Require Import List ZArith Lia Bool Permutation.
From Verif Require Import Str Path SMap PathProofs DbModel DepGraphSpec FileListModel FileListSpec SchedModel SchedSpec SchedProofs TaskListModel TaskListSpec TaskListProofs.
From Verif Require Import BuildModel BuildSpec BuildProofs DueProofs CleanSpec.
Import ListNotations.

Section Contents.
  Context {content : Type}.
  Notation maker := (nat -> (path -> content) -> path -> content).

  Lemma producing_building g force folder (make : maker) D0 F0 tr D F dec :
    producing g force folder make D0 F0 tr D F dec -> building g force D0 tr D dec.
  Proof.
    induction 1; try (econstructor; eassumption).
    econstructor; try eassumption. intros q Hq. exact (proj1 (H2 q Hq)).
  Qed.

  Lemma target_bound g v q : target_of g v q -> v < length g.
  Proof. intros (p & i & t & H & _). apply nth_error_Some. congruence. Qed.

  Lemma source_dec g x : not_built g x \/ exists u, target_of g u x.
  Proof.
    destruct (exists_in_dec (fun u => target_of g u x) (fun u => target_dec g u x) (seq 0 (length g))) as [(u & _ & H)|H].
    - right. now exists u.
    - left. intros u Hu. apply H. exists u. split; [|exact Hu]. apply in_seq. pose proof (target_bound g u x Hu). lia.
  Qed.

  Lemma proper_ext g folder (make : maker) S S' : (forall x, not_built g x -> S x = S' x) ->
    forall q c, proper_content g folder make S q c -> proper_content g folder make S' q c.
  Proof.
    intros E q c H. induction H as [x Hx|v q F Hq Hi IH].
    - rewrite (E x Hx). now apply proper_source.
    - apply proper_made; auto.
  Qed.

  Section Project.
    Variables fs g : file_list.
    Hypothesis Hload : loaded fs g.
    Hypothesis Hnames : proper_names fs g.
    Variable folder : path -> bool.
    Variable make : maker.
    Hypothesis Hmake : repeatable g folder make.

    Lemma proper_unique S q c c' : proper_content g folder make S q c -> proper_content g folder make S q c' -> c = c'.
    Proof.
      intro H. revert c'. induction H as [x Hx|v q F Hq Hi IH]; intros c' H'.
      - inversion H'; subst; [reflexivity|]. destruct (Hx v H).
      - inversion H' as [x Hx|v' q' F' Hq' Hi']; subst.
        + destruct (Hx v Hq).
        + pose proof (target_owner fs g Hload Hnames v v' q Hq Hq') as <-.
          apply Hmake; [exact Hq|]. intros x Hx. exact (IH x Hx (F' x) (Hi' x Hx)).
    Qed.

    Section Build.
      Variable rs : list task_result.
      Variable tasks : list nat.
      Hypothesis Htl : task_list g rs tasks.
      Variable force : bool.
      Variable D0 : disk.
      Variable F0 : path -> content.

      Lemma sources_kept tr D F dec : producing g force folder make D0 F0 tr D F dec ->
        forall x, not_built g x -> D x = D0 x /\ F x = F0 x.
      Proof.
        intro H. induction H; intros x Hx; auto.
        destruct (H2 x (Hx v)) as [-> ->]. auto.
      Qed.

      Lemma targets_kept tr D F dec : producing g force folder make D0 F0 tr D F dec ->
        forall v q, target_of g v q -> ~ invoked dec v -> D q = D0 q /\ F q = F0 q.
      Proof.
        intro H. induction H; intros w q Hq Ni; eauto.
        - apply (IHproducing w q Hq). intro I. apply Ni. now right.
        - destruct (IHproducing w q Hq Ni) as [<- <-]. apply H2. intro Hv. apply Ni.
          rewrite <- (target_owner fs g Hload Hnames v w q Hv Hq). exact H0.
      Qed.

      (** Whether [v] is one of its own inputs. *)
      Lemma input_maker v p u x : In v tasks -> numbered g v p -> input g folder v x -> target_of g u x ->
        (u = v /\ x = p) \/ (exists pu, numbered g u pu /\ builds g pu /\ file_needs g p pu).
      Proof.
        intros Hv Np ((p' & Np' & Hx) & _ & _) Q.
        assert (E : p' = p) by (unfold numbered in *; congruence). subst p'.
        destruct (target_source fs g Hload Hnames u x Q) as (pu & iu & t & Nu & Iu & It & Et & B & C).
        destruct Hx as [<-|Hx].
        - destruct C as [<-|[[_ C] _]].
          + left. split; [|reflexivity]. exact (numbered_same fs g Hload Hnames u v p Nu Np).
          + exfalso. apply C. destruct (task_list_facts _ _ Hload _ _ Htl) as (_ & Hbl & _). destruct (Hbl v Hv) as [p' [Hp' Hb']].
            assert (K : p' = p) by (unfold numbered in *; congruence). subst p'.
            apply (builds_sources _ _ Hload) in Hb'. destruct Hb' as [i0 [Hi0 _]]. apply in_map_iff. exists (p, i0). auto.
        - right. exists pu. split; [exact Nu|]. split; [exact B|].
          destruct C as [->|[_ C]]; [exact Hx|].
          assert (R : file_reachable g p pu).
          { destruct Hx as [Hx _]. clear - Hx C. induction Hx; eapply reach_step; eauto. constructor. }
          split; [exact R|]. intros ->.
          apply (tasks_acyclic fs g Hload rs tasks Htl v p Hv Np). exists x. split; [apply Hx|].
          exists p. split; [exact C|]. apply Hx.
      Qed.

      Hypothesis Hkinds : folders_only folder D0.

      (** Every target that is newer than all the source files that it is made from is as it
          should be. *)
      Definition trusted (D : disk) (F : path -> content) : Prop :=
        forall v q t, target_of g v q -> folder q = false -> D q = PlainFile t ->
          (forall x tx, input g folder v x -> not_built g x -> stamped D x tx -> (tx < t)%Z) ->
          proper_content g folder make F q (F q).

      Hypothesis Htrust : trusted D0 F0.

      Lemma produced tr D F dec : producing g force folder make D0 F0 tr D F dec -> orderly g tasks tr ->
        forall v q, In (Finish v Succeeds) tr -> target_of g v q -> folder q = false -> proper_content g folder make F0 q (F q).
      Proof.
        intro H. induction H as [|tr D F dec w H IH|tr D F dec w H IH|tr D F D' F' dec w H IH Iv P W|tr D F dec w o H IH P C M U N];
          intros O v q Fv Q Fq.
        - destruct Fv.
        - apply in_app_or in Fv. destruct Fv as [Fv|[Fv|[]]]; [|discriminate]. exact (IH (orderly_prefix _ _ _ _ O) v q Fv Q Fq).
        - apply in_app_or in Fv. destruct Fv as [Fv|[Fv|[]]]; [|discriminate]. exact (IH (orderly_prefix _ _ _ _ O) v q Fv Q Fq).
        - destruct (W q) as [_ ->]; [|exact (IH O v q Fv Q Fq)].
          intro Q'. pose proof (target_owner fs g Hload Hnames w v q Q' Q) as ->. exact (proj2 P _ Fv).
        - pose proof (orderly_prefix _ _ _ _ O) as O1.
          apply in_app_or in Fv. destruct Fv as [Fv|[Fv|[]]]; [exact (IH O1 v q Fv Q Fq)|]. injection Fv as -> ->.
          pose proof (producing_building _ _ _ _ _ _ _ _ _ _ H) as B.
          assert (Sv : In v (started tr)) by (apply started_in; apply P).
          pose proof (orderly_tasks _ _ _ O1 v Sv) as Hv.
          destruct (started_decided g force D0 _ _ _ v B (proj1 P)) as (b & Hb).
          destruct Q as (p & info & t & E & It & <-).
          pose proof (node_numbered g v p info E) as Np.
          assert (Q : target_of g v (ti_name t)) by (exists p, info, t; auto).
          destruct b as [[]|].
          + (* the recipe has been run *)
            destruct (M Hb eq_refl (ti_name t) Q Fq) as ((z & Z) & ->).
            apply proper_made; [exact Q|]. intros x Hx.
            destruct (source_dec g x) as [Sx|(u & Qx)].
            * destruct (sources_kept _ _ _ _ H x Sx) as [_ ->]. now apply proper_source.
            * destruct (input_maker v p u x Hv Np Hx Qx) as [(-> & ->)|(pu & Nu & Bu & Nd)].
              -- exfalso. destruct Qx as (p' & info' & t' & E' & It' & Et'). rewrite E in E'. injection E' as <- <-.
                 destruct (C Hb eq_refl) as (p' & info' & E' & Up). rewrite E in E'. injection E' as <- <-.
                 destruct Hx as (_ & _ & Fx).
                 assert (Qp : target_of g v p) by (exists p, info, t'; auto).
                 destruct (M Hb eq_refl p Qp Fx) as ((z' & Z') & _).
                 destruct (Up t' It') as [(y & Y)|((y & Y & L) & _)]; rewrite Et' in *; [congruence|].
                 pose proof (L y Y). lia.
              -- destruct (in_split _ _ (proj1 P)) as (tr1 & tr2 & Et).
                 pose proof (orderly_ready _ _ _ O1 tr1 v tr2 p Et Np u pu Nu Nd Bu) as Fu.
                 apply (IH O1 u x); [rewrite Et; apply in_or_app; now left|exact Qx|apply Hx].
          + (* nothing had to be done *)
            assert (Ni : ~ invoked dec v).
            { intro I. pose proof (decision_unique g force D0 _ _ _ v _ _ B (orderly_once _ _ _ O1) I Hb). discriminate. }
            destruct (targets_kept _ _ _ _ H v _ Q Ni) as [Ed Ef]. rewrite Ef.
            assert (Cu : current g D v).
            { apply (built_current fs g Hload Hnames rs tasks Htl force D0 tr D dec B O1 v Hv). now right. }
            destruct (project_up_to_date fs g Hload rs tasks Htl D v p info Hv E Cu t It) as [(y & Y)|(Ns & Nx)].
            { rewrite Ed in Y. pose proof (Hkinds _ _ Y). congruence. }
            destruct Ns as (z & [Z|Z] & Ls); [|rewrite Ed in Z; pose proof (Hkinds _ _ Z); congruence].
            apply (Htrust v (ti_name t) z Q Fq); [now rewrite <- Ed|].
            intros x tx Hx Sx Px. destruct (sources_kept _ _ _ _ H x Sx) as [Ex _].
            assert (Px' : stamped D x tx) by (unfold stamped in *; now rewrite Ex).
            destruct Hx as ((p' & Np' & Hx) & Ix & Fx).
            assert (K : p' = p) by (unfold numbered in *; congruence). subst p'.
            destruct Hx as [<-|Hx]; [exact (Ls tx Px')|].
            destruct (Nx x Hx Ix) as (z' & Z' & L').
            * intros (y & Y). rewrite Ex in Y. pose proof (Hkinds _ _ Y). congruence.
            * assert (z' = z) by exact (stamped_same D _ _ _ Z' (or_introl Z)). subst z'. exact (L' tx Px').
          + destruct (N Hb eq_refl).
      Qed.

      (** What a recipe that did not succeed has left behind. *)
      Lemma left_behind tr D F dec : producing g force folder make D0 F0 tr D F dec -> NoDup (started tr) ->
        forall v o q, invoked dec v -> In (Finish v o) tr -> o <> Succeeds -> target_of g v q -> folder q = false ->
        unusable g folder D v q.
      Proof.
        intro H. induction H as [|tr D F dec w H IH|tr D F dec w H IH|tr D F D' F' dec w H IH Iv P W|tr D F dec w o' H IH P C M U N];
          intros Nd v o q I Fv No Q Fq.
        - destruct Fv.
        - rewrite started_app in Nd. cbn in Nd. rewrite app_nil_r in Nd.
          apply in_app_or in Fv. destruct Fv as [Fv|[Fv|[]]]; [|discriminate]. exact (IH Nd v o q I Fv No Q Fq).
        - apply in_app_or in Fv. destruct Fv as [Fv|[Fv|[]]]; [|discriminate].
          rewrite started_app in Nd. cbn in Nd. destruct I as [I|I].
          + exfalso. injection I as -> _. apply NoDup_remove_2 in Nd. apply Nd. rewrite app_nil_r.
            apply started_in. exact (finished_started g force D0 _ _ _ _ _ (producing_building _ _ _ _ _ _ _ _ _ _ H) Fv).
          + apply NoDup_app_l in Nd. exact (IH Nd v o q I Fv No Q Fq).
        - assert (Ne : w <> v) by (intros ->; exact (proj2 P _ Fv)).
          assert (Eq : D' q = D q).
          { apply W. intro Q'. apply Ne. exact (target_owner fs g Hload Hnames w v q Q' Q). }
          destruct (IH Nd v o q I Fv No Q Fq) as [K|(t & x & tx & K & Hx & Sx & Px & L)].
          + left. now rewrite Eq.
          + right. exists t, x, tx. rewrite Eq. unfold stamped in *. rewrite (proj1 (W x (Sx w))). auto.
        - rewrite started_app in Nd. cbn in Nd. rewrite app_nil_r in Nd.
          apply in_app_or in Fv. destruct Fv as [Fv|[Fv|[]]]; [exact (IH Nd v o q I Fv No Q Fq)|]. injection Fv as -> ->.
          exact (U I No q Q Fq).
      Qed.

      Variable ws : list worker.
      Hypothesis Hws : idle_pool ws.
      Variables (cs : list choice) (tr : list label) (s : state).
      Hypothesis Hrun : run (task_reads g) cs (init rs tasks ws) = Some (tr, s).

      Lemma all_finished : final (ph s) -> forall v, In (Start v) tr -> exists o, In (Finish v o) tr.
      Proof.
        intros Hf v Hs. destruct (task_list_facts _ _ Hload _ _ Htl) as (Hsetup & _).
        destruct (final_finished _ _ _ _ Hsetup Hws _ _ (run_exec _ _ _ _ _ Hrun) Hf) as [Pe _].
        apply started_in in Hs. apply (Permutation_in _ Pe) in Hs. apply finished_in in Hs. exact Hs.
      Qed.

      Lemma trusted_after D F dec : final (ph s) -> producing g force folder make D0 F0 tr D F dec -> trusted D F.
      Proof.
        intros Hf H v q t Q Fq Dq Nw.
        pose proof (run_orderly fs g Hload rs tasks Htl ws cs tr s Hws Hrun) as O.
        pose proof (producing_building _ _ _ _ _ _ _ _ _ _ H) as B.
        apply (proper_ext g folder make F0 F); [intros x Sx; symmetry; exact (proj2 (sources_kept _ _ _ _ H x Sx))|].
        assert (Iv : invoked dec v \/ ~ invoked dec v).
        { assert (Eq : forall a b : nat * option bool, {a = b} + {a <> b}) by repeat decide equality.
          unfold invoked. destruct (in_dec Eq (v, Some true) dec); auto. }
        destruct Iv as [Iv|Ni].
        - destruct (all_finished Hf v (invoked_started g force D0 _ _ _ v _ B Iv)) as (o & Fo).
          assert (Do : o = Succeeds \/ o <> Succeeds) by (destruct o; [left; reflexivity|right; discriminate|right; discriminate]).
          destruct Do as [->|No]; [exact (produced tr D F dec H O v q Fo Q Fq)|].
          exfalso. destruct (left_behind tr D F dec H (orderly_once _ _ _ O) v o q Iv Fo No Q Fq) as [K|(t' & x & tx & K & Hx & Sx & Px & L)].
          + congruence.
          + rewrite Dq in K. injection K as <-. pose proof (Nw x tx Hx Sx Px). lia.
        - destruct (targets_kept _ _ _ _ H v q Q Ni) as [Ed Ef]. rewrite Ef. apply (Htrust v q t Q Fq); [congruence|].
          intros x tx Hx Sx Px. apply (Nw x tx Hx Sx). unfold stamped in *. now rewrite (proj1 (sources_kept _ _ _ _ H x Sx)).
      Qed.

      Lemma folders_after D F dec : final (ph s) -> producing g force folder make D0 F0 tr D F dec -> folders_only folder D.
      Proof.
        intros Hf H x t Dx.
        pose proof (run_orderly fs g Hload rs tasks Htl ws cs tr s Hws Hrun) as O.
        pose proof (producing_building _ _ _ _ _ _ _ _ _ _ H) as B.
        destruct (folder x) eqn:Fx; [reflexivity|].
        destruct (changed_target g force D0 tr D dec B x) as [E|(u & I & Q)]; [rewrite E in Dx; pose proof (Hkinds _ _ Dx); congruence|].
        exfalso. destruct (all_finished Hf u (invoked_started g force D0 _ _ _ u _ B I)) as (o & Fo).
        assert (Do : o = Succeeds \/ o <> Succeeds) by (destruct o; [left; reflexivity|right; discriminate|right; discriminate]).
        destruct Do as [->|No].
        - assert (K : exists y, D x = PlainFile y); [|destruct K; congruence].
          clear - H O Hload Hnames I Q Fx Fo. pose proof (orderly_once _ _ _ O) as Nd. clear O.
          induction H as [|tr D F dec w H IH|tr D F dec w H IH|tr D F D' F' dec w H IH Iv P W|tr D F dec w o' H IH P C M U N].
          + destruct Fo.
          + rewrite started_app in Nd. cbn in Nd. rewrite app_nil_r in Nd.
            apply in_app_or in Fo. destruct Fo as [Fo|[Fo|[]]]; [|discriminate]. auto.
          + apply in_app_or in Fo. destruct Fo as [Fo|[Fo|[]]]; [|discriminate].
            rewrite started_app in Nd. cbn in Nd. destruct I as [I|I].
            * exfalso. injection I as -> _. apply NoDup_remove_2 in Nd. apply Nd. rewrite app_nil_r.
              apply started_in. exact (finished_started g force D0 _ _ _ _ _ (producing_building _ _ _ _ _ _ _ _ _ _ H) Fo).
            * apply NoDup_app_l in Nd. auto.
          + destruct (W x) as [-> _]; [|auto]. intro Q'. pose proof (target_owner fs g Hload Hnames w u x Q' Q) as ->. exact (proj2 P _ Fo).
          + rewrite started_app in Nd. cbn in Nd. rewrite app_nil_r in Nd.
            apply in_app_or in Fo. destruct Fo as [Fo|[Fo|[]]]; [auto|]. injection Fo as -> ->. exact (proj1 (M I eq_refl x Q Fx)).
        - destruct (left_behind tr D F dec H (orderly_once _ _ _ O) u o x I Fo No Q Fx) as [K|(t' & y & ty & K & _)]; congruence.
      Qed.
    End Build.
  End Project.

  (** What a needed file is made from is needed as well. *)
  Lemma input_through fs g folder v u x y : well_named fs g ->
    input g folder v x -> target_of g u x -> input g folder u y -> input g folder v y.
  Proof.
    intros (Hload & Hnames) ((p & Np & Hx) & _ & _) Q ((pu & Nu & Hy) & Iy & Fy).
    split; [|split; assumption]. exists p. split; [exact Np|].
    destruct (path_eq_dec p y) as [E|Ne]; [left; exact E|right]. split; [|auto].
    destruct (target_source fs g Hload Hnames u x Q) as (pu' & iu & t & Nu' & _ & _ & _ & _ & C).
    assert (K : pu' = pu) by (unfold numbered in *; congruence). subst pu'.
    assert (R1 : file_reachable g p x) by (destruct Hx as [<-|[Hx _]]; [constructor|exact Hx]).
    assert (R2 : file_reachable g x pu).
    { destruct C as [->|[_ C]]; [constructor|]. eapply reach_step; [exact C|constructor]. }
    assert (R3 : file_reachable g pu y) by (destruct Hy as [<-|[Hy _]]; [constructor|exact Hy]).
    assert (Tr : forall a b c, file_reachable g a b -> file_reachable g b c -> file_reachable g a c).
    { intros a b c Ha. induction Ha; auto. intro Hc. eapply reach_step; eauto. }
    exact (Tr _ _ _ R1 (Tr _ _ _ R2 R3)).
  Qed.

  Section Revised.
    Variable folder : path -> bool.
    Variables (fs g : file_list) (make : maker) (D : disk) (F : path -> content).
    Hypothesis Hbefore : well_named fs g.
    Variables (fs' g' : file_list) (make' : maker) (D' : disk) (F' : path -> content).
    Hypothesis Hwell : well_named fs' g'.
    Hypothesis Hmake : repeatable g' folder make'.
    Variable T : Z.
    Hypothesis Hpast : forall x t, stamped D x t -> (t <= T)%Z.
    Hypothesis Hfiles : forall x, folder x = false ->
       (D' x = D x /\ F' x = F x) \/
       (not_built g' x /\ exists t, D' x = PlainFile t /\ (T < t)%Z) \/
       (D' x = Missing /\ forall v, input g' folder v x -> exists u, target_of g' u x).
    Hypothesis Hsame : forall v' q, target_of g' v' q -> folder q = false ->
       (exists x t, input g' folder v' x /\ not_built g' x /\ stamped D' x t /\ (T < t)%Z) \/
       exists v, target_of g v q /\ (forall x, input g folder v x <-> input g' folder v' x) /\
         (forall x, input g' folder v' x -> (not_built g x <-> not_built g' x)) /\
         forall G, make' v' G q = make v G q.

    Lemma source_input_same v' x : input g' folder v' x -> not_built g' x ->
      (forall t, stamped D' x t -> (t <= T)%Z) -> D' x = D x /\ F' x = F x.
    Proof.
      intros Hx Sx L. destruct (Hfiles x) as [K|[(_ & t & K & Lt)|(_ & K)]]; [apply Hx|exact K| |].
      - pose proof (L t (or_introl K)). lia.
      - destruct (K v' Hx) as (u & Q). destruct (Sx u Q).
    Qed.

    Lemma proper_revised q c : proper_content g folder make F q c -> folder q = false ->
      forall v', target_of g' v' q ->
      (forall x, input g' folder v' x -> not_built g' x -> forall t, stamped D' x t -> (t <= T)%Z) ->
      proper_content g' folder make' F' q c.
    Proof.
      intro H. induction H as [x Hx|v q G Q Hi IH]; intros Fq v' Q' Old.
      - exfalso. destruct (Hsame v' x Q' Fq) as [(y & t & Hy & Sy & Py & L)|(v & Q & _)].
        + pose proof (Old y Hy Sy t Py). lia.
        + exact (Hx v Q).
      - destruct (Hsame v' q Q' Fq) as [(y & t & Hy & Sy & Py & L)|(w & Qw & Ei & Es & Em)].
        + exfalso. pose proof (Old y Hy Sy t Py). lia.
        + pose proof (target_owner fs g (proj1 Hbefore) (proj2 Hbefore) w v q Qw Q) as ->.
          rewrite <- Em. apply proper_made; [exact Q'|]. intros x Hx'. pose proof (proj2 (Ei x) Hx') as Hx.
            destruct (source_dec g' x) as [Sx|(u' & Qx)].
            -- destruct (source_input_same v' x Hx' Sx (Old x Hx' Sx)) as [_ Ef].
               pose proof (Hi x Hx) as Px. pose proof (proj2 (Es x Hx') Sx) as Sg.
               inversion Px as [x0 Hx0|v0 q0 G0 Q0 Hi0]; subst.
               ++ rewrite <- Ef. now apply proper_source.
               ++ destruct (Sg v0 Q0).
            -- apply (IH x Hx) with (v' := u'); [apply Hx|exact Qx|].
               intros y Hy. apply Old. exact (input_through fs' g' folder v' u' x y Hwell Hx' Qx Hy).
    Qed.

    Lemma trusted_revised : trusted g folder make D F -> trusted g' folder make' D' F'.
    Proof.
      intros Ht v' q t Q Fq Dq Nw.
      destruct (Hfiles q Fq) as [(Ed & Ef)|[(Sq & _)|(K & _)]]; [|destruct (Sq v' Q)|congruence].
      rewrite Ed in Dq. pose proof (Hpast q t (or_introl Dq)) as Lt.
      assert (Old : forall x, input g' folder v' x -> not_built g' x -> forall tx, stamped D' x tx -> (tx <= T)%Z).
      { intros x Hx Sx tx Px. pose proof (Nw x tx Hx Sx Px). lia. }
      rewrite Ef. apply (proper_revised q (F q)) with (v' := v'); auto.
      destruct (Hsame v' q Q Fq) as [(y & ty & Hy & Sy & Py & L)|(v & Qv & Ei & Es & Em)].
      - pose proof (Old y Hy Sy ty Py). lia.
      - apply (Ht v q t Qv Fq Dq). intros x tx Hx Sx Px.
        pose proof (proj1 (Ei x) Hx) as Hx'. pose proof (proj1 (Es x Hx') Sx) as Sx'.
        destruct (source_input_same v' x Hx' Sx' (Old x Hx' Sx')) as [Ex _].
        apply (Nw x tx Hx' Sx'). unfold stamped in *. now rewrite Ex.
    Qed.
  End Revised.

  Lemma history_facts folder fs g (make : maker) D F : history folder fs g make D F ->
    well_named fs g /\ repeatable g folder make /\ folders_only folder D /\ trusted g folder make D F.
  Proof.
    intro H. induction H as [fs g make D F Hw Hm [Hk Hn]|fs g make D F rs tasks ws cs tr s force D' F' dec H IH Htl Hws Hrun Hf Hp
      |fs g make D F fs' g' make' D' F' H IH Hw Hm Hk Hr].
    - split; [exact Hw|]. split; [exact Hm|]. split; [exact Hk|]. intros v q t Q Fq Dq. rewrite (Hn v q Q Fq) in Dq. discriminate.
    - destruct IH as (Hw & Hm & Hk & Ht). split; [exact Hw|]. split; [exact Hm|].
      destruct Hw as (Hl & Hn).
      split.
      + exact (folders_after fs g Hl Hn folder make rs tasks Htl force D F Hk ws Hws cs tr s Hrun D' F' dec Hf Hp).
      + exact (trusted_after fs g Hl Hn folder make rs tasks Htl force D F Hk Ht ws Hws cs tr s Hrun D' F' dec Hf Hp).
    - destruct IH as (Hw0 & Hm0 & Hk0 & Ht0). split; [exact Hw|]. split; [exact Hm|]. split; [exact Hk|].
      destruct Hr as (T & Hpast & Hfiles & Hsame).
      exact (trusted_revised folder fs g make D F Hw0 fs' g' make' D' F' Hw T Hpast Hfiles Hsame Ht0).
  Qed.

  Theorem right_contents folder fs g (make : maker) D0 F0 D F q : history folder fs g make D0 F0 ->
    built g folder make D0 F0 D F q -> proper_content g folder make F0 q (F q).
  Proof.
    intros H (rs & tasks & ws & cs & tr & s & n & force & dec & v & Htl & Hws & Hrun & Hph & Hp & Hv & Q & Fq).
    destruct (history_facts folder fs g make D0 F0 H) as ((Hl & Hn) & Hm & Hk & Ht).
    pose proof (run_orderly fs g Hl rs tasks Htl ws cs tr s Hws Hrun) as O.
    destruct (task_list_facts _ _ Hl _ _ Htl) as (Hsetup & _).
    destruct (returned_all _ _ _ _ Hsetup Hws _ _ _ (run_exec _ _ _ _ _ Hrun) Hph) as (_ & _ & All).
    exact (produced fs g Hl Hn folder make rs tasks Htl force D0 F0 Hk Ht tr D F dec Hp O v q (All v Hv) Q Fq).
  Qed.

  Theorem same_contents folder fs g (make : maker) D1 F1 D2 F2 D1' F1' D2' F2' q :
    history folder fs g make D1 F1 -> history folder fs g make D2 F2 -> (forall x, not_built g x -> F1 x = F2 x) ->
    built g folder make D1 F1 D1' F1' q -> built g folder make D2 F2 D2' F2' q -> F1' q = F2' q.
  Proof.
    intros H1 H2 Hs B1 B2. destruct (history_facts folder fs g make D1 F1 H1) as (Hw & Hm & _).
    pose proof (right_contents folder fs g make D1 F1 D1' F1' q H1 B1) as C1.
    pose proof (right_contents folder fs g make D2 F2 D2' F2' q H2 B2) as C2.
    apply (proper_unique fs g (proj1 Hw) (proj2 Hw) folder make Hm F2 q); [|exact C2].
    exact (proper_ext g folder make F1 F2 Hs q _ C1).
  Qed.

  Theorem same_as_clean folder fs g (make : maker) D1 F1 D2 F2 D1' F1' D2' F2' q :
    history folder fs g make D1 F1 -> unbuilt g folder D2 -> (forall x, not_built g x -> F2 x = F1 x) ->
    built g folder make D1 F1 D1' F1' q -> built g folder make D2 F2 D2' F2' q -> F1' q = F2' q.
  Proof.
    intros H1 U2 Hs B1 B2. destruct (history_facts folder fs g make D1 F1 H1) as (Hw & Hm & _).
    apply (same_contents folder fs g make D1 F1 D2 F2 D1' F1' D2' F2' q H1); auto.
    - now apply history_begins.
    - intros x Sx. symmetry. exact (Hs x Sx).
  Qed.

  (** Whatever a build, successful or not, leaves behind: a target that is newer than everything
      that it is made from is as it should be. *)
  Theorem left_right folder fs g (make : maker) D F v q t : history folder fs g make D F ->
    target_of g v q -> folder q = false -> D q = PlainFile t ->
    (forall x tx, input g folder v x -> not_built g x -> stamped D x tx -> (tx < t)%Z) ->
    proper_content g folder make F q (F q).
  Proof. intros H. destruct (history_facts folder fs g make D F H) as (_ & _ & _ & Ht). apply Ht. Qed.
End Contents.
