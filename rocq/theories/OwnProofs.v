(** Proofs about ownership. *)

From Coq Require Import Bool Arith Lia.
From Coq Require Import List.
From Verif Require Import OwnModel OwnSpec.
Import ListNotations.

Section Ownership.
  Context {W : Type} (m : members W) (owned : W -> option nat).

  Definition releases (o : option nat) : list event := match o with Some r => [Release r] | None => [] end.

  (** What is required of a member function *)
  Definition law (op : operation) : Prop :=
    match op with
    | New _ => forall r, owned (construct m r) = Some r
    | MoveNew _ _ => forall o, owned (fst (move_construct m o)) = owned o /\ owned (snd (move_construct m o)) = None
    | Assign _ _ =>
        (forall t o, owned (fst (fst (move_assign m t o))) = owned o /\ owned (snd (fst (move_assign m t o))) = None /\
                     snd (move_assign m t o) = releases (owned t)) /\
        (forall t, owned (fst (self_assign m t)) = None /\ snd (self_assign m t) = releases (owned t))
    | Drop _ => forall t, destruct_ m t = releases (owned t)
    | Call _ => forall t e, use m t = Done e -> e = [] \/ exists r, owned t = Some r /\ e = [Use r]
    | Copy _ _ => forall o n w e, copy m o n = Done (w, e) ->
        owned w = Some n /\ exists r, owned o = Some r /\ e = [Use r; Acquire n]
    end.

  Definition alive (h : list event) (r : nat) : Prop := In (Acquire r) h /\ ~ In (Release r) h.

  Record inv (st : state W) : Prop := {
    inv_alive : forall x w r, variables st x = Some w -> owned w = Some r -> alive (history st) r;
    inv_unique : forall x y w w' r, variables st x = Some w -> variables st y = Some w' ->
                   owned w = Some r -> owned w' = Some r -> x = y;
    inv_owned : forall r, alive (history st) r -> exists x w, variables st x = Some w /\ owned w = Some r;
    inv_sound : sound (history st);
    inv_next : forall r, In (Acquire r) (history st) -> r < next st
  }.

  Lemma sound_app h e : sound h ->
    match e with
    | Acquire r => ~ In (Acquire r) h
    | Release r | Use r => In (Acquire r) h /\ ~ In (Release r) h
    end -> sound (h ++ [e]).
  Proof.
    intros S H before e' after E. destruct after as [|z after] using rev_ind.
    - apply app_inj_tail in E. destruct E as (-> & ->). exact H.
    - clear IHafter. change (before ++ e' :: after ++ [z]) with (before ++ (e' :: after) ++ [z]) in E. rewrite app_assoc in E.
      apply app_inj_tail in E. destruct E as (E & _). exact (S _ _ _ E).
  Qed.

  Lemma put_same v x (w : option W) : put v x w x = w.
  Proof. unfold put. now rewrite Nat.eqb_refl. Qed.

  Lemma put_other v x (w : option W) y : y <> x -> put v x w y = v y.
  Proof. unfold put. intro N. apply Nat.eqb_neq in N. now rewrite N. Qed.

  Lemma in_tail h e r : In (Acquire r) (h ++ [e]) <-> In (Acquire r) h \/ e = Acquire r.
  Proof. rewrite in_app_iff. cbn. intuition. Qed.

  Lemma in_tail_r h e r : In (Release r) (h ++ [e]) <-> In (Release r) h \/ e = Release r.
  Proof. rewrite in_app_iff. cbn. intuition. Qed.

  (** Giving up what a variable owns *)
  Lemma inv_release st x t t' : inv st -> variables st x = Some t ->
    match t' with Some w => owned w = None | None => True end ->
    inv (mk_state (put (variables st) x t') (next st) (history st ++ releases (owned t))).
  Proof.
    intros I V N. destruct I as [IA IU IO IS IN].
    assert (O : forall y w r, put (variables st) x t' y = Some w -> owned w = Some r -> variables st y = Some w /\ y <> x).
    { intros y w r P OW. destruct (Nat.eq_dec y x) as [->|D].
      - rewrite put_same in P. subst t'. congruence.
      - rewrite put_other in P by assumption. now split. }
    destruct (owned t) as [r0|] eqn:OT; cbn [releases].
    - destruct (IA x t r0 V OT) as (A1 & A2). constructor; cbn [variables history next].
      + intros y w r P OW. destruct (O y w r P OW) as (P' & D). destruct (IA y w r P' OW) as (B1 & B2).
        split; [apply in_tail; now left|]. rewrite in_tail_r. intros [?|E]; [contradiction|]. inversion E; subst.
        apply D. exact (IU y x w t r P' V OW OT).
      + intros y z w w' r P P' OW OW'. apply O with (r := r) in P, P'; try assumption. exact (IU y z w w' r (proj1 P) (proj1 P') OW OW').
      + intros r (B1 & B2). apply in_tail in B1. rewrite in_tail_r in B2. destruct B1 as [B1|B1]; [|discriminate].
        destruct (IO r) as (y & w & P & OW); [split; [assumption|tauto]|]. exists y, w. split; [|assumption].
        rewrite put_other; [assumption|]. intros ->. apply B2. right. congruence.
      + apply sound_app; [assumption|]. now split.
      + intros r B. apply in_tail in B. destruct B as [B|B]; [now apply IN|discriminate].
    - rewrite app_nil_r. constructor; cbn [variables history next]; try assumption.
      + intros y w r P OW. destruct (O y w r P OW) as (P' & D). exact (IA y w r P' OW).
      + intros y z w w' r P P' OW OW'. apply O with (r := r) in P, P'; try assumption. exact (IU y z w w' r (proj1 P) (proj1 P') OW OW').
      + intros r A. destruct (IO r A) as (y & w & P & OW). exists y, w. split; [|assumption].
        rewrite put_other; [assumption|]. intros ->. congruence.
  Qed.

  (** Moving what [y] owns to [x], which owns nothing *)
  Lemma inv_move st x y o n o' : inv st -> x <> y -> variables st y = Some o ->
    (forall w, variables st x = Some w -> owned w = None) ->
    owned n = owned o -> owned o' = None ->
    inv (mk_state (put (put (variables st) y (Some o')) x (Some n)) (next st) (history st)).
  Proof.
    intros I D V NX EN EO. destruct I as [IA IU IO IS IN].
    assert (O : forall z w r, put (put (variables st) y (Some o')) x (Some n) z = Some w -> owned w = Some r ->
              (z = x /\ owned o = Some r) \/ (z <> x /\ z <> y /\ variables st z = Some w)).
    { intros z w r P OW. destruct (Nat.eq_dec z x) as [->|D1].
      - rewrite put_same in P. left. split; [reflexivity|]. congruence.
      - rewrite put_other in P by assumption. destruct (Nat.eq_dec z y) as [->|D2].
        + rewrite put_same in P. congruence.
        + rewrite put_other in P by assumption. right. auto. }
    constructor; cbn [variables history next]; try assumption.
    - intros z w r P OW. destruct (O z w r P OW) as [(_ & OO)|(_ & _ & P')]; [exact (IA y o r V OO)|exact (IA z w r P' OW)].
    - intros z z' w w' r P P' OW OW'.
      destruct (O z w r P OW) as [(-> & OO)|(D1 & D2 & Q)], (O z' w' r P' OW') as [(-> & OO')|(D1' & D2' & Q')].
      + reflexivity.
      + exfalso. apply D2'. exact (IU z' y w' o r Q' V OW' OO).
      + exfalso. apply D2. exact (IU z y w o r Q V OW OO').
      + exact (IU z z' w w' r Q Q' OW OW').
    - intros r A. destruct (IO r A) as (z & w & P & OW). destruct (Nat.eq_dec z y) as [->|D1].
      + exists x, n. split; [apply put_same|]. congruence.
      + destruct (Nat.eq_dec z x) as [->|D2]; [rewrite (NX w P) in OW; discriminate|].
        exists z, w. split; [|assumption]. now rewrite !put_other.
  Qed.

  (** A new resource for a new variable *)
  Lemma inv_new st x w : inv st -> variables st x = None -> owned w = Some (next st) ->
    inv (mk_state (put (variables st) x (Some w)) (S (next st)) (history st ++ [Acquire (next st)])).
  Proof.
    intros I V OW. destruct I as [IA IU IO IS IN].
    assert (NR : ~ In (Release (next st)) (history st)).
    { intro R. apply in_split in R. destruct R as (b & a & E). pose proof (IS b _ a E) as (AC & _).
      assert (next st < next st); [|lia]. apply IN. rewrite E. apply in_or_app. now left. }
    assert (NA : ~ In (Acquire (next st)) (history st)) by (intro A; apply IN in A; lia).
    constructor; cbn [variables history next].
    - intros y w' r P O'. destruct (Nat.eq_dec y x) as [->|D].
      + rewrite put_same in P. inversion P; subst. rewrite OW in O'. inversion O'; subst. split; [apply in_tail; now right|].
        rewrite in_tail_r. intros [?|?]; [contradiction|discriminate].
      + rewrite put_other in P by assumption. destruct (IA y w' r P O') as (A1 & A2). split; [apply in_tail; now left|].
        rewrite in_tail_r. intros [?|?]; [contradiction|discriminate].
    - intros y z w1 w2 r P P' O1 O2. destruct (Nat.eq_dec y x) as [->|D1], (Nat.eq_dec z x) as [->|D2].
      + reflexivity.
      + rewrite put_same in P. rewrite put_other in P' by assumption. inversion P; subst. rewrite OW in O1. inversion O1; subst.
        destruct (IA z w2 _ P' O2) as (A & _). apply NA in A. destruct A.
      + rewrite put_same in P'. rewrite put_other in P by assumption. inversion P'; subst. rewrite OW in O2. inversion O2; subst.
        destruct (IA y w1 _ P O1) as (A & _). apply NA in A. destruct A.
      + rewrite put_other in P, P' by assumption. exact (IU y z w1 w2 r P P' O1 O2).
    - intros r (A1 & A2). apply in_tail in A1. rewrite in_tail_r in A2. destruct A1 as [A1|A1].
      + destruct (IO r) as (y & w' & P & O'); [split; [assumption|tauto]|]. exists y, w'. split; [|assumption].
        rewrite put_other; [assumption|]. intros ->. congruence.
      + inversion A1; subst. exists x, w. split; [apply put_same|assumption].
    - apply sound_app; assumption.
    - intros r A. apply in_tail in A. destruct A as [A|A]; [apply IN in A; lia|]. inversion A; subst. lia.
  Qed.

  Lemma inv_use st r : inv st -> alive (history st) r -> inv (mk_state (variables st) (next st) (history st ++ [Use r])).
  Proof.
    intros I (A1 & A2). destruct I as [IA IU IO IS IN].
    assert (E : forall r', alive (history st ++ [Use r]) r' <-> alive (history st) r').
    { intro r'. unfold alive. rewrite in_tail, in_tail_r. intuition discriminate. }
    constructor; cbn [variables history next].
    - intros y w r' P O. apply E. exact (IA y w r' P O).
    - exact IU.
    - intros r' A. apply E in A. now apply IO.
    - apply sound_app; [assumption|]. now split.
    - intros r' A. apply in_tail in A. destruct A as [A|A]; [now apply IN|discriminate].
  Qed.

  Lemma perform_inv st op st' : inv st -> law op -> perform m st op = Done st' -> inv st'.
  Proof.
    intros I L H. destruct op as [x|x y|x y|x|x|x y]; cbn [perform] in H.
    - destruct (variables st x) eqn:V; [discriminate|]. inversion H; subst. apply inv_new; [assumption|assumption|apply L].
    - destruct (variables st x) eqn:VX; [discriminate|]. destruct (variables st y) as [o|] eqn:VY; [|discriminate].
      cbn in L. destruct (L o) as (L1 & L2). destruct (move_construct m o) as [n o'] eqn:E. cbn [fst snd] in *. inversion H; subst.
      apply (inv_move st x y o); try assumption; [congruence|]. intros w E2. congruence.
    - destruct (variables st x) as [t|] eqn:VX; [|discriminate]. destruct (variables st y) as [o|] eqn:VY; [|discriminate].
      destruct L as (L1 & L2). destruct (Nat.eqb_spec x y) as [->|D].
      + destruct (L2 t) as (A & B). destruct (self_assign m t) as [t' e] eqn:E. cbn [fst snd] in *. inversion H; subst.
        now apply inv_release.
      + destruct (L1 t o) as (A & B & C). destruct (move_assign m t o) as [[t' o'] e] eqn:E. cbn [fst snd] in *. inversion H; subst.
        pose proof (inv_release st x t None I VX Logic.I) as I1.
        assert (I2 := inv_move _ x y o t' o' I1 D). cbn [variables next history] in I2.
        assert (VY1 : put (variables st) x None y = Some o) by (rewrite put_other; [assumption|congruence]).
        specialize (I2 VY1). rewrite put_same in I2. specialize (I2 ltac:(discriminate) A B).
        destruct I2 as [IA IU IO IS IN]. cbn [variables next history] in *.
        assert (EQ : forall z, put (put (put (variables st) x None) y (Some o')) x (Some t') z
                             = put (put (variables st) y (Some o')) x (Some t') z).
        { intro z. unfold put. destruct (Nat.eqb_spec z x); [reflexivity|]. reflexivity. }
        constructor; cbn [variables next history]; try assumption.
        * intros z w r. rewrite <- EQ. apply IA.
        * intros z z' w w' r. rewrite <- !EQ. apply IU.
        * intros r AL. destruct (IO r AL) as (z & w & P & OW). exists z, w. now rewrite <- EQ.
    - destruct (variables st x) as [t|] eqn:VX; [|discriminate]. inversion H; subst. cbn in L. rewrite L.
      now apply inv_release.
    - destruct (variables st x) as [t|] eqn:VX; [|discriminate]. destruct (use m t) as [e| |] eqn:E; try discriminate.
      inversion H; subst. destruct (L t e E) as [->|(r & OT & ->)].
      + rewrite app_nil_r. now destruct st.
      + apply inv_use; [assumption|]. exact (inv_alive st I x t r VX OT).
    - destruct (variables st x) eqn:VX; [discriminate|]. destruct (variables st y) as [o|] eqn:VY; [|discriminate].
      destruct (copy m o (next st)) as [[w e]| |] eqn:E; try discriminate. inversion H; subst.
      destruct (L o (next st) w e E) as (OW & r & OO & ->).
      pose proof (inv_use st r I (inv_alive st I y o r VY OO)) as I1.
      pose proof (inv_new _ x w I1 VX OW) as I2. cbn [variables next history] in I2. now rewrite <- app_assoc in I2.
  Qed.

  Lemma run_inv ops : forall st st', inv st -> (forall op, In op ops -> law op) -> run m st ops = Done st' -> inv st'.
  Proof.
    induction ops as [|op ops IH]; intros st st' I L H; cbn [run] in H; [now inversion H; subst|].
    destruct (perform m st op) as [st1| |] eqn:E; try discriminate.
    apply (IH st1); [|intros; apply L; now right|assumption]. eapply perform_inv; [exact I|apply L; now left|exact E].
  Qed.

  Lemma start_inv : inv start.
  Proof.
    constructor; cbn; try discriminate.
    - intros r (A & _). destruct A.
    - intros b e a E. destruct b; discriminate.
    - tauto.
  Qed.

  Lemma run_sound ops st : (forall op, In op ops -> law op) -> run m start ops = Done st ->
    sound (history st) /\ ((forall x, variables st x = None) -> all_released (history st)).
  Proof.
    intros L H. pose proof (run_inv ops start st start_inv L H) as I. split; [apply I|].
    intros N r A. destruct (in_dec (fun a b : event => ltac:(repeat decide equality)) (Release r) (history st)) as [R|R]; [assumption|].
    destruct (inv_owned st I r (conj A R)) as (x & w & V & _). rewrite N in V. discriminate.
  Qed.
End Ownership.

Definition uf_owned (f : unique_function) : option nat := if armed f then Some (data f) else None.

Lemma uf_law op : law uf_members uf_owned op.
Proof.
  destruct op; cbn; unfold uf_owned, uf_dtor; cbn; try (repeat split; try intros; reflexivity).
  - repeat split; destruct (armed t); reflexivity.
  - intros [d []]; reflexivity.
  - intros [d []] e E; inversion E; subst. right. exists d. now split.
  - discriminate.
Qed.

Lemma loader_law op : law loader_members (fun h => h) op.
Proof.
  destruct op; cbn; try (repeat split; try intros; reflexivity).
  - intros [r|] e E; inversion E; subst. right. exists r. now split.
  - intros [r|] n w e E; inversion E; subst. split; [reflexivity|]. exists r. now split.
Qed.

Definition is_assign (op : operation) : bool := match op with Assign _ _ => true | _ => false end.

Lemma file_law op : is_assign op = false -> law file_members (fun h => h) op.
Proof.
  destruct op; cbn; intro N; try discriminate; try (repeat split; try intros; reflexivity).
  - intros [r|] e E; inversion E; subst; [right; exists r; now split|now left].
Qed.

Lemma uf_ok ops st : run uf_members start ops = Done st ->
  sound (history st) /\ ((forall x, variables st x = None) -> all_released (history st)).
Proof. apply (run_sound uf_members uf_owned). intros. apply uf_law. Qed.

Lemma loader_ok ops st : run loader_members start ops = Done st ->
  sound (history st) /\ ((forall x, variables st x = None) -> all_released (history st)).
Proof. apply (run_sound loader_members (fun h => h)). intros. apply loader_law. Qed.

Lemma file_ok ops st : (forall x y, ~ In (Assign x y) ops) -> run file_members start ops = Done st ->
  sound (history st) /\ ((forall x, variables st x = None) -> all_released (history st)).
Proof.
  intro N. apply (run_sound file_members (fun h => h)). intros op I. apply file_law. destruct op as [x|x y|x y|x|x|x y]; try reflexivity.
  exfalso. exact (N x y I).
Qed.

Lemma scope_law op : is_assign op = false -> law scope_members (fun h => h) op.
Proof.
  destruct op; cbn; intro N; try discriminate; try (repeat split; try intros; reflexivity); intros; discriminate.
Qed.

Lemma scope_ok ops st : (forall x y, ~ In (Assign x y) ops) -> run scope_members start ops = Done st ->
  sound (history st) /\ ((forall x, variables st x = None) -> all_released (history st)).
Proof.
  intro N. apply (run_sound scope_members (fun h => h)). intros op I. apply scope_law. destruct op as [x|x y|x y|x|x|x y]; try reflexivity.
  exfalso. exact (N x y I).
Qed.

Lemma scope_lost : exists ops st, run scope_members start ops = Done st /\
  (forall x, variables st x = None) /\ history st = [Acquire 0; Acquire 1; Release 1] /\ ~ all_released (history st).
Proof.
  exists [New 0; New 1; Assign 0 1; Drop 1; Drop 0].
  exists (mk_state (put (put (put (put (put (put (fun _ => None) 0 (Some (Some 0))) 1 (Some (Some 1))) 1 (Some None))
                         0 (Some (Some 1))) 1 None) 0 None)
                   2 [Acquire 0; Acquire 1; Release 1]).
  split; [cbv [run perform start put variables next history construct scope_members]; cbn; reflexivity|]. cbn [variables history]. split.
  { intro x. unfold put. destruct (Nat.eqb x 0); [reflexivity|]. destruct (Nat.eqb x 1); reflexivity. }
  split; [reflexivity|]. intro A. specialize (A 0 (or_introl eq_refl)). cbn in A. destruct A as [A|[A|[A|[]]]]; discriminate.
Qed.

Lemma defined (W : Type) (m : members W) : (forall o n, copy m o n <> Undefined) -> (forall o, use m o <> Undefined) ->
  forall ops st, run m st ops <> Undefined.
Proof.
  intros C U. induction ops as [|op ops IH]; intros st; cbn [run]; [discriminate|].
  destruct (perform m st op) as [st1| |] eqn:E; [apply IH|discriminate|]. exfalso.
  destruct op as [x|x y|x y|x|x|x y]; cbn [perform] in E.
  - destruct (variables st x); discriminate.
  - destruct (variables st x); [discriminate|]. destruct (variables st y) as [o|]; [|discriminate]. destruct (move_construct m o). discriminate.
  - destruct (variables st x) as [t|]; [|discriminate]. destruct (variables st y) as [o|]; [|discriminate].
    destruct (Nat.eqb x y); [destruct (self_assign m t)|destruct (move_assign m t o) as [[? ?] ?]]; discriminate.
  - destruct (variables st x); discriminate.
  - destruct (variables st x) as [t|]; [|discriminate]. destruct (use m t) eqn:E2; try discriminate. now apply U in E2.
  - destruct (variables st x); [discriminate|]. destruct (variables st y) as [o|]; [|discriminate].
    destruct (copy m o (next st)) as [[? ?]| |] eqn:E2; try discriminate. now apply C in E2.
Qed.

Lemma file_twice : exists ops st, run file_members start ops = Done st /\
  (forall x, variables st x = None) /\ history st = [Acquire 0; Acquire 1; Release 0; Release 0; Release 1] /\ ~ sound (history st).
Proof.
  exists [New 0; New 1; Assign 0 1; Drop 1; Drop 0].
  exists (mk_state (put (put (put (put (put (put (fun _ => None) 0 (Some (Some 0))) 1 (Some (Some 1))) 1 (Some (Some 0)))
                         0 (Some (Some 1))) 1 None) 0 None)
                   2 [Acquire 0; Acquire 1; Release 0; Release 0; Release 1]).
  split; [cbv [run perform start put variables next history construct file_members]; cbn; reflexivity|]. cbn [variables history]. split.
  { intro x. unfold put. destruct (Nat.eqb x 0); [reflexivity|]. destruct (Nat.eqb x 1); reflexivity. }
  split; [reflexivity|]. intro S. destruct (S [Acquire 0; Acquire 1; Release 0] (Release 0) [Release 1] eq_refl) as (_ & N).
  apply N. cbn. tauto.
Qed.
