(** Proofs about file descriptors. *)

From Coq Require Import List Arith Bool Lia.
From Verif Require Import FdModel FdSpec.
Import ListNotations.

Lemma set_same t fd d : set t fd d fd = d.
Proof. unfold set. now rewrite Nat.eqb_refl. Qed.

Lemma set_other t fd d n : n <> fd -> set t fd d n = t n.
Proof. intro H. unfold set. now rewrite (proj2 (Nat.eqb_neq n fd) H). Qed.

Lemma lowest_spec limit t n : lowest limit t = Some n -> t n = None /\ forall m, m < n -> t m <> None.
Proof.
  unfold lowest. intro H. split.
  - apply find_some in H as [_ H]. unfold is_free in H. now destruct (t n).
  - intros m Lt E. assert (G : forall k len, find (is_free t) (seq k len) = Some n -> k <= m -> False).
    { intros k len. revert k. induction len as [|len IH]; intros k F Le; [discriminate|]. cbn in F.
      destruct (is_free t k) eqn:Fr.
      - injection F as ->. lia.
      - apply (IH (S k) F). destruct (Nat.eq_dec k m) as [->|]; [|lia]. unfold is_free in Fr. rewrite E in Fr. discriminate. }
    exact (G 0 limit H (Nat.le_0_l _)).
Qed.

Lemma pipe_spec limit w t r e t' : sys_pipe limit w t = Some (r, e, t') ->
  t r = None /\ t e = None /\ r < e /\ (forall m, m < r -> t m <> None) /\ (forall m, m < e -> m <> r -> t m <> None) /\
  t' = set (set t r (Some (mk_descriptor (ReadEnd w) false))) e (Some (mk_descriptor (WriteEnd w) false)).
Proof.
  unfold sys_pipe. destruct (lowest limit t) as [r0|] eqn:L1; [|discriminate].
  destruct (lowest limit (set t r0 _)) as [e0|] eqn:L2; [|discriminate]. intro H. injection H as <- <- <-.
  apply lowest_spec in L1 as [A B]. apply lowest_spec in L2 as [C D].
  assert (Ne : e0 <> r0) by (intros ->; rewrite set_same in C; discriminate).
  rewrite (set_other _ _ _ _ Ne) in C.
  assert (Lt : r0 < e0). { destruct (Nat.lt_ge_cases r0 e0) as [|G]; [assumption|]. exfalso. apply (B e0); [lia|exact C]. }
  split; [exact A|]. split; [exact C|]. split; [exact Lt|]. split; [exact B|]. split; [|reflexivity].
  intros m Hm Hr. specialize (D m Hm). now rewrite (set_other _ _ _ _ Hr) in D.
Qed.

(** ** The invariant of a call *)

(** The numbers in [p] are those of the ends of pipe [w]. *)
Definition has_ends (t : table) (w : which) (p : pipe) : Prop :=
  (forall fd, (exists d, t fd = Some d /\ object_of d = ReadEnd w) <-> read_end p = Some fd) /\
  (forall fd, (exists d, t fd = Some d /\ object_of d = WriteEnd w) <-> write_end p = Some fd).

Definition plain (t : table) : Prop := forall fd d, t fd = Some d -> ours d -> cloexec d = false.

Definition order (w : which) : nat := match w with StdinPipe => 0 | StdoutPipe => 1 | StderrPipe => 2 | ErrorPipe => 3 end.

Definition both (p : pipe) : Prop := read_end p <> None /\ write_end p <> None.

Definition place_inv (s : call) : Prop :=
  match at_place s with
  | Making w => forall w', (order w <= order w' -> pipes s w' = closed) /\ (order w' < order w -> both (pipes s w'))
  | Forking => forall w, both (pipes s w)
  | Unwinding todo => forall w, In w todo \/ pipes s w = closed
  | Ended => forall w, pipes s w = closed
  | _ => True
  end.

Definition inv (s : call) : Prop := (forall w, has_ends (open_in s) w (pipes s w)) /\ plain (open_in s) /\ place_inv s.

Lemma which_eqb_spec a b : reflect (a = b) (which_eqb a b).
Proof. destruct a, b; constructor; (reflexivity || discriminate). Qed.

Lemma start_inv t : (forall fd d, t fd = Some d -> ~ ours d) -> inv (call_start t).
Proof.
  intro H. assert (E : forall w fd, (exists d, t fd = Some d /\ object_of d = ReadEnd w) \/ (exists d, t fd = Some d /\ object_of d = WriteEnd w) -> False).
  { intros w fd [(d & A & B) | (d & A & B)]; apply (H fd d A); unfold ours; rewrite B; exact I. }
  split; [|split].
  - intro w. split; intro fd; (split; [|discriminate]); intro K; exfalso; apply (E w fd); [now left|now right].
  - intros fd d A B. destruct (H fd d A B).
  - intro w'. split; [reflexivity|]. cbn. lia.
Qed.

Lemma others_ends may_close t t' w p : others may_close t t' -> has_ends t w p -> has_ends t' w p.
Proof.
  intros O [R W]. assert (K : forall fd ob, ob = ReadEnd w \/ ob = WriteEnd w ->
     ((exists d, t' fd = Some d /\ object_of d = ob) <-> (exists d, t fd = Some d /\ object_of d = ob))).
  { intros fd ob Ho. destruct O as [n d Hn Hd | n d Hn Hd _].
    - destruct (Nat.eq_dec fd n) as [->|Ne].
      + rewrite set_same, Hn. split; intros (d' & A & B); [|discriminate]. injection A as <-. exfalso. apply Hd. unfold ours. rewrite B.
        destruct Ho as [-> | ->]; exact I.
      + now rewrite (set_other _ _ _ _ Ne).
    - destruct (Nat.eq_dec fd n) as [->|Ne].
      + rewrite set_same, Hn. split; intros (d' & A & B); [discriminate|]. injection A as <-. exfalso. apply Hd. unfold ours. rewrite B.
        destruct Ho as [-> | ->]; exact I.
      + now rewrite (set_other _ _ _ _ Ne). }
  split; intro fd; [rewrite <- R|rewrite <- W]; apply K; [now left|now right].
Qed.

Lemma others_plain may_close t t' : others may_close t t' -> plain t -> plain t'.
Proof.
  intros O P fd d A B. destruct O as [n d' Hn Hd | n d' Hn Hd _]; (destruct (Nat.eq_dec fd n) as [->|Ne];
    [rewrite set_same in A|rewrite (set_other _ _ _ _ Ne) in A; exact (P fd d A B)]); [injection A as <-; contradiction|discriminate].
Qed.

Lemma ends_distinct t w p w' p' n : has_ends t w p -> has_ends t w' p' ->
  (read_end p = Some n -> write_end p' = Some n -> False) /\
  (w <> w' -> (read_end p = Some n -> read_end p' = Some n -> False) /\ (write_end p = Some n -> write_end p' = Some n -> False)).
Proof.
  intros [R W] [R' W']. split; [|intro Ne; split].
  - intros A B. apply R in A as (d & A & A'). apply W' in B as (d' & B & B'). congruence.
  - intros A B. apply R in A as (d & A & A'). apply R' in B as (d' & B & B'). congruence.
  - intros A B. apply W in A as (d & A & A'). apply W' in B as (d' & B & B'). congruence.
Qed.

Lemma close_ends t fd w p : (forall n, fd = Some n -> read_end p <> Some n /\ write_end p <> Some n) -> has_ends t w p -> has_ends (sys_close fd t) w p.
Proof.
  intros N [R W]. destruct fd as [n|]; [|split; assumption]. destruct (N n eq_refl) as [N1 N2]. cbn [sys_close].
  split; intro fd; [rewrite <- R|rewrite <- W]; (destruct (Nat.eq_dec fd n) as [->|Ne]; [|now rewrite (set_other _ _ _ _ Ne)]); rewrite set_same.
  - split; [intros (d & A & _); discriminate|]. intro K. apply R in K. contradiction.
  - split; [intros (d & A & _); discriminate|]. intro K. apply W in K. contradiction.
Qed.

Lemma close_plain t fd : plain t -> plain (sys_close fd t).
Proof.
  intros P n d A B. destruct fd as [k|]; [|exact (P n d A B)]. cbn in A. destruct (Nat.eq_dec n k) as [->|Ne].
  - rewrite set_same in A. discriminate.
  - rewrite (set_other _ _ _ _ Ne) in A. exact (P n d A B).
Qed.

Lemma close_read_ends t ps w : (forall w', has_ends t w' (ps w')) ->
  let (p, t') := close_read (ps w) t in forall w', has_ends t' w' (set_pipe ps w p w').
Proof.
  intros H w'. cbn [close_read]. unfold set_pipe. destruct (which_eqb_spec w' w) as [->|Ne].
  - destruct (H w) as [R W]. split; cbn [read_end write_end].
    + intro fd. split; [|discriminate]. intros (d & A & B). exfalso. destruct (read_end (ps w)) as [n|] eqn:E; cbn [sys_close] in A.
      * destruct (Nat.eq_dec fd n) as [->|Ne]; [rewrite set_same in A; discriminate|]. rewrite (set_other _ _ _ _ Ne) in A.
        assert (K : Some n = Some fd) by (apply R; now exists d). injection K. intro. now apply Ne.
      * assert (K : None = Some fd) by (apply R; now exists d). discriminate.
    + destruct (read_end (ps w)) as [n|] eqn:E; cbn [sys_close]; [|exact W]. intro fd. rewrite <- W.
      destruct (Nat.eq_dec fd n) as [->|Ne]; [|now rewrite (set_other _ _ _ _ Ne)]. rewrite set_same.
      split; [intros (d & A & _); discriminate|]. intros (d & A & B). exfalso. destruct (proj2 (R n) eq_refl) as (d' & A' & B'). congruence.
  - apply close_ends; [|apply H]. intros n E.
    destruct (ends_distinct t w (ps w) w' (ps w') n (H w) (H w')) as [D1 D2]. destruct (D2 (fun e => Ne (eq_sym e))) as [D3 _].
    split; intro K; [now apply D3|now apply D1].
Qed.

Lemma close_write_ends t ps w : (forall w', has_ends t w' (ps w')) ->
  let (p, t') := close_write (ps w) t in forall w', has_ends t' w' (set_pipe ps w p w').
Proof.
  intros H w'. cbn [close_write]. unfold set_pipe. destruct (which_eqb_spec w' w) as [->|Ne].
  - destruct (H w) as [R W]. split; cbn [read_end write_end].
    + destruct (write_end (ps w)) as [n|] eqn:E; cbn [sys_close]; [|exact R]. intro fd. rewrite <- R.
      destruct (Nat.eq_dec fd n) as [->|Ne]; [|now rewrite (set_other _ _ _ _ Ne)]. rewrite set_same.
      split; [intros (d & A & _); discriminate|]. intros (d & A & B). exfalso. destruct (proj2 (W n) eq_refl) as (d' & A' & B'). congruence.
    + intro fd. split; [|discriminate]. intros (d & A & B). exfalso. destruct (write_end (ps w)) as [n|] eqn:E; cbn [sys_close] in A.
      * destruct (Nat.eq_dec fd n) as [->|Ne]; [rewrite set_same in A; discriminate|]. rewrite (set_other _ _ _ _ Ne) in A.
        assert (K : Some n = Some fd) by (apply W; now exists d). injection K. intro. now apply Ne.
      * assert (K : None = Some fd) by (apply W; now exists d). discriminate.
  - apply close_ends; [|apply H]. intros n E.
    destruct (ends_distinct t w' (ps w') w (ps w) n (H w') (H w)) as [D1 D2]. destruct (D2 Ne) as [_ D3].
    split; intro K; [now apply D1|now apply D3].
Qed.

Lemma pipe_ends limit w t r e t' ps : sys_pipe limit w t = Some (r, e, t') -> (forall w', has_ends t w' (ps w')) -> plain t -> ps w = closed ->
  (forall w', has_ends t' w' (set_pipe ps w (mk_pipe (Some r) (Some e)) w')) /\ plain t'.
Proof.
  intros S H P C. apply pipe_spec in S as (Fr & Fe & Lt & _ & _ & ->). split.
  - intro w'. unfold set_pipe. destruct (which_eqb_spec w' w) as [->|Ne].
    + destruct (H w) as [R W]. rewrite C in R, W. cbn [read_end write_end closed] in *. split; intro fd.
      * split.
        -- intros (d & A & B). destruct (Nat.eq_dec fd e) as [->|N1]; [rewrite set_same in A; injection A as <-; discriminate|].
           rewrite (set_other _ _ _ _ N1) in A. destruct (Nat.eq_dec fd r) as [->|N2]; [reflexivity|]. rewrite (set_other _ _ _ _ N2) in A.
           assert (K : None = Some fd) by (apply R; now exists d). discriminate.
        -- intro E. injection E as <-. rewrite set_other by lia. rewrite set_same. eexists. now split.
      * split.
        -- intros (d & A & B). destruct (Nat.eq_dec fd e) as [->|N1]; [reflexivity|].
           rewrite (set_other _ _ _ _ N1) in A. destruct (Nat.eq_dec fd r) as [->|N2]; [rewrite set_same in A; injection A as <-; discriminate|].
           rewrite (set_other _ _ _ _ N2) in A. assert (K : None = Some fd) by (apply W; now exists d). discriminate.
        -- intro E. injection E as <-. rewrite set_same. eexists. now split.
    + destruct (H w') as [R W]. split; intro fd; [rewrite <- R|rewrite <- W];
        (destruct (Nat.eq_dec fd e) as [->|N1];
         [rewrite set_same, Fe; split; intros (d & A & B); [injection A as <-; cbn in B; congruence|discriminate]|
          rewrite (set_other _ _ _ _ N1)]);
        (destruct (Nat.eq_dec fd r) as [->|N2];
         [rewrite set_same, Fr; split; intros (d & A & B); [injection A as <-; cbn in B; congruence|discriminate]|
          now rewrite (set_other _ _ _ _ N2)]).
  - intros fd d A B. destruct (Nat.eq_dec fd e) as [->|N1]; [rewrite set_same in A; injection A as <-; reflexivity|].
    rewrite (set_other _ _ _ _ N1) in A. destruct (Nat.eq_dec fd r) as [->|N2]; [rewrite set_same in A; injection A as <-; reflexivity|].
    rewrite (set_other _ _ _ _ N2) in A. exact (P fd d A B).
Qed.

Lemma step_inv limit fails s s' : inv s -> call_step limit fails s = Some s' -> inv s'.
Proof.
  intros (E & P & Pl) H. unfold call_step in H. unfold place_inv in Pl. destruct s as [t ps pl]. cbn [open_in pipes at_place] in *.
  assert (U : forall ps', inv (mk_call t ps (Unwinding destructors)) \/ ps' = ps -> inv (mk_call t ps (Unwinding destructors))).
  { intros ps' _. split; [exact E|]. split; [exact P|]. intro w. left. destruct w; cbn; tauto. }
  specialize (U ps (or_intror eq_refl)).
  assert (G : forall pl', match pl' with Making _ | Forking | Unwinding _ | Ended => False | _ => True end -> inv (mk_call t ps pl')).
  { intros pl' K. split; [exact E|]. split; [exact P|]. unfold place_inv. cbn [at_place]. destruct pl'; try contradiction; exact I. }
  assert (CR : forall w pl', match pl' with Making _ | Forking | Unwinding _ | Ended => False | _ => True end ->
             let (p, t') := close_read (ps w) t in inv (mk_call t' (set_pipe ps w p) pl')).
  { intros w pl' K. pose proof (close_read_ends t ps w E) as X. cbn [close_read] in *. split; [exact X|]. split; [now apply close_plain|].
    unfold place_inv. cbn [at_place]. destruct pl'; try contradiction; exact I. }
  assert (CW : forall w pl', match pl' with Making _ | Forking | Unwinding _ | Ended => False | _ => True end ->
             let (p, t') := close_write (ps w) t in inv (mk_call t' (set_pipe ps w p) pl')).
  { intros w pl' K. pose proof (close_write_ends t ps w E) as X. cbn [close_write] in *. split; [exact X|]. split; [now apply close_plain|].
    unfold place_inv. cbn [at_place]. destruct pl'; try contradiction; exact I. }
  destruct pl as [w| | | | | | | |[|w todo]|].
  - destruct fails; [injection H as <-; exact U|]. destruct (sys_pipe limit w t) as [[[r e] t']|] eqn:Sp; [|injection H as <-; exact U].
    injection H as <-. destruct (pipe_ends _ _ _ _ _ _ ps Sp E P (proj1 (Pl w) (le_n _))) as [A B].
    split; [exact A|]. split; [exact B|]. unfold place_inv. cbn [at_place pipes].
    assert (Bw : forall w', order w' < S (order w) -> both (set_pipe ps w (mk_pipe (Some r) (Some e)) w')).
    { intros w' Lt. unfold set_pipe. destruct (which_eqb_spec w' w) as [->|Ne]; [split; discriminate|]. apply (Pl w').
      assert (order w' <> order w) by (intro K; apply Ne; destruct w', w; (reflexivity || discriminate)). lia. }
    assert (Cw : forall w', S (order w) <= order w' -> set_pipe ps w (mk_pipe (Some r) (Some e)) w' = closed).
    { intros w' Le. unfold set_pipe. destruct (which_eqb_spec w' w) as [->|Ne]; [lia|]. apply (Pl w'). lia. }
    destruct w; cbn [after_making order] in *; try (intro w'; split; [apply Cw|apply Bw]).
    intro w'. apply Bw. destruct w'; cbn; lia.
  - destruct fails; injection H as <-; [exact U|now apply G].
  - specialize (CW ErrorPipe ReadingError Logic.I). destruct (close_write (ps ErrorPipe) t). injection H as <-. exact CW.
  - destruct fails; injection H as <-; [exact U|now apply G].
  - specialize (CR StdinPipe ClosingStdout Logic.I). destruct (close_read (ps StdinPipe) t). injection H as <-. exact CR.
  - specialize (CW StdoutPipe ClosingStderr Logic.I). destruct (close_write (ps StdoutPipe) t). injection H as <-. exact CW.
  - specialize (CW StderrPipe Talking Logic.I). destruct (close_write (ps StderrPipe) t). injection H as <-. exact CW.
  - injection H as <-. exact U.
  - injection H as <-. split; [exact E|]. split; [exact P|]. intro w. destruct (Pl w) as [[]|K]; exact K.
  - pose proof (close_read_ends t ps w E) as X. cbn [close_read close_write] in *.
    pose proof (close_write_ends _ _ w X) as Y. cbn [close_write] in Y. injection H as <-.
    assert (Sw : set_pipe ps w (mk_pipe None (write_end (ps w))) w = mk_pipe None (write_end (ps w))).
    { unfold set_pipe. destruct (which_eqb_spec w w); [reflexivity|contradiction]. }
    rewrite Sw in Y. cbn [read_end write_end] in *.
    split; [|split].
    + intro w'. specialize (Y w'). unfold set_pipe in *. cbn [pipes open_in]. destruct (which_eqb w' w); exact Y.
    + cbn [open_in]. apply close_plain. now apply close_plain.
    + unfold place_inv. cbn [at_place pipes]. intro w'. unfold set_pipe. destruct (which_eqb_spec w' w) as [->|Ne]; [now right|].
      destruct (Pl w') as [[K|K]|K]; [congruence|now left|now right].
  - discriminate.
Qed.

Lemma reached_inv limit may_close t s : (forall fd d, t fd = Some d -> ~ ours d) -> reached limit may_close t s -> inv s.
Proof.
  intros N R. induction R as [|s fails s' R IH S|s t' R IH O].
  - now apply start_inv.
  - now apply (step_inv limit fails s).
  - destruct IH as (E & P & Pl). split; [|split].
    + intro w. exact (others_ends _ _ _ _ _ O (E w)).
    + exact (others_plain _ _ _ O P).
    + exact Pl.
Qed.

(** ** Nothing is left open, and nothing else is closed. *)

Theorem nothing_left limit may_close t s : (forall fd d, t fd = Some d -> ~ ours d) -> reached limit may_close t s -> at_place s = Ended ->
  forall fd d, open_in s fd = Some d -> ~ ours d.
Proof.
  intros N R E fd d A O. destruct (reached_inv _ _ _ _ N R) as (H & _ & Pl). unfold place_inv in Pl. rewrite E in Pl.
  unfold ours in O. destruct (object_of d) as [w|w|n] eqn:Ob; [| |exact O]; destruct (H w) as [Rd Wr]; rewrite (Pl w) in *; cbn in *.
  - assert (K : None = Some fd) by (apply Rd; now exists d). discriminate.
  - assert (K : None = Some fd) by (apply Wr; now exists d). discriminate.
Qed.

Lemma close_keeps t fd w p n d : has_ends t w p -> fd = read_end p \/ fd = write_end p -> t n = Some d -> ~ ours d -> sys_close fd t n = Some d.
Proof.
  intros [R W] Fd A O. destruct fd as [k|]; [|exact A]. cbn. destruct (Nat.eq_dec n k) as [->|Ne]; [|now rewrite (set_other _ _ _ _ Ne)].
  exfalso. apply O. destruct Fd as [Fd | Fd]; symmetry in Fd; [apply R in Fd|apply W in Fd]; destruct Fd as (d' & B & C); rewrite A in B;
    injection B as <-; unfold ours; rewrite C; exact I.
Qed.

Theorem others_kept limit may_close t s fails s' : (forall fd d, t fd = Some d -> ~ ours d) -> reached limit may_close t s ->
  call_step limit fails s = Some s' -> forall fd d, ~ ours d -> (open_in s fd = Some d <-> open_in s' fd = Some d).
Proof.
  intros N R S fd d O. pose proof (reached_inv _ _ _ _ N R) as Is. pose proof (step_inv _ _ _ _ Is S) as (E' & _).
  destruct Is as (E & P & Pl). split.
  - intro A. unfold call_step in S. destruct s as [u ps pl]. cbn [open_in pipes at_place] in *.
    destruct pl as [w| | | | | | | |[|w todo]|]; cbn [close_read close_write read_end write_end] in S.
    + destruct fails; [injection S as <-; exact A|]. destruct (sys_pipe limit w u) as [[[r e] t']|] eqn:Sp; [|injection S as <-; exact A].
      injection S as <-. apply pipe_spec in Sp as (F1 & F2 & _ & _ & _ & ->). cbn [open_in]. rewrite !set_other; [exact A|congruence|congruence].
    + destruct fails; injection S as <-; exact A.
    + injection S as <-. apply (close_keeps _ _ ErrorPipe (ps ErrorPipe)); auto.
    + destruct fails; injection S as <-; exact A.
    + injection S as <-. apply (close_keeps _ _ StdinPipe (ps StdinPipe)); auto.
    + injection S as <-. apply (close_keeps _ _ StdoutPipe (ps StdoutPipe)); auto.
    + injection S as <-. apply (close_keeps _ _ StderrPipe (ps StderrPipe)); auto.
    + injection S as <-. exact A.
    + injection S as <-. exact A.
    + injection S as <-. cbn [open_in].
      pose proof (close_read_ends u ps w E w) as X. cbn [close_read] in X. unfold set_pipe in X. destruct (which_eqb_spec w w) as [_|K]; [|contradiction].
      apply (close_keeps _ _ w (mk_pipe None (write_end (ps w)))); [exact X|now right| |exact O].
      apply (close_keeps _ _ w (ps w)); auto.
    + discriminate.
  - intro A. unfold call_step in S. destruct s as [u ps pl]. cbn [open_in pipes at_place] in *.
    assert (C : forall fd' v, sys_close fd' v fd = Some d -> v fd = Some d).
    { intros [k|] v K; [|exact K]. cbn in K. destruct (Nat.eq_dec fd k) as [->|Ne]; [rewrite set_same in K; discriminate|now rewrite (set_other _ _ _ _ Ne) in K]. }
    destruct pl as [w| | | | | | | |[|w todo]|]; cbn [close_read close_write read_end write_end] in S.
    + destruct fails; [injection S as <-; exact A|]. destruct (sys_pipe limit w u) as [[[r e] t']|] eqn:Sp; [|injection S as <-; exact A].
      injection S as <-. apply pipe_spec in Sp as (F1 & F2 & _ & _ & _ & ->). cbn [open_in] in A.
      destruct (Nat.eq_dec fd e) as [->|N1]; [rewrite set_same in A; injection A as <-; destruct O; exact I|]. rewrite (set_other _ _ _ _ N1) in A.
      destruct (Nat.eq_dec fd r) as [->|N2]; [rewrite set_same in A; injection A as <-; destruct O; exact I|]. now rewrite (set_other _ _ _ _ N2) in A.
    + destruct fails; injection S as <-; exact A.
    + injection S as <-. exact (C _ _ A).
    + destruct fails; injection S as <-; exact A.
    + injection S as <-. exact (C _ _ A).
    + injection S as <-. exact (C _ _ A).
    + injection S as <-. exact (C _ _ A).
    + injection S as <-. exact A.
    + injection S as <-. exact A.
    + injection S as <-. exact (C _ _ (C _ _ A)).
    + discriminate.
Qed.

Lemma alone_reached limit t s : alone limit t s -> reached limit (fun _ => False) t s.
Proof. intro A. induction A as [|s fails s' A IH S]; [constructor|]. eapply reached_step; eassumption. Qed.

Theorem restored limit t s : (forall fd d, t fd = Some d -> ~ ours d) -> alone limit t s -> at_place s = Ended ->
  forall fd, open_in s fd = t fd.
Proof.
  intros N A E.
  assert (K : forall fd d, ~ ours d -> (t fd = Some d <-> open_in s fd = Some d)).
  { clear E. induction A as [|s fails s' A IH S]; [reflexivity|]. intros fd d O. rewrite (IH fd d O).
    exact (others_kept _ _ _ _ _ _ N (alone_reached _ _ _ A) S fd d O). }
  intro fd. pose proof (nothing_left _ _ _ _ N (alone_reached _ _ _ A) E fd) as L.
  destruct (t fd) as [d|] eqn:T.
  - apply (K fd d (N fd d T)). exact T.
  - destruct (open_in s fd) as [d|] eqn:Op; [|reflexivity]. apply (K fd d (L d eq_refl)) in Op. congruence.
Qed.

(** ** The standard streams of the tool *)

Lemma ends_both t w p : has_ends t w p -> plain t -> both p ->
  exists r e, p = mk_pipe (Some r) (Some e) /\ t r = Some (mk_descriptor (ReadEnd w) false) /\ t e = Some (mk_descriptor (WriteEnd w) false).
Proof.
  intros [R W] P [B1 B2]. destruct p as [[r|] [e|]]; cbn in *; try contradiction. exists r, e. split; [reflexivity|].
  destruct (proj2 (R r) eq_refl) as ([o c] & A & O). destruct (proj2 (W e) eq_refl) as ([o' c'] & A' & O'). cbn in *. subst.
  rewrite A, A'. pose proof (P _ _ A I) as C1. pose proof (P _ _ A' I) as C2. cbn in *. now subst.
Qed.

Ltac decided := repeat match goal with H : Nat.eqb ?a ?b = false |- context [Nat.eqb ?a ?b] => rewrite H end.

(** The tool's descriptors, if the numbers of all pipes are greater than 2 *)
Section Tool.
Variable t : table.
Variables r1 e1 r2 e2 r3 e3 r4 e4 : nat.
Hypothesis high : Forall (fun n => 3 <= n) [r1; e1; r2; e2; r3; e3; r4; e4].
Hypothesis distinct : NoDup [r1; e1; r2; e2; r3; e3; r4; e4].
Hypothesis in_table : t r1 = Some (mk_descriptor (ReadEnd StdinPipe) false) /\ t e2 = Some (mk_descriptor (WriteEnd StdoutPipe) false) /\
  t e3 = Some (mk_descriptor (WriteEnd StderrPipe) false) /\ t e4 = Some (mk_descriptor (WriteEnd ErrorPipe) false).

Let before := fst (child (mk_pipe (Some r1) (Some e1)) (mk_pipe (Some r2) (Some e2)) (mk_pipe (Some r3) (Some e3)) (mk_pipe (Some r4) (Some e4)) t).

Lemma before_spec n : before n =
  if Nat.eqb n e4 then Some (mk_descriptor (WriteEnd ErrorPipe) true)
  else if Nat.eqb n 0 then Some (mk_descriptor (ReadEnd StdinPipe) false)
  else if Nat.eqb n 1 then Some (mk_descriptor (WriteEnd StdoutPipe) false)
  else if Nat.eqb n 2 then Some (mk_descriptor (WriteEnd StderrPipe) false)
  else if existsb (Nat.eqb n) [r1; e1; r2; e2; r3; e3; r4] then None else t n.
Proof.
  destruct in_table as (T1 & T2 & T3 & T4).
  pose proof high as High. pose proof distinct as Dis. clear high distinct in_table.
  repeat match goal with H : Forall _ (_ :: _) |- _ => apply Forall_cons_iff in H; destruct H end.
  repeat match goal with H : NoDup (_ :: _) |- _ => apply NoDup_cons_iff in H; destruct H end.
  cbn [In] in *.
  assert (Low : forall k, 3 <= k -> Nat.eqb k 0 = false /\ Nat.eqb k 1 = false /\ Nat.eqb k 2 = false).
  { intros k Hk. repeat split; apply Nat.eqb_neq; lia. }
  repeat match goal with H : 3 <= ?k |- _ => let X := fresh in pose proof (Low k H) as X; clear H; destruct X as (? & ? & ?) end.
  repeat match goal with H : ~ (_ \/ _) |- _ => apply Decidable.not_or in H; destruct H end.
  repeat match goal with H : ~ False |- _ => clear H end.
  repeat match goal with H : ?a <> ?b |- _ =>
    let X := fresh in let Y := fresh in assert (X : Nat.eqb a b = false) by (apply Nat.eqb_neq; exact H);
    assert (Y : Nat.eqb b a = false) by (apply Nat.eqb_neq; apply not_eq_sym; exact H); clear H end.
  assert (Q1 : sys_close (Some r4) (sys_close (Some r3) (sys_close (Some r2) (sys_close (Some e1) t))) r1 = Some (mk_descriptor (ReadEnd StdinPipe) false)).
  { unfold sys_close, set. decided. exact T1. }
  unfold before, child. cbn [close_write close_read write_end read_end move_read move_write close_write_on_exec fst].
  unfold sys_dup2 at 3. rewrite Q1. decided. cbn [object_of].
  set (u1 := sys_close (Some r1) (set _ 0 _)).
  assert (Q2 : u1 e2 = Some (mk_descriptor (WriteEnd StdoutPipe) false)).
  { unfold u1, sys_close, set. decided. exact T2. }
  unfold sys_dup2 at 2. rewrite Q2. decided. cbn [object_of].
  set (u2 := sys_close (Some e2) (set _ 1 _)).
  assert (Q3 : u2 e3 = Some (mk_descriptor (WriteEnd StderrPipe) false)).
  { unfold u2, u1, sys_close, set. decided. exact T3. }
  unfold sys_dup2. rewrite Q3. decided. cbn [object_of].
  set (u3 := sys_close (Some e3) (set _ 2 _)).
  assert (Q4 : u3 e4 = Some (mk_descriptor (WriteEnd ErrorPipe) false)).
  { unfold u3, u2, u1, sys_close, set. decided. exact T4. }
  cbn [sys_cloexec]. rewrite Q4. cbn [object_of].
  unfold u3, u2, u1, sys_close, set. cbn [existsb].
  repeat match goal with |- context [Nat.eqb n ?b] =>
    destruct (Nat.eqb_spec n b) as [->|?]; [decided; try reflexivity|] end; try reflexivity.
Qed.
End Tool.

(** What a call has when the process is about to be created *)
Lemma at_fork s : inv s -> at_place s = Forking ->
  exists r1 e1 r2 e2 r3 e3 r4 e4,
    pipes s StdinPipe = mk_pipe (Some r1) (Some e1) /\ pipes s StdoutPipe = mk_pipe (Some r2) (Some e2) /\
    pipes s StderrPipe = mk_pipe (Some r3) (Some e3) /\ pipes s ErrorPipe = mk_pipe (Some r4) (Some e4) /\
    NoDup [r1; e1; r2; e2; r3; e3; r4; e4] /\
    (forall n, In n [r1; e1; r2; e2; r3; e3; r4; e4] <-> exists d, open_in s n = Some d /\ ours d) /\
    open_in s r1 = Some (mk_descriptor (ReadEnd StdinPipe) false) /\ open_in s e2 = Some (mk_descriptor (WriteEnd StdoutPipe) false) /\
    open_in s e3 = Some (mk_descriptor (WriteEnd StderrPipe) false) /\ open_in s e4 = Some (mk_descriptor (WriteEnd ErrorPipe) false).
Proof.
  intros (E & P & Pl) F. unfold place_inv in Pl. rewrite F in Pl.
  destruct (ends_both _ _ _ (E StdinPipe) P (Pl StdinPipe)) as (r1 & e1 & P1 & R1 & W1).
  destruct (ends_both _ _ _ (E StdoutPipe) P (Pl StdoutPipe)) as (r2 & e2 & P2 & R2 & W2).
  destruct (ends_both _ _ _ (E StderrPipe) P (Pl StderrPipe)) as (r3 & e3 & P3 & R3 & W3).
  destruct (ends_both _ _ _ (E ErrorPipe) P (Pl ErrorPipe)) as (r4 & e4 & P4 & R4 & W4).
  exists r1, e1, r2, e2, r3, e3, r4, e4. split; [exact P1|]. split; [exact P2|]. split; [exact P3|]. split; [exact P4|].
  split; [|split; [|split; [exact R1|split; [exact W2|split; [exact W3|exact W4]]]]].
  - repeat constructor; cbn [In]; intro K; repeat (destruct K as [K|K]; [subst; congruence|]); exact K.
  - intro n. split.
    + intro K. cbn [In] in K. repeat (destruct K as [<-|K]; [eexists; split; [eassumption|exact I]|]). destruct K.
    + intros (d & A & O). unfold ours in O. destruct (object_of d) as [w|w|k] eqn:Ob; [| |destruct O]; destruct (E w) as [Rd Wr].
      * assert (K : read_end (pipes s w) = Some n) by (apply Rd; now exists d). destruct w; rewrite ?P1, ?P2, ?P3, ?P4 in K; cbn in K; injection K as <-; cbn; tauto.
      * assert (K : write_end (pipes s w) = Some n) by (apply Wr; now exists d). destruct w; rewrite ?P1, ?P2, ?P3, ?P4 in K; cbn in K; injection K as <-; cbn; tauto.
Qed.

(** Descriptors that are open, and not closed by others, stay open. *)
Lemma stays limit (may_close : nat -> Prop) t s fd d : (forall fd d, t fd = Some d -> ~ ours d) -> reached limit may_close t s -> ~ may_close fd ->
  t fd = Some d -> open_in s fd = Some d.
Proof.
  intros N R M T. induction R as [|s fails s' R IH S|s t' R IH O]; [exact T| |].
  - apply (others_kept _ _ _ _ _ _ N R S fd d (N fd d T)). exact IH.
  - cbn [open_in]. destruct O as [n d' Hn Hd | n d' Hn Hd Hm]; rewrite set_other; [exact IH|congruence|exact IH|intros ->; contradiction].
Qed.

Theorem tool_streams limit (may_close : nat -> Prop) t s : (forall fd d, t fd = Some d -> ~ ours d) ->
  (forall fd, fd < 3 -> t fd <> None /\ ~ may_close fd) -> reached limit may_close t s -> at_place s = Forking ->
  streams (tool_of s) /\
  (forall fd d, 3 <= fd -> (tool_of s fd = Some d <-> open_in s fd = Some d /\ ~ ours d /\ cloexec d = false)).
Proof.
  intros N Std R F.
  destruct (at_fork s (reached_inv _ _ _ _ N R) F) as (r1 & e1 & r2 & e2 & r3 & e3 & r4 & e4 & P1 & P2 & P3 & P4 & D & Ow & T).
  assert (High : Forall (fun n => 3 <= n) [r1; e1; r2; e2; r3; e3; r4; e4]).
  { apply Forall_forall. intros n I. apply Ow in I as (d & A & O). destruct (Nat.lt_ge_cases n 3) as [L|L]; [|exact L]. exfalso.
    destruct (Std n L) as [S1 S2]. destruct (t n) as [d0|] eqn:Tn; [|contradiction].
    rewrite (stays _ _ _ _ _ _ N R S2 Tn) in A. injection A as <-. exact (N n d0 Tn O). }
  assert (B : forall n, tool_of s n = sys_exec (fun n => if Nat.eqb n e4 then Some (mk_descriptor (WriteEnd ErrorPipe) true)
    else if Nat.eqb n 0 then Some (mk_descriptor (ReadEnd StdinPipe) false)
    else if Nat.eqb n 1 then Some (mk_descriptor (WriteEnd StdoutPipe) false)
    else if Nat.eqb n 2 then Some (mk_descriptor (WriteEnd StderrPipe) false)
    else if existsb (Nat.eqb n) [r1; e1; r2; e2; r3; e3; r4] then None else open_in s n) n).
  { intro n. unfold tool_of, tool, sys_exec. rewrite P1, P2, P3, P4. now rewrite (before_spec _ _ _ _ _ _ _ _ _ High D T n). }
  assert (L4 : 3 <= e4) by (apply (proj1 (Forall_forall _ _) High); cbn; tauto).
  split.
  - unfold streams. rewrite !B. unfold sys_exec. destruct e4 as [|[|[|k]]]; [lia|lia|lia|]. now repeat split.
  - intros fd d L. rewrite B. unfold sys_exec. destruct (Nat.eqb_spec fd e4) as [->|Ne].
    + cbn. split; [discriminate|]. intros (A & O & _). destruct O. destruct (proj1 (Ow e4)) as (d' & A' & O'); [cbn; tauto|]. congruence.
    + destruct (Nat.eqb_spec fd 0); [lia|]. destruct (Nat.eqb_spec fd 1); [lia|]. destruct (Nat.eqb_spec fd 2); [lia|].
      destruct (existsb (Nat.eqb fd) [r1; e1; r2; e2; r3; e3; r4]) eqn:X.
      * split; [discriminate|]. intros (A & O & _). destruct O. apply existsb_exists in X as (k & Ik & Ek). apply Nat.eqb_eq in Ek. subst k.
        destruct (proj1 (Ow fd)) as (d' & A' & O'); [cbn [In] in *; tauto|]. congruence.
      * destruct (open_in s fd) as [d0|] eqn:A; [|split; [discriminate|intros (K & _); discriminate]].
        assert (O : ~ ours d0).
        { intro O. assert (K : In fd [r1; e1; r2; e2; r3; e3; r4; e4]) by (apply Ow; now exists d0).
          assert (X' : existsb (Nat.eqb fd) [r1; e1; r2; e2; r3; e3; r4] = true); [|congruence].
          apply existsb_exists. exists fd. split; [|apply Nat.eqb_refl]. cbn [In] in *.
          repeat (destruct K as [K|K]; [subst; tauto|]). destruct K. }
        destruct (cloexec d0) eqn:C; (split; [try discriminate; intro K; injection K as <-; now split|]).
        -- intros (K & _ & K'). injection K as <-. congruence.
        -- intros (K & _). exact K.
Qed.

Theorem tool_report limit (may_close : nat -> Prop) t s : (forall fd d, t fd = Some d -> ~ ours d) ->
  (forall fd, fd < 3 -> t fd <> None /\ ~ may_close fd) -> reached limit may_close t s -> at_place s = Forking ->
  exists fd, snd (child_of s) = Some fd /\ fst (child_of s) fd = Some (mk_descriptor (WriteEnd ErrorPipe) true).
Proof.
  intros N Std R F.
  destruct (at_fork s (reached_inv _ _ _ _ N R) F) as (r1 & e1 & r2 & e2 & r3 & e3 & r4 & e4 & P1 & P2 & P3 & P4 & D & Ow & T).
  assert (High : Forall (fun n => 3 <= n) [r1; e1; r2; e2; r3; e3; r4; e4]).
  { apply Forall_forall. intros n I. apply Ow in I as (d & A & O). destruct (Nat.lt_ge_cases n 3) as [L|L]; [|exact L]. exfalso.
    destruct (Std n L) as [S1 S2]. destruct (t n) as [d0|] eqn:Tn; [|contradiction].
    rewrite (stays _ _ _ _ _ _ N R S2 Tn) in A. injection A as <-. exact (N n d0 Tn O). }
  exists e4. unfold child_of. rewrite P1, P2, P3, P4. split; [reflexivity|].
  rewrite (before_spec _ _ _ _ _ _ _ _ _ High D T e4). now rewrite Nat.eqb_refl.
Qed.

(** ** A single thread *)

Definition made (limit : nat) (t : table) (s : call) : Prop :=
  exists r1 e1 t1 r2 e2 t2 r3 e3 t3 r4 e4 t4,
    sys_pipe limit StdinPipe t = Some (r1, e1, t1) /\ sys_pipe limit StdoutPipe t1 = Some (r2, e2, t2) /\
    sys_pipe limit StderrPipe t2 = Some (r3, e3, t3) /\ sys_pipe limit ErrorPipe t3 = Some (r4, e4, t4) /\
    open_in s = t4 /\ pipes s StdinPipe = mk_pipe (Some r1) (Some e1) /\ pipes s StdoutPipe = mk_pipe (Some r2) (Some e2) /\
    pipes s StderrPipe = mk_pipe (Some r3) (Some e3) /\ pipes s ErrorPipe = mk_pipe (Some r4) (Some e4).

Lemma alone_made limit t s : alone limit t s ->
  match at_place s with
  | Making StdinPipe => open_in s = t
  | Making StdoutPipe => exists r1 e1 t1, sys_pipe limit StdinPipe t = Some (r1, e1, t1) /\ open_in s = t1 /\ pipes s StdinPipe = mk_pipe (Some r1) (Some e1)
  | Making StderrPipe => exists r1 e1 t1 r2 e2 t2, sys_pipe limit StdinPipe t = Some (r1, e1, t1) /\ sys_pipe limit StdoutPipe t1 = Some (r2, e2, t2) /\
      open_in s = t2 /\ pipes s StdinPipe = mk_pipe (Some r1) (Some e1) /\ pipes s StdoutPipe = mk_pipe (Some r2) (Some e2)
  | Making ErrorPipe => exists r1 e1 t1 r2 e2 t2 r3 e3 t3, sys_pipe limit StdinPipe t = Some (r1, e1, t1) /\ sys_pipe limit StdoutPipe t1 = Some (r2, e2, t2) /\
      sys_pipe limit StderrPipe t2 = Some (r3, e3, t3) /\
      open_in s = t3 /\ pipes s StdinPipe = mk_pipe (Some r1) (Some e1) /\ pipes s StdoutPipe = mk_pipe (Some r2) (Some e2) /\
      pipes s StderrPipe = mk_pipe (Some r3) (Some e3)
  | Forking => made limit t s
  | _ => True
  end.
Proof.
  intro A. induction A as [|s fails s' A IH S]; [reflexivity|].
  unfold call_step in S. destruct s as [u ps pl]. cbn [open_in pipes at_place] in *.
  destruct pl as [w| | | | | | | |[|w todo]|]; cbn [close_read close_write] in S;
    try (destruct fails; injection S as <-; exact I); try (injection S as <-; exact I); try discriminate.
  destruct fails; [injection S as <-; exact I|]. destruct (sys_pipe limit w u) as [[[r e] t']|] eqn:Sp; [|injection S as <-; exact I].
  injection S as <-. destruct w; cbn [after_making at_place open_in pipes] in *.
  - subst u. exists r, e, t'. now repeat split.
  - destruct IH as (r1 & e1 & t1 & S1 & -> & P1). exists r1, e1, t1, r, e, t'. now repeat split.
  - destruct IH as (r1 & e1 & t1 & r2 & e2 & t2 & S1 & S2 & -> & P1 & P2). exists r1, e1, t1, r2, e2, t2, r, e, t'. now repeat split.
  - destruct IH as (r1 & e1 & t1 & r2 & e2 & t2 & r3 & e3 & t3 & S1 & S2 & S3 & -> & P1 & P2 & P3).
    exists r1, e1, t1, r2, e2, t2, r3, e3, t3, r, e, t'. cbn [open_in pipes]. now repeat split.
Qed.

(** The numbers are in ascending order. *)
Lemma next_pipe limit w w' t r e t1 r' e' t2 : sys_pipe limit w t = Some (r, e, t1) -> sys_pipe limit w' t1 = Some (r', e', t2) -> e < r'.
Proof.
  intros S1 S2. apply pipe_spec in S1 as (A & B & C & D & E & ->). apply pipe_spec in S2 as (A' & _ & _ & D' & _ & _).
  destruct (Nat.lt_trichotomy e r') as [L | [L | L]]; [exact L| |]; exfalso.
  - subst r'. rewrite set_same in A'. discriminate.
  - rewrite set_other in A' by lia. destruct (Nat.eq_dec r' r) as [->|Ne]; [rewrite set_same in A'; discriminate|].
    rewrite set_other in A' by lia. exact (E r' L Ne A').
Qed.

(** Lines 52-64 *)
Definition move (t : table) (n target : nat) : table := sys_close (Some n) (sys_dup2 (Some n) target t).

Lemma move_same t n d : t n = Some d -> move t n n = set t n None.
Proof. intro H. unfold move, sys_dup2. now rewrite H, Nat.eqb_refl. Qed.

Lemma move_moved t n target d : t n = Some d -> n <> target -> move t n target = set (set t target (Some (mk_descriptor (object_of d) false))) n None.
Proof. intros H Ne. unfold move, sys_dup2. now rewrite H, (proj2 (Nat.eqb_neq n target) Ne). Qed.

Theorem alone_streams limit t s : alone limit t s -> at_place s = Forking -> (streams (tool_of s) <-> t 0 <> None).
Proof.
  intros A F. pose proof (alone_made _ _ _ A) as M. rewrite F in M.
  destruct M as (r1 & e1 & t1 & r2 & e2 & t2 & r3 & e3 & t3 & r4 & e4 & t4 & S1 & S2 & S3 & S4 & Op & P1 & P2 & P3 & P4).
  pose proof (next_pipe _ _ _ _ _ _ _ _ _ _ S1 S2) as O1. pose proof (next_pipe _ _ _ _ _ _ _ _ _ _ S2 S3) as O2.
  pose proof (next_pipe _ _ _ _ _ _ _ _ _ _ S3 S4) as O3.
  apply pipe_spec in S1 as (A1 & B1 & C1 & D1 & _ & E1). apply pipe_spec in S2 as (_ & _ & C2 & _ & _ & E2).
  apply pipe_spec in S3 as (_ & _ & C3 & _ & _ & E3). apply pipe_spec in S4 as (_ & _ & C4 & _ & _ & E4).
  assert (Z : t 0 = None <-> r1 = 0).
  { split; [|intros ->; exact A1]. intro T. destruct (Nat.eq_dec r1 0) as [|Ne]; [assumption|]. destruct (D1 0); [lia|exact T]. }
  assert (T : t4 r1 = Some (mk_descriptor (ReadEnd StdinPipe) false) /\ t4 e2 = Some (mk_descriptor (WriteEnd StdoutPipe) false) /\
    t4 e3 = Some (mk_descriptor (WriteEnd StderrPipe) false) /\ t4 e4 = Some (mk_descriptor (WriteEnd ErrorPipe) false)).
  { subst. split; [|split; [|split]]; unfold set;
      repeat match goal with |- context [Nat.eqb ?a ?b] => destruct (Nat.eqb_spec a b); [try lia; try reflexivity|try lia] end. }
  unfold tool_of. rewrite Op, P1, P2, P3, P4. clear A F P1 P2 P3 P4 E1 E2 E3 E4 D1 Op A1 B1.
  assert (Q : t 0 <> None <-> 0 < r1).
  { split; intro X; [destruct (Nat.eq_dec r1 0) as [E|]; [apply Z in E; contradiction|lia]|intro Y; apply Z in Y; lia]. }
  rewrite Q. clear Q Z. destruct T as (T1 & T2 & T3 & T4).
  unfold streams, tool, child. cbn [close_write close_read write_end read_end move_read move_write close_write_on_exec fst].
  set (v := sys_close (Some r4) (sys_close (Some r3) (sys_close (Some r2) (sys_close (Some e1) t4)))).
  assert (V1 : v r1 = Some (mk_descriptor (ReadEnd StdinPipe) false)).
  { unfold v. cbn. rewrite !set_other by lia. exact T1. }
  assert (V2 : v e2 = Some (mk_descriptor (WriteEnd StdoutPipe) false)).
  { unfold v. cbn. rewrite !set_other by lia. exact T2. }
  assert (V3 : v e3 = Some (mk_descriptor (WriteEnd StderrPipe) false)).
  { unfold v. cbn. rewrite !set_other by lia. exact T3. }
  assert (V4 : v e4 = Some (mk_descriptor (WriteEnd ErrorPipe) false)).
  { unfold v. cbn. rewrite !set_other by lia. exact T4. }
  clearbody v. clear T1 T2 T3 T4.
  fold (move v r1 0). set (v1 := move v r1 0). fold (move v1 e2 1). set (v2 := move v1 e2 1). fold (move v2 e3 2). set (v3 := move v2 e3 2).
  destruct (Nat.eq_dec r1 0) as [->|Ne].
  - split; [|lia]. intros (X & _). exfalso.
    assert (U1 : v1 0 = None) by (unfold v1; now rewrite (move_same _ _ _ V1), set_same).
    assert (K1 : v1 e2 = v e2) by (unfold v1; rewrite (move_same _ _ _ V1); apply set_other; lia).
    assert (K1' : v1 e3 = v e3) by (unfold v1; rewrite (move_same _ _ _ V1); apply set_other; lia).
    rewrite V2 in K1. rewrite V3 in K1'.
    assert (U2 : v2 0 = None) by (unfold v2; rewrite (move_moved _ _ 1 _ K1) by lia; now rewrite !set_other by lia).
    assert (K2 : v2 e3 = v1 e3) by (unfold v2; rewrite (move_moved _ _ 1 _ K1) by lia; now rewrite !set_other by lia).
    rewrite K1' in K2.
    assert (U3 : v3 0 = None) by (unfold v3; rewrite (move_moved _ _ 2 _ K2) by lia; now rewrite !set_other by lia).
    unfold sys_exec, sys_cloexec in X. destruct (v3 e4); [rewrite set_other in X by lia|]; rewrite U3 in X; discriminate.
  - split; [lia|]. intros _.
    assert (U1 : forall n, v1 n = set (set v 0 (Some (mk_descriptor (ReadEnd StdinPipe) false))) r1 None n) by (unfold v1; now rewrite (move_moved _ _ 0 _ V1) by lia).
    assert (K1 : v1 e2 = Some (mk_descriptor (WriteEnd StdoutPipe) false)) by (rewrite U1, !set_other by lia; exact V2).
    assert (U2 : forall n, v2 n = set (set v1 1 (Some (mk_descriptor (WriteEnd StdoutPipe) false))) e2 None n) by (unfold v2; now rewrite (move_moved _ _ 1 _ K1) by lia).
    assert (K2 : v2 e3 = Some (mk_descriptor (WriteEnd StderrPipe) false)) by (rewrite U2, !set_other by lia; rewrite U1, !set_other by lia; exact V3).
    assert (U3 : forall n, v3 n = set (set v2 2 (Some (mk_descriptor (WriteEnd StderrPipe) false))) e3 None n) by (unfold v3; now rewrite (move_moved _ _ 2 _ K2) by lia).
    assert (X : forall n d, n < 3 -> v3 n = Some (mk_descriptor d false) -> sys_exec (sys_cloexec (Some e4) v3) n = Some (mk_descriptor d false)).
    { intros n d L Y. unfold sys_exec, sys_cloexec. destruct (v3 e4); [rewrite set_other by lia|]; now rewrite Y. }
    split; [|split]; apply X; try lia; rewrite U3, set_other by lia.
    + rewrite set_other by lia. rewrite U2, !set_other by lia. rewrite U1, set_other by lia. apply set_same.
    + rewrite set_other by lia. rewrite U2, set_other by lia. apply set_same.
    + apply set_same.
Qed.
