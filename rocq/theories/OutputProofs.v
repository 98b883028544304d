(** Proofs about reading the output of a recipe. *)

From Coq Require Import Ascii String Bool NArith Arith Lia.
From Coq Require Import List.
From Verif Require Import Str JLoadModel JLoadSpec JLoadProofs OutputModel.
Import ListNotations.

Lemma fetch_output_fetch capacity output n : forall s r, fetch n s = Some r -> fetch_output capacity output n s = Some r.
Proof.
  induction n as [|n IH]; intros s r H; cbn [fetch fetch_output] in *; [assumption|].
  destruct s as [|c s]; [discriminate|]. cbn [next_char]. destruct (ends_chunk c); [assumption|].
  destruct (fetch n s) as [[chunk rest]|] eqn:E; [|discriminate]. now rewrite (IH _ _ E).
Qed.

(** The first block *)
Lemma fetch_output_first capacity output n : 0 < n ->
  fetch_output capacity output n [] = fetch_output capacity output n (firstn capacity output).
Proof.
  intro P. destruct n as [|n]; [lia|]. cbn [fetch_output]. unfold next_char, buffer_read.
  destruct (firstn capacity output) as [|c s] eqn:E; rewrite ?E; reflexivity.
Qed.

Section Load.
  Context {S V : Type} (d : decoder S V).

  Lemma output_loop_first fuel capacity output n st hd : 0 < n ->
    output_loop d fuel capacity output n st [] hd = output_loop d fuel capacity output n st (firstn capacity output) hd.
  Proof. intro P. destruct fuel; [reflexivity|]. cbn [output_loop]. now rewrite fetch_output_first. Qed.

  Lemma output_loop_value capacity output size (SZ : 0 < size) fuel : forall st p c rest st1 v has_data,
    length (p ++ c :: rest) < fuel -> closing c -> reads d st p st1 -> feed d st1 (Some c) = Decoded v ->
    output_loop d fuel capacity output size st (p ++ c :: rest) has_data = Value v rest.
  Proof.
    induction fuel as [|fuel IH]; intros st p c rest st1 v has_data L C R E; [lia|]. cbn [output_loop].
    destruct (fetch size (p ++ c :: rest)) as [[chunk r]|] eqn:F.
    - rewrite (fetch_output_fetch _ _ _ _ _ F).
      destruct (fetch_some _ _ _ _ F) as [EQ NE]. specialize (NE SZ).
      destruct (fetch_closing _ _ _ _ _ _ C F) as (q & Q).
      destruct q as [|x q0] using rev_ind.
      + rewrite app_nil_r in Q. rewrite <- Q. rewrite (reads_feed_end d st p st1 c [] R), E.
        f_equal. rewrite <- Q, <- app_assoc in EQ. cbn in EQ. apply app_inv_head in EQ. now injection EQ as ->.
      + clear IHq0. rewrite app_assoc in Q. apply app_inj_tail in Q. destruct Q as [-> <-].
        destruct (reads_split d chunk st q0 st1 R) as (st2 & R1 & R2).
        apply feed_all_reads in R1. rewrite R1.
        rewrite <- app_assoc in EQ. apply app_inv_head in EQ. rewrite <- EQ.
        apply (IH st2 q0 c rest st1 v); try assumption.
        rewrite <- app_assoc, app_length in L. destruct chunk; [contradiction|cbn in *; lia].
    - exfalso. apply fetch_none in F. destruct F as [F _]. rewrite Forall_app in F. destruct F as [_ F].
      inversion F; subst. contradiction.
  Qed.

  Lemma load_output_value capacity size p c rest v : 0 < size -> closing c -> text_of d (p ++ [c]) v ->
    length (p ++ [c]) <= capacity ->
    exists fuel0 unread, forall fuel, fuel0 <= fuel -> load_output d fuel capacity size (p ++ c :: rest) = Value v unread.
  Proof.
    intros SZ C (s' & c' & st & E & R & F) L. apply app_inj_tail in E. destruct E as [<- <-].
    exists (Datatypes.S (length (p ++ c :: rest))), (firstn (capacity - length (p ++ [c])) rest).
    intros fuel LF. unfold load_output. rewrite output_loop_first by assumption.
    replace (p ++ c :: rest) with ((p ++ [c]) ++ rest) at 2 by now rewrite <- app_assoc.
    rewrite firstn_app, (firstn_all2 (p ++ [c])) by assumption.
    rewrite <- app_assoc. cbn [app]. apply (output_loop_value capacity _ size SZ fuel (initial d) p c _ st v false); try assumption.
    rewrite app_length in *. cbn [length] in *. rewrite firstn_length. lia.
  Qed.

  (** At the end of the block, reading goes on with the next one. *)
  Lemma fetch_output_end capacity output n : forall s chunk rest, fetch n s = None ->
    fetch_output capacity output n s = Some (chunk, rest) -> exists more, chunk = s ++ more.
  Proof.
    induction n as [|n IH]; intros s chunk rest F H; cbn [fetch fetch_output] in *; [discriminate|].
    destruct s as [|c s]; [now exists chunk|]. cbn [next_char] in H. destruct (ends_chunk c); [discriminate|].
    destruct (fetch n s) as [[? ?]|] eqn:E; [discriminate|].
    destruct (fetch_output capacity output n s) as [[ch r]|] eqn:G; [|discriminate]. injection H as <- <-.
    destruct (IH _ _ _ E G) as (more & ->). now exists more.
  Qed.

  Lemma has_data_in chunk c : In c chunk -> ~ blank c -> has_non_whitespace chunk = true.
  Proof.
    intros I B. apply existsb_exists. exists c. split; [exact I|]. apply negb_true_iff, N.leb_gt.
    unfold blank, nat_of_ascii in B. lia.
  Qed.

  Lemma output_loop_malformed capacity output size (SZ : 0 < size) (NE : firstn capacity output <> []) fuel : forall st p c rest st1 has_data,
    length (p ++ c :: rest) < fuel -> reads d st p st1 -> feed d st1 (Some c) = Failed -> ~ blank c ->
    output_loop d fuel capacity output size st (p ++ c :: rest) has_data = DecodeError.
  Proof.
    induction fuel as [|fuel IH]; intros st p c rest st1 has_data L R E B; [lia|]. cbn [output_loop].
    assert (exists chunk r, fetch_output capacity output size (p ++ c :: rest) = Some (chunk, r) /\
              ((exists q, chunk <> [] /\ p = chunk ++ q /\ r = q ++ c :: rest) \/ exists more, chunk = p ++ c :: more))
      as (chunk & r & -> & Case).
    { destruct (fetch size (p ++ c :: rest)) as [[chunk r]|] eqn:F.
      - exists chunk, r. split; [exact (fetch_output_fetch _ _ _ _ _ F)|].
        destruct (fetch_some _ _ _ _ F) as [EQ Ne]. specialize (Ne SZ). clear - EQ Ne.
        revert p EQ. induction chunk as [|x chunk IH]; intros p EQ; [now destruct Ne|]. destruct p as [|y p].
        + cbn in EQ. injection EQ as <- EQ. right. now exists chunk.
        + cbn in EQ. injection EQ as <- EQ. destruct chunk as [|z chunk].
          * left. exists p. split; [discriminate|]. split; [reflexivity|]. now rewrite EQ.
          * destruct (IH ltac:(discriminate) p EQ) as [(q & _ & -> & ->) | (more & H)].
            -- left. exists q. split; [discriminate|]. split; reflexivity.
            -- right. exists more. now rewrite H.
      - assert (exists x, fetch_output capacity output size (p ++ c :: rest) = Some x) as ([chunk r] & F').
        { clear - NE. generalize (p ++ c :: rest). induction size as [|n IHn]; intro s; [eexists; reflexivity|]. cbn [fetch_output].
          destruct (next_char capacity output s) as [[x s']|] eqn:X.
          - destruct (ends_chunk x); [eexists; reflexivity|]. destruct (IHn s') as ([ch rr] & ->). eexists. reflexivity.
          - exfalso. unfold next_char, buffer_read in X. destruct s; [destruct (firstn capacity output); [now apply NE|discriminate]|discriminate]. }
        exists chunk, r. split; [exact F'|]. destruct (fetch_output_end _ _ _ _ _ _ F F') as (more & ->).
        right. exists (rest ++ more). now rewrite <- app_assoc. }
    destruct Case as [(q & Ne & -> & ->) | (more & ->)].
    - destruct (reads_split d chunk st q st1 R) as (st2 & R1 & R2). apply feed_all_reads in R1. rewrite R1.
      apply (IH st2 q c rest st1); try assumption. rewrite <- app_assoc, app_length in L. destruct chunk; [now destruct Ne|cbn in L; lia].
    - assert (feed_all d st (p ++ c :: more) = Failed) as ->.
      { clear - R E. induction R as [st|st x st2 s st3 F R IH]; cbn [app feed_all]; [now rewrite E|]. rewrite F. now apply IH. }
      unfold not_decoded. rewrite (has_data_in (p ++ c :: more) c) by first [exact B|apply in_or_app; right; now left].
      now rewrite orb_true_r.
  Qed.

  Lemma load_output_malformed capacity size p c rest st : 0 < size -> reads d (initial d) p st -> feed d st (Some c) = Failed ->
    ~ blank c -> length (p ++ [c]) <= capacity ->
    exists fuel0, forall fuel, fuel0 <= fuel -> load_output d fuel capacity size (p ++ c :: rest) = DecodeError.
  Proof.
    intros SZ R F B L. exists (Datatypes.S (length (p ++ c :: rest))).
    intros fuel LF. unfold load_output. rewrite output_loop_first by assumption.
    replace (p ++ c :: rest) with ((p ++ [c]) ++ rest) at 2 by now rewrite <- app_assoc.
    rewrite firstn_app, (firstn_all2 (p ++ [c])) by assumption.
    rewrite <- app_assoc. cbn [app]. apply (output_loop_malformed capacity _ size SZ) with (st1 := st); try assumption.
    - rewrite app_length in L. cbn in L. destruct capacity; [lia|]. destruct p; discriminate.
    - rewrite app_length in *. cbn [length] in *. rewrite firstn_length. lia.
  Qed.

  (** A set of states that is not left *)
  Lemma fetch_output_in capacity output n : forall s chunk rest, (forall c, In c s -> In c output) ->
    fetch_output capacity output n s = Some (chunk, rest) ->
    (forall c, In c chunk -> In c output) /\ (forall c, In c rest -> In c output).
  Proof.
    induction n as [|n IH]; intros s chunk rest I H; cbn [fetch_output] in H.
    - inversion H; subst. split; [intros c []|assumption].
    - destruct (next_char capacity output s) as [[c s']|] eqn:E; [|discriminate].
      assert (IC : In c output /\ forall x, In x s' -> In x output).
      { unfold next_char, buffer_read in E. destruct s as [|y s].
        - destruct (firstn capacity output) as [|y l] eqn:EF; [discriminate|]. inversion E; subst.
          assert (J : forall x, In x (c :: s') -> In x output).
          { intros x Ix. rewrite <- (firstn_skipn capacity output), EF. apply in_or_app. now left. }
          split; [apply J; now left|]. intros x Ix. apply J. now right.
        - inversion E; subst. split; [apply I; now left|]. intros x Ix. apply I. now right. }
      destruct IC as (IC & IS). destruct (ends_chunk c).
      + inversion H; subst. split; [|assumption]. intros x [<-|[]]. assumption.
      + destruct (fetch_output capacity output n s') as [[chunk' rest']|] eqn:E2; [|discriminate]. inversion H; subst.
        destruct (IH _ _ _ IS E2) as (H1 & H2). split; [|assumption]. intros x [<-|Ix]; auto.
  Qed.

  Lemma fetch_output_some capacity output n : 0 < capacity -> output <> [] ->
    forall s, exists r, fetch_output capacity output n s = Some r.
  Proof.
    intros P N. induction n as [|n IH]; intros s; [eexists; reflexivity|]. cbn [fetch_output].
    assert (exists c s', next_char capacity output s = Some (c, s')) as (c & s' & ->).
    { unfold next_char, buffer_read. destruct s as [|c s]; [|now exists c, s].
      destruct capacity; [lia|]. destruct output as [|c o]; [contradiction|]. cbn. now exists c, (firstn capacity o). }
    destruct (ends_chunk c); [eexists; reflexivity|]. destruct (IH s') as ([chunk rest] & ->). eexists. reflexivity.
  Qed.

  (** Text after which the decoder always waits for more is read forever. *)
  Lemma load_forever capacity size output : 0 < capacity -> output <> [] ->
    (forall s, (forall c, In c s -> In c (firstn capacity output)) -> exists st, reads d (initial d) s st) ->
    forall fuel, load_output d fuel capacity size output = OutOfFuel.
  Proof.
    intros P N A. unfold load_output.
    assert (N1 : firstn capacity output <> []) by (destruct capacity, output; cbn; first [lia|congruence]).
    assert (FF : forall n s, fetch_output capacity output n s = fetch_output capacity (firstn capacity output) n s).
    { assert (NC : forall s, next_char capacity output s = next_char capacity (firstn capacity output) s).
      { intros [|c s]; [|reflexivity]. unfold next_char, buffer_read. now rewrite firstn_firstn, Nat.min_id. }
      induction n as [|n IH]; intro s; [reflexivity|]. cbn [fetch_output]. rewrite NC.
      destruct (next_char capacity (firstn capacity output) s) as [[c s']|]; [|reflexivity]. now rewrite IH. }
    assert (G : forall fuel read st s hd, reads d (initial d) read st -> (forall c, In c read -> In c (firstn capacity output)) ->
              (forall c, In c s -> In c (firstn capacity output)) ->
              output_loop d fuel capacity output size st s hd = OutOfFuel).
    { induction fuel as [|fuel IH]; intros read st s hd R IR IS; [reflexivity|]. cbn [output_loop].
      rewrite FF. destruct (fetch_output_some capacity (firstn capacity output) size P N1 s) as ([chunk rest] & E). rewrite E.
      destruct (fetch_output_in capacity (firstn capacity output) size s chunk rest IS E) as (IC & IRest).
      assert (I2 : forall c, In c (read ++ chunk) -> In c (firstn capacity output)).
      { intros c I. apply in_app_or in I. destruct I; auto. }
      destruct (A (read ++ chunk) I2) as (st2 & R2). destruct (reads_split d read (initial d) chunk st2 R2) as (st1 & Q1 & Q2).
      assert (st1 = st).
      { apply feed_all_reads in Q1, R. congruence. }
      subst st1. apply feed_all_reads in Q2. rewrite Q2. apply (IH (read ++ chunk)); assumption. }
    intro fuel. apply (G fuel []); [constructor| |]; intros c [].
  Qed.
End Load.
