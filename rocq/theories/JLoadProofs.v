(** Proofs about reading JSON from a stream. *)

From Coq Require Import Ascii String NArith Bool Arith Lia.
From Coq Require Import List.
From Verif Require Import Str JLoadModel JLoadSpec.
Import ListNotations.

Lemma ends_chunk_iff c : ends_chunk c = true <-> closing c.
Proof.
  unfold ends_chunk, closing. rewrite !orb_true_iff, !Ascii.eqb_eq. tauto.
Qed.

Lemma fetch_some n : forall s chunk rest, fetch n s = Some (chunk, rest) ->
  s = chunk ++ rest /\ (0 < n -> chunk <> []).
Proof.
  induction n as [|n IH]; intros s chunk rest H; cbn in H.
  - injection H as <- <-. split; [reflexivity|lia].
  - destruct s as [|c s]; [discriminate|]. destruct (ends_chunk c).
    + injection H as <- <-. split; [reflexivity|discriminate].
    + destruct (fetch n s) as [[ch r]|] eqn:E; [|discriminate]. injection H as <- <-.
      destruct (IH _ _ _ E) as [-> _]. split; [reflexivity|discriminate].
Qed.

Lemma fetch_none n : forall s, fetch n s = None <-> (Forall (fun c => ~ closing c) s /\ length s < n).
Proof.
  induction n as [|n IH]; intro s; cbn [fetch].
  - split; [discriminate|intros [_ H]; lia].
  - destruct s as [|c s].
    + split; [intros _; split; [constructor|cbn; lia]|reflexivity].
    + destruct (ends_chunk c) eqn:E.
      * split; [discriminate|]. intros [F _]. inversion F as [|? ? N _]; subst. apply ends_chunk_iff in E. contradiction.
      * assert (N : ~ closing c) by (rewrite <- ends_chunk_iff; congruence).
        destruct (fetch n s) as [[ch r]|] eqn:F.
        -- split; [discriminate|]. intros [A L]. inversion A; subst. cbn in L.
           assert (X : Some (ch, r) = None) by (rewrite <- F; apply IH; split; [assumption|lia]). discriminate X.
        -- split; [intros _|reflexivity]. apply IH in F. destruct F as [F L]. split; [now constructor|cbn; lia].
Qed.

(** A chunk does not reach beyond a closing character. *)
Lemma fetch_closing n : forall p c rest chunk r, closing c ->
  fetch n (p ++ c :: rest) = Some (chunk, r) -> exists q, p ++ [c] = chunk ++ q.
Proof.
  induction n as [|n IH]; intros p c rest chunk r C H; cbn in H.
  - injection H as <- _. now exists (p ++ [c]).
  - destruct p as [|x p]; cbn in H.
    + apply ends_chunk_iff in C. rewrite C in H. injection H as <- _. now exists [].
    + destruct (ends_chunk x) eqn:E.
      * injection H as <- _. now exists (p ++ [c]).
      * destruct (fetch n (p ++ c :: rest)) as [[ch r']|] eqn:F; [|discriminate]. injection H as <- _.
        destruct (IH _ _ _ _ _ C F) as (q & Q). exists q. cbn. now rewrite Q.
Qed.

Lemma fetch_length n : forall s chunk rest, fetch n s = Some (chunk, rest) -> length chunk <= n.
Proof.
  induction n as [|n IH]; intros s chunk rest H; cbn in H.
  - injection H as <- _. cbn. lia.
  - destruct s as [|c s]; [discriminate|]. destruct (ends_chunk c).
    + injection H as <- _. cbn. lia.
    + destruct (fetch n s) as [[ch r]|] eqn:E; [|discriminate]. injection H as <- _. apply IH in E. cbn. lia.
Qed.

Lemma non_blank c : negb (N.leb (N_of_ascii c) 32) = true <-> ~ blank c.
Proof.
  unfold blank, nat_of_ascii. rewrite negb_true_iff, N.leb_gt. split; intro H.
  - intro B. apply N.lt_gt in H. assert (N.to_nat (N_of_ascii c) <= N.to_nat 32) by exact B.
    apply N.gt_lt in H. apply Nat.compare_le_iff in H0. rewrite <- N2Nat.inj_compare in H0.
    apply N.compare_le_iff in H0. lia.
  - destruct (N.lt_ge_cases 32 (N_of_ascii c)) as [L | G]; [exact L|]. exfalso. apply H.
    change 32 with (N.to_nat 32). apply Nat.compare_le_iff. rewrite <- N2Nat.inj_compare. now apply N.compare_le_iff.
Qed.

Lemma has_data_iff s : has_non_whitespace s = true <-> exists c, In c s /\ ~ blank c.
Proof.
  unfold has_non_whitespace. rewrite existsb_exists. split; intros (c & I & H); exists c; (split; [exact I|]); now apply non_blank.
Qed.

Lemma has_data_app a b : has_non_whitespace (a ++ b) = has_non_whitespace a || has_non_whitespace b.
Proof. apply existsb_app. Qed.

Lemma no_data_blank s : has_non_whitespace s = false -> Forall blank s.
Proof.
  intro H. apply Forall_forall. intros c I. destruct (le_dec (nat_of_ascii c) 32) as [L | G]; [exact L|].
  exfalso. assert (has_non_whitespace s = true) by (apply has_data_iff; exists c; split; [exact I|exact G]). congruence.
Qed.

Section Load.
  Context {S V : Type} (d : decoder S V).

  Lemma reads_app st s1 st1 s2 st2 : reads d st s1 st1 -> reads d st1 s2 st2 -> reads d st (s1 ++ s2) st2.
  Proof. induction 1; [tauto|]. intro R. cbn. econstructor; [eassumption|]. now apply IHreads. Qed.

  Lemma reads_split s1 : forall st s2 st2, reads d st (s1 ++ s2) st2 ->
    exists st1, reads d st s1 st1 /\ reads d st1 s2 st2.
  Proof.
    induction s1 as [|c s1 IH]; intros st s2 st2 R.
    - exists st. split; [constructor|exact R].
    - cbn in R. inversion R as [|? ? st1 ? ? F R']; subst. destruct (IH _ _ _ R') as (st3 & A & B).
      exists st3. split; [econstructor; eassumption|exact B].
  Qed.

  Lemma feed_all_reads s : forall st st', feed_all d st s = Continue st' <-> reads d st s st'.
  Proof.
    induction s as [|c s IH]; intros st st'; cbn.
    - split; [intro H; injection H as <-; constructor|intro R; inversion R; reflexivity].
    - split.
      + destruct (feed d st (Some c)) as [st1| |] eqn:E; try discriminate. intro H. econstructor; [exact E|now apply IH].
      + intro R. inversion R as [|? ? st1 ? ? F R']; subst. rewrite F. now apply IH.
  Qed.

  Lemma feed_all_cases st s :
    match feed_all d st s with
    | Continue st' => reads d st s st'
    | Decoded v => exists s1 c s2 st1, s = s1 ++ c :: s2 /\ reads d st s1 st1 /\ feed d st1 (Some c) = Decoded v
    | Failed => exists s1 c s2 st1, s = s1 ++ c :: s2 /\ reads d st s1 st1 /\ feed d st1 (Some c) = Failed
    end.
  Proof.
    revert st. induction s as [|c s IH]; intro st; cbn; [constructor|].
    destruct (feed d st (Some c)) as [st1|v|] eqn:E.
    - specialize (IH st1). destruct (feed_all d st1 s) as [st'|v|].
      + econstructor; eassumption.
      + destruct IH as (s1 & c1 & s2 & st2 & -> & R & F). exists (c :: s1), c1, s2, st2.
        split; [reflexivity|]. split; [econstructor; eassumption|exact F].
      + destruct IH as (s1 & c1 & s2 & st2 & -> & R & F). exists (c :: s1), c1, s2, st2.
        split; [reflexivity|]. split; [econstructor; eassumption|exact F].
    - exists [], c, s, st. split; [reflexivity|]. split; [constructor|exact E].
    - exists [], c, s, st. split; [reflexivity|]. split; [constructor|exact E].
  Qed.

  Lemma reads_feed_end st s1 st1 c s2 : reads d st s1 st1 ->
    feed_all d st (s1 ++ c :: s2) = match feed d st1 (Some c) with Continue st2 => feed_all d st2 s2 | r => r end.
  Proof. induction 1 as [|st0 x st1' s st2 F R IH]; cbn; [reflexivity|]. rewrite F. exact IH. Qed.

  (** An invariant: what has been delivered so far. *)
  Lemma load_loop_spec size (SZ : 0 < size) fuel : forall st s has_data, length s < fuel ->
    exists p q,
      s = p ++ q /\
      match load_loop d fuel size st s has_data with
      | Value v unread =>
          (unread = q /\ exists s1 c s2 st1, p = s1 ++ c :: s2 /\ reads d st s1 st1 /\ feed d st1 (Some c) = Decoded v) \/
          (unread = [] /\ exists st1, reads d st p st1 /\ feed d st1 None = Decoded v)
      | NoValue =>
          has_data = false /\ Forall blank p /\
          ((exists s1 c s2 st1, p = s1 ++ c :: s2 /\ reads d st s1 st1 /\ feed d st1 (Some c) = Failed) \/
           (exists st1, reads d st p st1 /\ (forall v, feed d st1 None <> Decoded v) /\
              Forall (fun c => ~ closing c) q /\ length q < size))
      | DecodeError =>
          (has_data = true \/ exists c, In c p /\ ~ blank c) /\
          ((exists s1 c s2 st1, p = s1 ++ c :: s2 /\ reads d st s1 st1 /\ feed d st1 (Some c) = Failed) \/
           (exists st1, reads d st p st1 /\ (forall v, feed d st1 None <> Decoded v)))
      | OutOfFuel => False
      end.
  Proof.
    induction fuel as [|fuel IH]; intros st s has_data L; [lia|]. cbn [load_loop].
    destruct (fetch size s) as [[chunk rest]|] eqn:F.
    - destruct (fetch_some _ _ _ _ F) as [-> NE]. specialize (NE SZ).
      pose proof (feed_all_cases st chunk) as C.
      destruct (feed_all d st chunk) as [st1|v|].
      + destruct (IH st1 rest (has_data || has_non_whitespace chunk)) as (p & q & -> & H).
        { rewrite app_length in L. destruct chunk; [contradiction|cbn in L; lia]. }
        exists (chunk ++ p), q. split; [now rewrite app_assoc|].
        destruct (load_loop d fuel size st1 (p ++ q) (has_data || has_non_whitespace chunk)) as [v unread| | |].
        * destruct H as [(-> & s1 & c & s2 & st2 & -> & R & E) | (-> & st2 & R & E)].
          -- left. split; [reflexivity|]. exists (chunk ++ s1), c, s2, st2. split; [now rewrite <- app_assoc|].
             split; [eapply reads_app; eassumption|exact E].
          -- right. split; [reflexivity|]. exists st2. split; [eapply reads_app; eassumption|exact E].
        * destruct H as (HD & B & H). apply orb_false_elim in HD. destruct HD as [-> HC].
          split; [reflexivity|]. split; [apply Forall_app; split; [now apply no_data_blank|exact B]|].
          destruct H as [(s1 & c & s2 & st2 & -> & R & E) | (st2 & R & E)].
          -- left. exists (chunk ++ s1), c, s2, st2. split; [now rewrite <- app_assoc|].
             split; [eapply reads_app; eassumption|exact E].
          -- right. exists st2. split; [eapply reads_app; eassumption|exact E].
        * destruct H as (HD & H). split.
          -- destruct HD as [HD | (c & I & N)]; [|right; exists c; split; [apply in_or_app; now right|exact N]].
             apply orb_prop in HD. destruct HD as [HD | HD]; [now left|]. right. apply has_data_iff in HD.
             destruct HD as (c & I & N). exists c. split; [apply in_or_app; now left|exact N].
          -- destruct H as [(s1 & c & s2 & st2 & -> & R & E) | (st2 & R & E)].
             ++ left. exists (chunk ++ s1), c, s2, st2. split; [now rewrite <- app_assoc|].
                split; [eapply reads_app; eassumption|exact E].
             ++ right. exists st2. split; [eapply reads_app; eassumption|exact E].
        * exact H.
      + exists chunk, rest. split; [reflexivity|]. left. split; [reflexivity|exact C].
      + exists chunk, rest. split; [reflexivity|]. unfold not_decoded.
        destruct (has_data || has_non_whitespace chunk) eqn:HD.
        * split; [|left; exact C]. apply orb_prop in HD. destruct HD as [HD | HD]; [now left|]. right. now apply has_data_iff.
        * apply orb_false_elim in HD. destruct HD as [-> HC]. split; [reflexivity|]. split; [now apply no_data_blank|]. left. exact C.
    - exists [], s. split; [reflexivity|]. apply fetch_none in F.
      destruct (feed d st None) as [st1|v|] eqn:E.
      + unfold not_decoded. destruct has_data.
        * split; [now left|]. right. exists st. split; [constructor|]. intros w W. congruence.
        * split; [reflexivity|]. split; [constructor|]. right. exists st. split; [constructor|]. split; [intros w W; congruence|exact F].
      + right. split; [reflexivity|]. exists st. split; [constructor|exact E].
      + unfold not_decoded. destruct has_data.
        * split; [now left|]. right. exists st. split; [constructor|]. intros w W. congruence.
        * split; [reflexivity|]. split; [constructor|]. right. exists st. split; [constructor|]. split; [intros w W; congruence|exact F].
  Qed.

  Lemma load_total size s : 0 < size -> json_load d size s <> OutOfFuel.
  Proof.
    intros SZ H. destruct (load_loop_spec size SZ _ (initial d) s false (le_n _)) as (p & q & _ & X).
    unfold json_load in H. rewrite H in X. exact X.
  Qed.

  (** A complete value, the last character of which is a closing one. *)
  Lemma load_loop_value size (SZ : 0 < size) fuel : forall st p c rest st1 v has_data,
    length (p ++ c :: rest) < fuel -> closing c -> reads d st p st1 -> feed d st1 (Some c) = Decoded v ->
    load_loop d fuel size st (p ++ c :: rest) has_data = Value v rest.
  Proof.
    induction fuel as [|fuel IH]; intros st p c rest st1 v has_data L C R E; [lia|]. cbn [load_loop].
    destruct (fetch size (p ++ c :: rest)) as [[chunk r]|] eqn:F.
    - destruct (fetch_some _ _ _ _ F) as [EQ NE]. specialize (NE SZ).
      destruct (fetch_closing _ _ _ _ _ _ C F) as (q & Q).
      destruct q as [|x q0] using rev_ind.
      + rewrite app_nil_r in Q. rewrite <- Q. rewrite (reads_feed_end st p st1 c [] R), E.
        f_equal. rewrite <- Q, <- app_assoc in EQ. cbn in EQ. apply app_inv_head in EQ. now injection EQ as ->.
      + clear IHq0. rewrite app_assoc in Q. apply app_inj_tail in Q. destruct Q as [-> <-].
        destruct (reads_split chunk st q0 st1 R) as (st2 & R1 & R2).
        apply feed_all_reads in R1. rewrite R1.
        rewrite <- app_assoc in EQ. apply app_inv_head in EQ. rewrite <- EQ.
        apply (IH st2 q0 c rest st1 v); try assumption.
        rewrite <- app_assoc, app_length in L. destruct chunk; [contradiction|cbn in *; lia].
    - exfalso. apply fetch_none in F. destruct F as [F _]. rewrite Forall_app in F. destruct F as [_ F].
      inversion F; subst. contradiction.
  Qed.

  Lemma load_value size p c rest v : 0 < size -> closing c -> text_of d (p ++ [c]) v ->
    json_load d size (p ++ c :: rest) = Value v rest.
  Proof.
    intros SZ C (s' & c' & st & E & R & F). apply app_inj_tail in E. destruct E as [<- <-].
    unfold json_load. apply (load_loop_value size SZ _ (initial d) p c rest st v false); try assumption. apply le_n.
  Qed.

  Lemma load_value_sound size s v unread : 0 < size -> json_load d size s = Value v unread ->
    exists p q, s = p ++ q /\ (text_of d p v \/ exists st, reads d (initial d) p st /\ feed d st None = Decoded v).
  Proof.
    intros SZ H. destruct (load_loop_spec size SZ _ (initial d) s false (le_n _)) as (p & q & -> & X).
    unfold json_load in H. rewrite H in X. destruct X as [(_ & s1 & c & s2 & st & -> & R & E) | (_ & X)].
    - exists (s1 ++ [c]), (s2 ++ q). split; [rewrite <- !app_assoc; reflexivity|]. left. exists s1, c, st.
      split; [reflexivity|]. split; assumption.
    - exists p, q. split; [reflexivity|]. now right.
  Qed.

  Lemma load_silent size s : 0 < size -> json_load d size s = NoValue ->
    exists p q, s = p ++ q /\ Forall blank p /\
      (wrong d p \/ (Forall (fun c => ~ closing c) q /\ length q < size)).
  Proof.
    intros SZ H. destruct (load_loop_spec size SZ _ (initial d) s false (le_n _)) as (p & q & -> & X).
    unfold json_load in H. rewrite H in X. destruct X as (_ & B & X).
    exists p, q. split; [reflexivity|]. split; [exact B|].
    destruct X as [X | (st & _ & _ & X)]; [left; exact X|right; exact X].
  Qed.

  (** If something that is not blank has been handed over, all errors are
      reported. *)
  Lemma load_reported size p c q : 0 < size -> ~ blank c ->
    (exists x, In x (c :: q) /\ closing x) \/ size <= length q ->
    ~ wrong d p -> no_value d (p ++ c :: q) ->
    json_load d size (p ++ c :: q) = DecodeError.
  Proof.
    intros SZ NB CL NW NV.
    destruct (json_load d size (p ++ c :: q)) as [v u| | |] eqn:E; [| |reflexivity|].
    - exfalso. destruct (load_value_sound _ _ _ _ SZ E) as (a & b & EQ & [T | (st & R & F)]).
      + exact (proj1 (NV a b EQ) v T).
      + exact (proj2 (NV a b EQ) st v R F).
    - exfalso. destruct (load_silent _ _ SZ E) as (a & b & EQ & B & X).
      assert (LE : length a <= length p).
      { destruct (le_lt_dec (length a) (length p)) as [|G]; [assumption|exfalso].
        assert (N : nth_error (p ++ c :: q) (length p) = Some c) by (rewrite nth_error_app2, Nat.sub_diag; [reflexivity|lia]).
        rewrite EQ, nth_error_app1 in N by assumption. apply nth_error_In in N.
        rewrite Forall_forall in B. apply NB, B, N. }
      assert (PA : exists a', p = a ++ a' /\ b = a' ++ c :: q).
      { exists (skipn (length a) p). assert (P1 : p = a ++ skipn (length a) p).
        { rewrite <- (firstn_skipn (length a) p) at 1. f_equal.
          assert (Q : firstn (length a) (p ++ c :: q) = a) by (rewrite EQ, firstn_app, Nat.sub_diag, firstn_all; cbn; apply app_nil_r).
          rewrite firstn_app in Q. replace (length a - length p) with 0 in Q by lia. cbn in Q. now rewrite app_nil_r in Q. }
        split; [exact P1|]. rewrite P1 in EQ at 1. rewrite <- app_assoc in EQ. apply app_inv_head in EQ. now symmetry. }
      destruct PA as (a' & -> & ->).
      destruct X as [(s1 & x & s2 & st & -> & R & F) | [X L]].
      + apply NW. exists s1, x, (s2 ++ a'), st. split; [now rewrite <- app_assoc|]. split; assumption.
      + destruct CL as [(x & I & C) | LQ].
        * rewrite Forall_forall in X. apply (X x); [|exact C]. apply in_or_app. right. exact I.
        * repeat (rewrite app_length in L || cbn [length] in L). lia.
    - destruct (load_total size _ SZ E).
  Qed.

  Lemma load_error_sound size s : 0 < size -> json_load d size s = DecodeError ->
    (exists c, In c s /\ ~ blank c) /\
    exists p q, s = p ++ q /\
      (wrong d p \/ exists st, reads d (initial d) p st /\ forall v, feed d st None <> Decoded v).
  Proof.
    intros SZ H. destruct (load_loop_spec size SZ _ (initial d) s false (le_n _)) as (p & q & -> & X).
    unfold json_load in H. rewrite H in X. destruct X as ([X | (c & I & N)] & Y); [discriminate|].
    split; [exists c; split; [apply in_or_app; now left|exact N]|]. exists p, q. split; [reflexivity|]. exact Y.
  Qed.
End Load.
