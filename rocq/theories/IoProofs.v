(** Proofs about Fifo, OutputBuffer and InputBuffer. *)

From Coq Require Import Arith Bool Lia.
From Coq Require Import List.
From Verif Require Import IoModel.
Import ListNotations.

Section Io.

Context {A : Type}.
Implicit Types (s : system A) (W popped : list (list A)).

(** [p] and [extra] have been read from the front chunk, which has [ptr] left. *)
Definition in_front (popped got : list (list A)) (q : fifo A) (extra : list A) : Prop :=
  exists c es p, elems q = c :: es /\ c = (p ++ extra) ++ ptr q /\ length (ptr q) = left q /\
    concat got = concat popped ++ p.

Definition inv (size : nat -> nat) W s : Prop :=
  exists popped, W = popped ++ elems (queue s) ++ todo s /\
  (pc s <> Done -> (forall c, In c popped -> c <> []) /\ ~ In [] (got s)) /\
  (forall k d, nth_error (got s) k = Some d -> length d <= size k) /\
  match pc s with
  | Idle =>
      (left (queue s) = 0 /\ concat (got s) = concat popped) \/
      (0 < left (queue s) /\ in_front popped (got s) (queue s) [])
  | Asleep => elems (queue s) = [] /\ left (queue s) = 0 /\ concat (got s) = concat popped
  | Copying => in_front popped (got s) (queue s) [] /\ (left (queue s) = 0 -> exists es, elems (queue s) = [] :: es)
  | Copied data => in_front popped (got s) (queue s) data /\ length data <= size (length (got s)) /\
                   (data = [] -> left (queue s) = 0 /\ exists es, elems (queue s) = [] :: es)
  | Done => exists before, popped = before ++ [[]] /\ (forall c, In c before -> c <> []) /\
            concat (got s) = concat before /\ exists rs, got s = rs ++ [[]] /\ ~ In [] rs
  end.

Lemma inv_start : forall size W, inv size W (start W).
Proof.
  intros size W. exists []. simpl. split; auto. split; [intros _; split; [intros ? []|intros []]|]. split; [intros [|k] d H; discriminate|].
  left. auto.
Qed.

Lemma in_front_push : forall popped got q extra c, in_front popped got q extra -> in_front popped got (push q c) extra.
Proof.
  intros popped got q extra c (c0 & es & p & H1 & H2 & H3 & H4). exists c0, (es ++ [c]), p. simpl. rewrite H1. auto.
Qed.

Lemma nth_snoc : forall (X : Type) (l : list X) x k d, nth_error (l ++ [x]) k = Some d ->
    nth_error l k = Some d \/ (k = length l /\ d = x).
Proof.
  intros X l x k d H. destruct (Nat.lt_ge_cases k (length l)) as [Hk|Hk].
  - left. rewrite nth_error_app1 in H; auto.
  - right. rewrite nth_error_app2 in H by auto. destruct (k - length l) as [|n] eqn:E.
    + simpl in H. inversion H. split; auto. lia.
    + destruct n; discriminate.
Qed.

Lemma inv_step : forall size W c s r, (forall k, 0 < size k) -> inv size W s -> step size c s = Some r ->
    exists s', r = Some s' /\ inv size W s'.
Proof.
  intros size W c s r Hsize (popped & HW & Hpop & Hlen & Hpc) E. destruct c; simpl in E.
  - (* Write *)
    destruct (todo s) as [|chunk rest] eqn:Et; [discriminate|]. inversion E; subst r. clear E.
    eexists. split; [reflexivity|]. exists popped. simpl. split; [rewrite <- app_assoc; exact HW|].
    destruct (pc s) as [| | |data|] eqn:Ep; (split; [intro X; apply Hpop; auto; try discriminate; congruence|]); (split; [exact Hlen|]).
    + destruct Hpc as [H|[H1 H2]]; [left; exact H|right; split; auto; apply in_front_push; auto].
    + left. tauto.
    + destruct Hpc as [H1 H2]. split; [apply in_front_push; auto|]. intro X. destruct (H2 X) as [es E]. exists (es ++ [chunk]).
      rewrite E. reflexivity.
    + destruct Hpc as (H1 & H2 & H3). split; [apply in_front_push; auto|]. split; auto. intro X.
      destruct (H3 X) as [H4 [es E]]. split; auto. exists (es ++ [chunk]). rewrite E. reflexivity.
    + exact Hpc.
  - (* Read *)
    destruct (pc s) as [| | |data|] eqn:Ep; try discriminate.
    + destruct (Nat.eqb (left (queue s)) 0) eqn:El.
      * apply Nat.eqb_eq in El. destruct Hpc as [[_ Hc]|[H _]]; [|lia].
        unfold latch in E. destruct (elems (queue s)) as [|c0 es] eqn:Ee; inversion E; subst r; clear E;
          (eexists; split; [reflexivity|]); exists popped; simpl.
        -- rewrite Ee. split; auto. split; [intros _; apply Hpop; discriminate|]. auto.
        -- split; auto. split; [intros _; apply Hpop; discriminate|]. split; auto. split.
           ++ exists c0, es, []. simpl. rewrite !app_nil_r. auto.
           ++ intro X. exists es. destruct c0; [reflexivity|discriminate].
      * apply Nat.eqb_neq in El. inversion E; subst r. eexists. split; [reflexivity|]. exists popped. simpl.
        split; auto. split; [intros _; apply Hpop; discriminate|]. split; auto.
        destruct Hpc as [[H _]|[_ H]]; [lia|]. split; auto. intro. lia.
    + inversion E; subst r. eexists. split; [reflexivity|]. exists popped. simpl. split; auto.
      split; [intros _; apply Hpop; discriminate|]. split; auto.
      destruct Hpc as [(c0 & es & p & H1 & H2 & H3 & H4) H5].
      set (n := Nat.min (size (length (got s))) (left (queue s))). rewrite app_nil_r in H2.
      split; [|split].
      * exists c0, es, p. simpl. split; auto. split.
        -- rewrite H2, <- app_assoc, firstn_skipn. reflexivity.
        -- split; [rewrite skipn_length; lia|]. exact H4.
      * rewrite firstn_length. lia.
      * intro X. assert (Hn : n = 0).
        { assert (length (firstn n (ptr (queue s))) = 0) by (rewrite X; reflexivity). rewrite firstn_length in *. lia. }
        assert (Hl : left (queue s) = 0) by (unfold n in Hn; specialize (Hsize (length (got s))); lia).
        split; [lia|auto].
    + destruct Hpc as [(c0 & es & p & H1 & H2 & H3 & H4) [Hd Hdata]].
      assert (Hlen' : forall k d, nth_error (got s ++ [data]) k = Some d -> length d <= size k)
        by (intros k d X; destruct (nth_snoc _ _ _ _ _ X) as [Y|[-> ->]]; auto).
      destruct (Hpop ltac:(discriminate)) as [P1 P2].
      unfold pop in E. destruct (Nat.eqb (left (queue s)) 0) eqn:El.
      * apply Nat.eqb_eq in El. rewrite H1 in E. inversion E; subst r. clear E. eexists. split; [reflexivity|].
        exists (popped ++ [c0]). simpl. rewrite H1 in HW.
        assert (Hp : c0 = p ++ data) by (destruct (ptr (queue s)); [rewrite app_nil_r in H2; auto|simpl in H3; lia]).
        split; [rewrite <- app_assoc; exact HW|].
        destruct data as [|x data].
        -- split; [intro X; congruence|]. split; auto. destruct (Hdata eq_refl) as [_ [es' Ees]]. rewrite H1 in Ees.
           inversion Ees; subst c0. exists popped. split; [congruence|]. split; auto.
           assert (p = []) by (destruct p; [reflexivity|discriminate]). subst p. split.
           ++ rewrite concat_app. simpl. rewrite app_nil_r. rewrite app_nil_r in H4. exact H4.
           ++ exists (got s). auto.
        -- split; [|split; auto].
           ++ intros _. split.
              ** intros c X. apply in_app_or in X. destruct X as [X|[<-|[]]]; auto. rewrite Hp. destruct p; discriminate.
              ** intro X. apply in_app_or in X. destruct X as [X|[X|[]]]; [auto|discriminate].
           ++ left. split; auto. rewrite !concat_app. simpl. rewrite !app_nil_r. rewrite Hp, H4, app_assoc. reflexivity.
      * apply Nat.eqb_neq in El. inversion E; subst r. eexists. split; [reflexivity|]. exists popped. simpl.
        split; auto. destruct data as [|x data]; [destruct (Hdata eq_refl); lia|].
        split; [intros _; split; auto; intro X; apply in_app_or in X; destruct X as [X|[X|[]]]; [auto|discriminate]|].
        split; auto. right. split; [lia|]. exists c0, es, (p ++ x :: data). rewrite app_nil_r. split; auto. split; auto. split; auto.
        rewrite concat_app. simpl. rewrite app_nil_r, H4, app_assoc. reflexivity.
  - (* Spurious *)
    destruct (pc s) eqn:Ep; try discriminate. inversion E; subst r. eexists. split; [reflexivity|]. exists popped. simpl.
    split; auto. split; [intros _; apply Hpop; discriminate|]. split; auto. left. tauto.
Qed.

Lemma inv_run : forall size W cs s r, (forall k, 0 < size k) -> inv size W s -> run size cs s = Some r ->
    exists s', r = Some s' /\ inv size W s'.
Proof.
  intros size W cs. induction cs as [|c cs IH]; intros s r Hs Hi E; simpl in E.
  - inversion E; subst. eauto.
  - destruct (step size c s) as [[s'|]|] eqn:Es; try discriminate.
    + destruct (inv_step _ _ _ _ _ Hs Hi Es) as (s1 & E1 & Hi'). inversion E1; subst. eauto.
    + destruct (inv_step _ _ _ _ _ Hs Hi Es) as (s1 & E1 & _). discriminate.
Qed.

Lemma first_empty : forall (a b c d : list (list A)), (forall x, In x a -> x <> []) -> (forall x, In x b -> x <> []) ->
    a ++ [] :: c = b ++ [] :: d -> a = b.
Proof.
  induction a as [|x a IH]; intros b c d Ha Hb E; destruct b as [|y b]; auto.
  - simpl in E. inversion E; subst. exfalso. apply (Hb []); simpl; auto.
  - simpl in E. inversion E; subst. exfalso. apply (Ha []); simpl; auto.
  - simpl in E. inversion E; subst. f_equal. eapply IH; eauto; intros; [apply Ha|apply Hb]; simpl; auto.
Qed.

Lemma app_prefix : forall (X : Type) (a b c d : list X), a ++ b = c ++ d -> length a <= length c -> exists e, c = a ++ e.
Proof.
  intros X a. induction a as [|x a IH]; intros b c d E Hl; [exists c; reflexivity|].
  destruct c as [|y c]; [simpl in Hl; lia|]. simpl in E. inversion E; subst.
  destruct (IH b c d H1) as [e ->]; [simpl in Hl; lia|]. exists e. reflexivity.
Qed.

(** Chunks before the first empty one *)
Lemma before_empty : forall (popped rest data extra : list (list A)), popped ++ rest = data ++ [] :: extra ->
    (forall c, In c popped -> c <> []) -> exists rest', data = popped ++ rest'.
Proof.
  intros popped rest data extra E H. destruct (Nat.le_gt_cases (length popped) (length data)) as [Hl|Hl].
  - eapply app_prefix; eauto.
  - exfalso. apply (H []); auto. assert (E1 : firstn (length popped) (popped ++ rest) = popped) by (rewrite firstn_app, Nat.sub_diag, firstn_all, app_nil_r; reflexivity).
    rewrite <- E1, E, firstn_app. apply in_or_app. right.
    destruct (length popped - length data) eqn:X; [lia|]. simpl. auto.
Qed.

Theorem fifo_delivers : forall size (data extra : list (list A)) cs r, (forall k, 0 < size k) ->
    (forall c, In c data -> c <> []) ->
    run size cs (start (data ++ [] :: extra)) = Some r ->
    exists s, r = Some s /\
      (forall k d, nth_error (got s) k = Some d -> length d <= size k) /\
      (exists rest, concat data = concat (got s) ++ rest) /\
      (In [] (got s) -> concat (got s) = concat data).
Proof.
  intros size data extra cs r Hs Hd E.
  destruct (inv_run _ _ _ _ _ Hs (inv_start size (data ++ [] :: extra)) E) as (s & -> & popped & HW & Hpop & Hlen & Hpc).
  exists s. split; auto. split; auto.
  destruct (pc s) as [| | |d|] eqn:Ep.
  5: { destruct Hpc as (before & Hb & Hbe & Hc & Hin). subst popped. rewrite <- app_assoc in HW. simpl in HW.
       assert (data = before) by (eapply first_empty; eauto). subst before. split; auto.
       exists []. rewrite app_nil_r. auto. }
  all: destruct Hpop as [P1 P2]; [discriminate|]; split; [|intro X; contradiction].
  all: destruct (before_empty popped _ data extra (eq_sym HW) P1) as [rest' Hrest].
  - destruct Hpc as [[_ Hc]|[_ (c & es & p & H1 & H2 & H3 & H4)]].
    + exists (concat rest'). rewrite Hrest, concat_app, Hc. reflexivity.
    + rewrite H1 in HW. rewrite app_nil_r in H2.
      assert (Hc : c <> [] \/ c = []) by (destruct c; [right; reflexivity|left; discriminate]).
      destruct Hc as [Hc|Hc].
      * replace (popped ++ (c :: es) ++ todo s) with ((popped ++ [c]) ++ es ++ todo s) in HW by (rewrite <- app_assoc; reflexivity).
        destruct (before_empty (popped ++ [c]) _ data extra (eq_sym HW)) as [rest2 Hr2].
        { intros x X. apply in_app_or in X. destruct X as [X|[<-|[]]]; auto. }
        exists (ptr (queue s) ++ concat rest2). rewrite Hr2, !concat_app, H4. simpl. rewrite app_nil_r, H2, <- !app_assoc. reflexivity.
      * subst c. assert (p = []) by (destruct p; [auto|discriminate]). subst p. rewrite app_nil_r in H4.
        exists (concat rest'). rewrite Hrest, concat_app, H4. reflexivity.
  - destruct Hpc as (_ & _ & Hc). exists (concat rest'). rewrite Hrest, concat_app, Hc. reflexivity.
  - destruct Hpc as [(c & es & p & H1 & H2 & H3 & H4) _]. rewrite H1 in HW. rewrite app_nil_r in H2.
    assert (Hc : c <> [] \/ c = []) by (destruct c; [right; reflexivity|left; discriminate]).
    destruct Hc as [Hc|Hc].
    + replace (popped ++ (c :: es) ++ todo s) with ((popped ++ [c]) ++ es ++ todo s) in HW by (rewrite <- app_assoc; reflexivity).
      destruct (before_empty (popped ++ [c]) _ data extra (eq_sym HW)) as [rest2 Hr2].
      { intros x X. apply in_app_or in X. destruct X as [X|[<-|[]]]; auto. }
      exists (ptr (queue s) ++ concat rest2). rewrite Hr2, !concat_app, H4. simpl. rewrite app_nil_r, H2, <- !app_assoc. reflexivity.
    + subst c. assert (p = []) by (destruct p; [auto|discriminate]). subst p. rewrite app_nil_r in H4.
      exists (concat rest'). rewrite Hrest, concat_app, H4. reflexivity.
  - destruct Hpc as [(c & es & p & H1 & H2 & H3 & H4) _]. rewrite H1 in HW.
    assert (Hc : c <> [] \/ c = []) by (destruct c; [right; reflexivity|left; discriminate]).
    destruct Hc as [Hc|Hc].
    + replace (popped ++ (c :: es) ++ todo s) with ((popped ++ [c]) ++ es ++ todo s) in HW by (rewrite <- app_assoc; reflexivity).
      destruct (before_empty (popped ++ [c]) _ data extra (eq_sym HW)) as [rest2 Hr2].
      { intros x X. apply in_app_or in X. destruct X as [X|[<-|[]]]; auto. }
      exists (d ++ ptr (queue s) ++ concat rest2). rewrite Hr2, !concat_app, H4. simpl. rewrite app_nil_r, H2, <- !app_assoc. reflexivity.
    + subst c. assert (p = []) by (destruct p; [auto|discriminate]). subst p. rewrite app_nil_r in H4.
      exists (concat rest'). rewrite Hrest, concat_app, H4. reflexivity.
Qed.

(** * No deadlock *)

Theorem fifo_not_stuck : forall size (data extra : list (list A)) cs s, (forall k, 0 < size k) ->
    (forall c, In c data -> c <> []) ->
    run size cs (start (data ++ [] :: extra)) = Some (Some s) -> ~ In [] (got s) ->
    exists c s', c <> Spurious /\ step size c s = Some (Some s').
Proof.
  intros size data extra cs s Hs Hd E Hn.
  destruct (inv_run _ _ _ _ _ Hs (inv_start size (data ++ [] :: extra)) E) as (s0 & E0 & Hi). inversion E0; subst s0.
  assert (Hgo : forall c r, c <> Spurious -> step size c s = Some r -> exists c s', c <> Spurious /\ step size c s = Some (Some s')).
  { intros c r Hc Er. destruct (inv_step _ _ _ _ _ Hs Hi Er) as (s' & -> & _). eauto. }
  destruct Hi as (popped & HW & Hpop & _ & Hpc).
  destruct (pc s) as [| | |d|] eqn:Ep.
  - destruct (step size Read s) as [r|] eqn:Er; [eapply (Hgo Read); [discriminate|exact Er]|]. exfalso. simpl in Er. rewrite Ep in Er.
    destruct (Nat.eqb (left (queue s)) 0); [destruct (latch (queue s))|]; discriminate.
  - destruct (todo s) as [|chunk rest] eqn:Et.
    + exfalso. destruct Hpc as (He & _ & Hc). rewrite He in HW. simpl in HW. rewrite app_nil_r in HW.
      destruct Hpop as [P1 _]; [discriminate|]. apply (P1 []); [|reflexivity]. rewrite <- HW. apply in_or_app. right. simpl. auto.
    + eapply (Hgo Write); [discriminate|]. simpl. rewrite Et. reflexivity.
  - eapply (Hgo Read); [discriminate|]. simpl. rewrite Ep. reflexivity.
  - destruct (pop (queue s)) eqn:Epop.
    + eapply (Hgo Read); [discriminate|]. simpl. rewrite Ep, Epop. reflexivity.
    + eapply (Hgo Read); [discriminate|]. simpl. rewrite Ep, Epop. reflexivity.
  - destruct Hpc as (_ & _ & _ & _ & rs & X & _). exfalso. apply Hn. rewrite X. apply in_or_app. right. simpl. auto.
Qed.

(** * Termination *)

Definition spurious (c : choice) : bool := match c with Spurious => true | _ => false end.

Definition reader_work (p : reader A) : nat :=
  match p with
  | Idle => 3
  | Asleep => 2
  | Copying => 2
  | Copied [] => 1
  | Copied (_ :: _ as d) => 4
  | Done => 0
  end.

Definition taken s : nat := length (concat (got s)) + match pc s with Copied d => length d | _ => 0 end.

Definition work W s : nat := 2 * length (todo s) + 4 * (length (concat W) - taken s) + reader_work (pc s).

Lemma taken_bound : forall size W s, inv size W s -> taken s <= length (concat W).
Proof.
  intros size W s (popped & HW & _ & _ & Hpc). rewrite HW, !concat_app, !app_length. unfold taken.
  destruct (pc s) as [| | |d|]; simpl.
  - destruct Hpc as [[_ Hc]|[_ (c & es & p & H1 & H2 & H3 & H4)]].
    + rewrite Hc. lia.
    + rewrite H1, H4, H2. simpl. rewrite !app_length. simpl. lia.
  - destruct Hpc as (_ & _ & Hc). rewrite Hc. lia.
  - destruct Hpc as [(c & es & p & H1 & H2 & H3 & H4) _]. rewrite H1, H4, H2. simpl. rewrite !app_length. simpl. lia.
  - destruct Hpc as [(c & es & p & H1 & H2 & H3 & H4) _]. rewrite H1, H4, H2. simpl. rewrite !app_length. lia.
  - destruct Hpc as (before & -> & _ & Hc & _). rewrite Hc, concat_app, app_length. lia.
Qed.

Lemma work_step : forall size W c s s', (forall k, 0 < size k) -> inv size W s -> step size c s = Some (Some s') ->
    (if spurious c then work W s' <= S (work W s) else S (work W s') <= work W s).
Proof.
  intros size W c s s' Hs Hi E. destruct (inv_step _ _ _ _ _ Hs Hi E) as (s1 & E1 & Hi'). inversion E1; subst s1. clear E1.
  pose proof (taken_bound _ _ _ Hi') as Hb. unfold work. destruct c; simpl in E; simpl spurious; cbv iota.
  - destruct (todo s) as [|chunk rest] eqn:Et; [discriminate|]. inversion E; subst s'. simpl.
    unfold taken. simpl. destruct (pc s) as [| | |[|x d]|]; simpl; lia.
  - destruct (pc s) as [| | |d|] eqn:Ep; try discriminate.
    + destruct (Nat.eqb (left (queue s)) 0); [destruct (latch (queue s))|]; inversion E; subst s'; unfold taken; simpl; rewrite Ep; simpl; lia.
    + inversion E; subst s'. clear E Hi'. unfold taken in *. simpl in *. rewrite Ep. simpl.
      destruct (firstn (Nat.min (size (length (got s))) (left (queue s))) (ptr (queue s))) as [|x d]; simpl in *; lia.
    + destruct (pop (queue s)) as [f|]; [|discriminate]. inversion E; subst s'. unfold taken in *. simpl in *. rewrite Ep, concat_app, app_length. simpl.
      rewrite app_nil_r. destruct d as [|x d]; simpl; lia.
  - destruct (pc s) eqn:Ep; try discriminate. inversion E; subst s'. unfold taken. simpl. rewrite Ep. simpl. lia.
Qed.

Theorem fifo_terminates : forall size (data extra : list (list A)) cs s, (forall k, 0 < size k) ->
    run size cs (start (data ++ [] :: extra)) = Some (Some s) ->
    length (filter (fun c => negb (spurious c)) cs) <=
    2 * length (data ++ [] :: extra) + 4 * length (concat (data ++ [] :: extra)) + 3 + length (filter spurious cs).
Proof.
  intros size data extra cs s Hs. set (W := data ++ [] :: extra).
  assert (H : forall cs s0, inv size W s0 -> run size cs s0 = Some (Some s) ->
            length (filter (fun c => negb (spurious c)) cs) <= work W s0 + length (filter spurious cs)).
  { clear cs. induction cs as [|c cs IH]; intros s0 Hi E; simpl in *; [lia|].
    destruct (step size c s0) as [[s1|]|] eqn:Es; try discriminate.
    destruct (inv_step _ _ _ _ _ Hs Hi Es) as (s2 & E2 & Hi2). inversion E2; subst s2.
    pose proof (work_step _ _ _ _ _ Hs Hi Es) as Hw. specialize (IH s1 Hi2 E). destruct (spurious c); simpl; lia. }
  intro E. specialize (H cs _ (inv_start size W) E). unfold work, taken, start in H. simpl in H. lia.
Qed.

(** * Buffers *)

Lemma put_all_spec : forall cap (xs buf : list A) ws buf', 0 < cap -> length buf <= cap -> put_all cap buf xs = (ws, buf') ->
    concat ws ++ buf' = buf ++ xs /\ (forall w, In w ws -> length w = cap) /\ length buf' <= cap /\ (xs <> [] \/ buf <> [] -> buf' <> []).
Proof.
  intros cap xs. induction xs as [|x xs IH]; intros buf ws buf' Hc Hb E; simpl in E.
  - inversion E; subst. rewrite app_nil_r. simpl. repeat split; auto; [intros w []|intros [H|H]; congruence].
  - unfold putchar in E. destruct (Nat.eqb (length buf) cap) eqn:Eb.
    + apply Nat.eqb_eq in Eb. destruct (put_all cap [x] xs) as [ws1 b1] eqn:E1. inversion E; subst.
      destruct (IH [x] ws1 buf' Hc) as (H1 & H2 & H3 & H4); auto. simpl. repeat split; auto.
      * rewrite <- app_assoc, H1. reflexivity.
      * intros w [<-|Hw]; auto.
      * intros _. apply H4. right. discriminate.
    + apply Nat.eqb_neq in Eb. destruct (put_all cap (buf ++ [x]) xs) as [ws1 b1] eqn:E1. inversion E; subst.
      destruct (IH (buf ++ [x]) ws buf' Hc) as (H1 & H2 & H3 & H4); auto; [rewrite app_length; simpl; lia|].
      repeat split; auto.
      * simpl. rewrite H1, <- app_assoc. reflexivity.
      * intros _. apply H4. right. destruct buf; discriminate.
Qed.

Lemma output_buffer_spec : forall cap (xs : list A), 0 < cap ->
    concat (output_buffer cap xs) = xs /\
    (forall w, In w (output_buffer cap xs) -> length w <= cap) /\
    (xs <> [] -> forall w, In w (output_buffer cap xs) -> w <> []) /\ (xs = [] -> output_buffer cap xs = [[]]).
Proof.
  intros cap xs Hc. unfold output_buffer. destruct (put_all cap [] xs) as [ws buf] eqn:E.
  destruct (put_all_spec cap xs [] ws buf Hc (Nat.le_0_l cap) E) as (H1 & H2 & H3 & H4).
  repeat split.
  - rewrite concat_app. simpl. rewrite app_nil_r. exact H1.
  - intros w X. apply in_app_or in X. destruct X as [X|[<-|[]]]; auto. rewrite (H2 w X). auto.
  - intros Hx w X. apply in_app_or in X. destruct X as [X|[<-|[]]]; auto. specialize (H2 w X). destruct w; [simpl in H2; lia|discriminate].
  - intros ->. simpl in E. inversion E; subst. reflexivity.
Qed.

Lemma get_all_spec : forall (rs : list (list A)) u fuel rest, (forall r, In r rs -> r <> []) -> length u + length (concat rs) < fuel ->
    get_all fuel u (map (@Some (list A)) rs ++ Some [] :: rest) = Some (u ++ concat rs).
Proof.
  intros rs u fuel. revert rs u. induction fuel as [|fuel IH]; intros rs u rest Hr Hf; [lia|].
  simpl. unfold getchar. destruct u as [|x u].
  - destruct rs as [|r rs]; simpl.
    + reflexivity.
    + destruct r as [|x u]; [exfalso; apply (Hr []); simpl; auto|]. simpl in Hf. rewrite IH; [reflexivity|intros; apply Hr; simpl; auto|].
      rewrite app_length in Hf. lia.
  - simpl in Hf. rewrite IH; [reflexivity|auto|lia].
Qed.

Theorem buffers_deliver : forall cap cap' (xs : list A) cs r, 0 < cap -> 0 < cap' ->
    run (fun _ => cap') cs (start (output_buffer cap xs ++ [[]])) = Some r ->
    exists s, r = Some s /\
      (In [] (got s) -> forall fuel, length xs < fuel -> get_all fuel [] (map (@Some (list A)) (got s)) = Some xs).
Proof.
  intros cap cap' xs cs r Hc Hc' E.
  destruct (output_buffer_spec cap xs Hc) as (H1 & _ & H2 & H3).
  assert (HW : exists data extra, output_buffer cap xs ++ [[]] = data ++ [] :: extra /\ (forall c, In c data -> c <> []) /\ concat data = xs).
  { destruct xs as [|x xs].
    - rewrite H3 by auto. exists [], [[]]. repeat split; auto; intros c [].
    - exists (output_buffer cap (x :: xs)), []. repeat split; auto. apply H2. discriminate. }
  destruct HW as (data & extra & HW & Hd & Hx). rewrite HW in E.
  destruct (fifo_delivers (fun _ => cap') data extra cs r) as (s & -> & _ & _ & Hall); auto.
  exists s. split; auto. intros Hin fuel Hf.
  destruct (inv_run _ _ _ _ _ (fun _ => Hc') (inv_start (fun _ => cap') (data ++ [] :: extra)) E) as (s0 & E0 & popped & _ & Hpop & _ & Hpc).
  inversion E0; subst s0.
  assert (Hdone : pc s = Done).
  { destruct (pc s); auto; destruct Hpop as [_ X]; try discriminate; contradiction. }
  rewrite Hdone in Hpc. destruct Hpc as (_ & _ & _ & _ & rs & Hg & Hrs).
  specialize (Hall Hin). rewrite Hx in Hall. rewrite Hg in *. rewrite map_app.
  rewrite concat_app in Hall. simpl in Hall. rewrite app_nil_r in Hall.
  change (map (@Some (list A)) [[]]) with [Some (@nil A)]. rewrite (get_all_spec rs [] fuel []).
  - simpl. rewrite Hall. reflexivity.
  - intros r0 Hr ->. contradiction.
  - simpl. rewrite Hall. exact Hf.
Qed.

Theorem input_buffer_reads : forall (chunks : list (list A)) last rest fuel,
    Forall (fun c => c <> []) chunks -> last = None \/ last = Some [] -> length (concat chunks) < fuel ->
    get_all fuel [] (map Some chunks ++ last :: rest) = Some (concat chunks).
Proof.
  intros chunks last rest fuel Hc Hl Hf.
  assert (H : forall u cs n, Forall (fun c => c <> []) cs -> length (u ++ concat cs) < n ->
              get_all n u (map Some cs ++ last :: rest) = Some (u ++ concat cs)).
  { clear - Hl. intros u cs n. revert u cs. induction n as [|n IH]; intros u cs Hc Hf; [lia|].
    destruct u as [|x u].
    - destruct cs as [|[|x c] cs]; [destruct Hl as [-> | ->]; reflexivity|inversion Hc; congruence|].
      inversion Hc; subst. cbn [get_all getchar map app]. rewrite IH; auto. simpl in *. lia.
    - cbn [get_all getchar]. rewrite IH; auto. simpl in *. lia. }
  exact (H [] chunks fuel Hc Hf).
Qed.

End Io.
