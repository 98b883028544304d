(** The orderings on strings and paths are total orders; facts about maps. *)

From Coq Require Import List Ascii String NArith Bool Lia Sorted RelationClasses.
From Verif Require Import Str Path SMap.
Import ListNotations.

Record order {A} (cmp : A -> A -> comparison) : Prop := {
  ord_eq : forall x y, cmp x y = Eq <-> x = y;
  ord_opp : forall x y, cmp x y = CompOpp (cmp y x);
  ord_trans : forall x y z, cmp x y = Lt -> cmp y z = Lt -> cmp x z = Lt
}.

Lemma char_order : order char_compare.
Proof.
  constructor; unfold char_compare.
  - intros x y. rewrite N.compare_eq_iff. split; intro H; subst; auto.
    rewrite <- (ascii_N_embedding x), <- (ascii_N_embedding y), H. reflexivity.
  - intros. apply N.compare_antisym.
  - intros x y z. rewrite !N.compare_lt_iff. lia.
Qed.

Lemma list_order : forall A (cmp : A -> A -> comparison), order cmp -> order (list_compare cmp).
Proof.
  intros A cmp [Heq Hopp Htr]. constructor.
  - induction x; destruct y; simpl; split; intro H; try discriminate; auto.
    + destruct (cmp a a0) eqn:E; try discriminate. apply Heq in E. apply IHx in H. subst. auto.
    + inversion H; subst. assert (cmp a0 a0 = Eq) as -> by (apply Heq; auto). apply IHx. auto.
  - induction x; destruct y; simpl; auto. rewrite (Hopp a a0). destruct (cmp a0 a); simpl; auto.
  - induction x; destruct y; destruct z; simpl; intros H1 H2; try discriminate; auto.
    destruct (cmp a a0) eqn:E1; try discriminate.
    + apply Heq in E1. subst. destruct (cmp a0 a1) eqn:E2; try discriminate; eauto.
    + destruct (cmp a0 a1) eqn:E2; try discriminate.
      * apply Heq in E2. subst. rewrite E1. auto.
      * rewrite (Htr _ _ _ E1 E2). auto.
Qed.

Lemma str_order : order str_compare.
Proof. apply list_order, char_order. Qed.

Lemma path_order : order path_compare.
Proof.
  pose proof (list_order _ _ str_order) as [Heq Hopp Htr].
  constructor; unfold path_compare.
  - intros [[] x] [[] y]; simpl; try rewrite Heq; split; intro H; try discriminate; subst; auto;
      inversion H; auto.
  - intros [[] x] [[] y]; simpl; auto.
  - intros [[] x] [[] y] [[] z]; simpl; intros; try discriminate; eauto.
Qed.

Lemma path_compare_refl : forall p, path_compare p p = Eq.
Proof. intros. apply (ord_eq _ path_order). auto. Qed.

Lemma path_compare_eq : forall p q, path_compare p q = Eq -> p = q.
Proof. intros. apply (ord_eq _ path_order). auto. Qed.

Lemma path_compare_gt : forall p q, path_compare p q = Gt <-> path_compare q p = Lt.
Proof.
  intros. rewrite (ord_opp _ path_order p q). destruct (path_compare q p); simpl; split; congruence.
Qed.

Definition path_lt (p q : path) : Prop := path_compare p q = Lt.

Lemma path_lt_trans : forall p q r, path_lt p q -> path_lt q r -> path_lt p r.
Proof. exact (ord_trans _ path_order). Qed.

Lemma path_lt_irrefl : forall p, ~ path_lt p p.
Proof. intros p H. unfold path_lt in H. rewrite path_compare_refl in H. discriminate. Qed.

Lemma path_ltb_lt : forall p q, path_ltb p q = true <-> path_lt p q.
Proof. intros. unfold path_ltb, path_lt. destruct (path_compare p q); split; congruence. Qed.

Lemma path_trichotomy : forall p q, path_lt p q \/ p = q \/ path_lt q p.
Proof.
  intros. unfold path_lt. destruct (path_compare p q) eqn:E; auto.
  - apply path_compare_eq in E. auto.
  - apply path_compare_gt in E. auto.
Qed.

Lemma str_eqb_eq : forall x y, str_eqb x y = true <-> x = y.
Proof.
  induction x; destruct y; simpl; split; intro H; try discriminate; auto.
  - apply andb_true_iff in H. destruct H as [H1 H2]. apply Ascii.eqb_eq in H1. apply IHx in H2. subst. auto.
  - inversion H; subst. rewrite Ascii.eqb_refl. simpl. apply IHx. auto.
Qed.

Lemma str_eqb_refl : forall x, str_eqb x x = true.
Proof. intros. apply str_eqb_eq. auto. Qed.

Lemma str_eqb_neq : forall x y, str_eqb x y = false <-> x <> y.
Proof.
  intros. rewrite <- str_eqb_eq. destruct (str_eqb x y); split; congruence.
Qed.

Lemma strs_eqb_eq : forall x y, strs_eqb x y = true <-> x = y.
Proof.
  induction x; destruct y; simpl; split; intro H; try discriminate; auto.
  - apply andb_true_iff in H. destruct H as [H1 H2]. apply str_eqb_eq in H1. apply IHx in H2. subst. auto.
  - inversion H; subst. rewrite str_eqb_refl. simpl. apply IHx. auto.
Qed.

Lemma path_eqb_eq : forall p q, path_eqb p q = true <-> p = q.
Proof.
  intros [a x] [b y]. unfold path_eqb. simpl. rewrite andb_true_iff, strs_eqb_eq, Bool.eqb_true_iff.
  split; [intros [? ?]; subst; auto|intro H; inversion H; auto].
Qed.

Lemma path_eqb_neq : forall p q, path_eqb p q = false <-> p <> q.
Proof. intros. rewrite <- path_eqb_eq. destruct (path_eqb p q); split; congruence. Qed.

Lemma path_eq_dec : forall p q : path, {p = q} + {p <> q}.
Proof.
  intros. destruct (path_eqb p q) eqn:E; [left; apply path_eqb_eq; auto|right; apply path_eqb_neq; auto].
Qed.

(** * Maps *)

Section Map.
  Variable V : Type.
  Local Notation smap := (list (path * V)).

  Definition keys (m : smap) : list path := map fst m.

  (** What is true of the entries of a [std::map] at all times. *)
  Definition sorted_map (m : smap) : Prop := StronglySorted path_lt (keys m).

  Lemma sorted_nodup : forall m, sorted_map m -> NoDup (keys m).
  Proof.
    unfold sorted_map. intros m H. induction H; constructor; auto.
    intro Hin. rewrite Forall_forall in H0. apply H0 in Hin. apply path_lt_irrefl in Hin. auto.
  Qed.

  Lemma map_find_in : forall m k v, sorted_map m -> (map_find k m = Some v <-> In (k, v) m).
  Proof.
    induction m as [|[k' v'] m IH]; simpl; intros k v Hs.
    - split; [discriminate|intros []].
    - inversion Hs; subst. rewrite Forall_forall in H2.
      destruct (path_compare k k') eqn:E.
      + apply path_compare_eq in E. subst. split.
        * intro H. inversion H; subst. auto.
        * intros [H|H]; [inversion H; auto|].
          exfalso. apply (path_lt_irrefl k'). apply H2. apply in_map_iff. exists (k', v). auto.
      + split; [discriminate|]. intros [H|H].
        * inversion H; subst. rewrite path_compare_refl in E. discriminate.
        * exfalso. apply (path_lt_irrefl k). apply path_lt_trans with k'; auto.
          apply H2. apply in_map_iff. exists (k, v). auto.
      + rewrite IH by auto. split; auto. intros [H|H]; auto.
        inversion H; subst. rewrite path_compare_refl in E. discriminate.
  Qed.

  Lemma map_find_none : forall m k, sorted_map m -> (map_find k m = None <-> ~ In k (keys m)).
  Proof.
    intros m k Hs. split; intro H.
    - intro Hin. apply in_map_iff in Hin. destruct Hin as [[k' v] [Hk Hin]]. simpl in Hk. subst.
      apply map_find_in in Hin; auto. congruence.
    - destruct (map_find k m) eqn:E; auto. exfalso. apply map_find_in in E; auto.
      apply H. apply in_map_iff. exists (k, v). auto.
  Qed.

  Lemma map_insert_keys : forall m k v k', In k' (keys (map_insert k v m)) <-> k' = k \/ In k' (keys m).
  Proof.
    induction m as [|[a b] m IH]; simpl; intros k v k'.
    - intuition.
    - destruct (path_compare k a) eqn:E; simpl.
      + apply path_compare_eq in E. subst. intuition.
      + intuition.
      + rewrite IH. intuition.
  Qed.

  Lemma map_insert_sorted : forall m k v, sorted_map m -> sorted_map (map_insert k v m).
  Proof.
    unfold sorted_map. induction m as [|[a b] m IH]; simpl; intros k v Hs.
    - repeat constructor.
    - inversion Hs; subst. destruct (path_compare k a) eqn:E; simpl; auto.
      + constructor; auto. constructor; auto. rewrite Forall_forall in *. intros x Hx.
        apply path_lt_trans with a; auto.
      + constructor; auto. rewrite Forall_forall in *. intros x Hx.
        apply map_insert_keys in Hx. destruct Hx as [->|Hx]; auto. apply path_compare_gt. auto.
  Qed.

  Lemma map_insert_in : forall m k v, sorted_map m ->
      forall k' v', In (k', v') (map_insert k v m) <->
                    In (k', v') m \/ (k' = k /\ v' = v /\ ~ In k (keys m)).
  Proof.
    induction m as [|[a b] m IH]; simpl; intros k v Hs k' v'.
    - split.
      + intros [H|[]]. inversion H; subst. right. auto.
      + intros [[]|[-> [-> _]]]; auto.
    - inversion Hs; subst. rewrite Forall_forall in H2.
      destruct (path_compare k a) eqn:E; simpl.
      + apply path_compare_eq in E. subst. split; auto. intros [H|[_ [_ H]]]; auto.
        exfalso. apply H. auto.
      + split.
        * intros [H|H]; auto. inversion H; subst. right. split; auto. split; auto.
          intros [->|Hin]; [rewrite path_compare_refl in E; discriminate|].
          apply (path_lt_irrefl k'). apply path_lt_trans with a; auto.
        * intros [H|[-> [-> _]]]; auto.
      + rewrite IH by auto. split.
        * intros [H|[H|[-> [-> Hn]]]]; auto. right. split; auto. split; auto.
          intros [->|Hin]; auto. rewrite path_compare_refl in E. discriminate.
        * intros [[H|H]|[-> [-> Hn]]]; auto. right. right. tauto.
  Qed.

  Lemma map_find_insert_same : forall m k v, sorted_map m -> map_find k m = None ->
      map_find k (map_insert k v m) = Some v.
  Proof.
    intros m k v Hs Hn. apply map_find_in; [apply map_insert_sorted; auto|].
    apply map_insert_in; auto. right. split; auto. split; auto. apply map_find_none; auto.
  Qed.

  Lemma map_find_insert_present : forall m k v w k', sorted_map m -> map_find k m = Some w ->
      map_find k' (map_insert k v m) = map_find k' m.
  Proof.
    intros m k v w k' Hs Hf.
    assert (In k (keys m)) as Hk.
    { apply map_find_in in Hf; auto. apply in_map_iff. exists (k, w). auto. }
    destruct (map_find k' m) eqn:E.
    - apply map_find_in; [apply map_insert_sorted; auto|]. apply map_insert_in; auto.
      left. apply map_find_in; auto.
    - apply map_find_none; [apply map_insert_sorted; auto|]. rewrite map_insert_keys.
      apply map_find_none in E; auto. intros [->|?]; auto.
  Qed.

  Lemma map_find_insert_other : forall m k v k', sorted_map m -> k' <> k ->
      map_find k' (map_insert k v m) = map_find k' m.
  Proof.
    intros m k v k' Hs Hne. destruct (map_find k' m) eqn:E.
    - apply map_find_in; [apply map_insert_sorted; auto|]. apply map_insert_in; auto.
      left. apply map_find_in; auto.
    - apply map_find_none; [apply map_insert_sorted; auto|]. rewrite map_insert_keys.
      apply map_find_none in E; auto. intros [?|?]; auto.
  Qed.

  Lemma map_merge_sorted : forall src dst, sorted_map dst -> sorted_map (map_merge dst src).
  Proof.
    unfold map_merge. induction src as [|[k v] src IH]; simpl; intros dst Hs; auto.
    apply IH. apply map_insert_sorted. auto.
  Qed.

  Lemma map_merge_find : forall src dst k, sorted_map dst -> sorted_map src ->
      map_find k (map_merge dst src) = match map_find k dst with Some v => Some v | None => map_find k src end.
  Proof.
    unfold map_merge. induction src as [|[a b] src IH]; intros dst k Hd Hs.
    - simpl. destruct (map_find k dst); auto.
    - inversion Hs; subst. rewrite Forall_forall in H2.
      assert (Ha : ~ In a (keys src)). { intro Hin. apply H2 in Hin. apply path_lt_irrefl in Hin. auto. }
      change (map_find k (fold_left (fun m e => map_insert (fst e) (snd e) m) src (map_insert a b dst)) =
              match map_find k dst with Some v => Some v | None => map_find k ((a, b) :: src) end).
      rewrite IH; auto; [|apply map_insert_sorted; auto].
      destruct (path_eq_dec k a) as [->|Hne].
      + destruct (map_find a dst) eqn:E.
        * erewrite map_find_insert_present; eauto. rewrite E. auto.
        * rewrite map_find_insert_same; auto. simpl. rewrite path_compare_refl. auto.
      + rewrite map_find_insert_other; auto. destruct (map_find k dst); auto.
        simpl. destruct (path_compare k a) eqn:E; auto.
        * apply path_compare_eq in E. congruence.
        * apply map_find_none; auto. intro Hin. apply H2 in Hin.
          apply (path_lt_irrefl k). apply path_lt_trans with a; auto.
  Qed.
End Map.

Arguments keys {V} m.
Arguments sorted_map {V} m.
