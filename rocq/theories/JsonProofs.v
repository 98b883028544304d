From Coq Require Import List Bool Ascii ZArith.
From Verif Require Import Str Path PathProofs JsonModel JsonSpec.
Import ListNotations.

Section JsonInd.
  Variable P : json -> Prop.
  Hypothesis Hobj : forall o, Forall (fun kv => P (snd kv)) o -> P (JObject o).
  Hypothesis Harr : forall l, Forall P l -> P (JArray l).
  Hypothesis Hstr : forall s, P (JString s).
  Hypothesis Hint : forall z, P (JInteger z).
  Hypothesis Hreal : forall s, P (JReal s).
  Hypothesis Htrue : P JTrue.
  Hypothesis Hfalse : P JFalse.
  Hypothesis Hnull : P JNull.

  Fixpoint json_nested_ind (j : json) : P j :=
    match j with
    | JObject o => Hobj o ((fix go (l : list (str * json)) : Forall (fun kv => P (snd kv)) l :=
                              match l with
                              | [] => Forall_nil _
                              | kv :: l' => Forall_cons kv (json_nested_ind (snd kv)) (go l')
                              end) o)
    | JArray l => Harr l ((fix go (l : list json) : Forall P l :=
                             match l with
                             | [] => Forall_nil _
                             | v :: l' => Forall_cons v (json_nested_ind v) (go l')
                             end) l)
    | JString s => Hstr s
    | JInteger z => Hint z
    | JReal s => Hreal s
    | JTrue => Htrue
    | JFalse => Hfalse
    | JNull => Hnull
    end.
End JsonInd.

Lemma json_type_eqb_eq : forall a b, json_type_eqb a b = true <-> a = b.
Proof. destruct a, b; simpl; split; congruence. Qed.

(** * Object access *)

Lemma obj_get_in : forall o k v, NoDup (map fst o) -> (obj_get k o = Some v <-> In (k, v) o).
Proof.
  induction o as [|[k' v'] o IH]; simpl; intros k v Hn.
  - split; [discriminate|intros []].
  - inversion Hn; subst. destruct (str_eqb k k') eqn:E.
    + apply str_eqb_eq in E. subst. split.
      * intro H. inversion H; subst. auto.
      * intros [H|H]; [inversion H; auto|]. exfalso. apply H1. apply in_map_iff. exists (k', v). auto.
    + apply str_eqb_neq in E. rewrite IH by auto. split; auto. intros [H|H]; auto.
      inversion H; subst. congruence.
Qed.

Lemma obj_get_none : forall o k, obj_get k o = None <-> ~ In k (map fst o).
Proof.
  induction o as [|[k' v'] o IH]; simpl; intros k.
  - split; auto.
  - destruct (str_eqb k k') eqn:E.
    + apply str_eqb_eq in E. subst. split; [discriminate|]. intro H. exfalso. auto.
    + apply str_eqb_neq in E. rewrite IH. split; intros H; [intros [?|?]; auto|]; auto.
Qed.

Lemma obj_get_set_same : forall o k v, obj_get k (obj_set k v o) = Some v.
Proof.
  induction o as [|[k' v'] o IH]; simpl; intros k v.
  - rewrite str_eqb_refl. auto.
  - destruct (str_eqb k k') eqn:E; simpl; rewrite E; auto.
Qed.

Lemma obj_get_set_other : forall o k v k', k' <> k -> obj_get k' (obj_set k v o) = obj_get k' o.
Proof.
  induction o as [|[a b] o IH]; simpl; intros k v k' Hne.
  - apply str_eqb_neq in Hne. rewrite Hne. auto.
  - destruct (str_eqb k a) eqn:E; simpl.
    + apply str_eqb_eq in E. subst. apply str_eqb_neq in Hne. rewrite Hne. auto.
    + destruct (str_eqb k' a); auto.
Qed.

Lemma obj_set_keys : forall o k v,
    map fst (obj_set k v o) = map fst o ++ (if in_dec (list_eq_dec Ascii.ascii_dec) k (map fst o) then [] else [k]).
Proof.
  induction o as [|[a b] o IH]; simpl; intros k v; auto.
  destruct (str_eqb k a) eqn:E; simpl.
  - apply str_eqb_eq in E. subst. destruct (list_eq_dec Ascii.ascii_dec a a); [|congruence].
    rewrite app_nil_r. auto.
  - apply str_eqb_neq in E. destruct (list_eq_dec Ascii.ascii_dec a k); [congruence|].
    rewrite IH. destruct (in_dec (list_eq_dec ascii_dec) k (map fst o)); auto.
Qed.

Lemma lookup_ext : forall a b,
    NoDup (map fst a) -> map fst a = map fst b -> (forall k, obj_get k a = obj_get k b) -> a = b.
Proof.
  induction a as [|[k v] a IH]; destruct b as [|[k' v'] b]; simpl; intros Hn Hk Hg; try discriminate; auto.
  inversion Hk; subst. inversion Hn; subst.
  pose proof (Hg k') as H. rewrite str_eqb_refl in H. inversion H; subst.
  f_equal. apply IH; auto. intros k. specialize (Hg k).
  destruct (str_eqb k k') eqn:E; auto. apply str_eqb_eq in E. subst.
  destruct (obj_get k' a) eqn:E1.
  { exfalso. apply H2. apply obj_get_in in E1; auto. apply in_map_iff. exists (k', j). auto. }
  destruct (obj_get k' b) eqn:E2; auto.
  exfalso. apply H2. rewrite H1. apply obj_get_in in E2; [|rewrite <- H1; auto].
  apply in_map_iff. exists (k', j). auto.
Qed.

(** * Merging *)

Lemma merge_value_objects : forall a b,
    merge_value (JObject a) (JObject b) = option_map JObject (compound_or a b).
Proof.
  intros a b. unfold compound_or.
  assert (H : forall b a,
    (fix go (a : compound) (b : list (str * json)) {struct b} : compound * bool :=
       match b with
       | [] => (a, false)
       | (k, v) :: b' =>
           match obj_get k a with
           | None => go (obj_set k v a) b'
           | Some w =>
               match merge_value w v with
               | Some x => go (obj_set k x a) b'
               | None => (a, true)
               end
           end
       end) a b = merge_members a b).
  { clear. induction b as [|[k v] b IH]; intros a; simpl; [reflexivity|].
    destruct (obj_get k a); [destruct (merge_value j v)|]; auto. }
  simpl. rewrite H. destruct (snd (merge_members a b)); auto.
Qed.

(** What a merge does for a single key. *)
Definition mopt (a b : option json) : option (option json) :=
  match a, b with
  | None, x => Some x
  | x, None => Some x
  | Some va, Some vb => option_map Some (merge_value va vb)
  end.

Definition fresh (a b : compound) : list str :=
  filter (fun k => if in_dec (list_eq_dec ascii_dec) k (map fst a) then false else true) (map fst b).

Lemma compound_or_cons : forall a k v b,
    compound_or a ((k, v) :: b) =
    match obj_get k a with
    | None => compound_or (obj_set k v a) b
    | Some w => match merge_value w v with
                | Some x => compound_or (obj_set k x a) b
                | None => None
                end
    end.
Proof.
  intros. unfold compound_or. simpl. destruct (obj_get k a); auto. destruct (merge_value j v); auto.
Qed.

Lemma fresh_cons_present : forall a k v b, In k (map fst a) -> fresh a ((k, v) :: b) = fresh a b.
Proof.
  intros. unfold fresh. simpl. destruct (in_dec (list_eq_dec ascii_dec) k (map fst a)); [auto|contradiction].
Qed.

Lemma fresh_cons_absent : forall a k v b, ~ In k (map fst a) -> fresh a ((k, v) :: b) = k :: fresh a b.
Proof.
  intros. unfold fresh. simpl. destruct (in_dec (list_eq_dec ascii_dec) k (map fst a)); [contradiction|auto].
Qed.

Lemma fresh_set_present : forall a k v b, In k (map fst a) -> fresh (obj_set k v a) b = fresh a b.
Proof.
  intros. unfold fresh. apply filter_ext_in. intros x Hx.
  rewrite obj_set_keys. destruct (in_dec (list_eq_dec ascii_dec) k (map fst a)); [|contradiction].
  rewrite app_nil_r. auto.
Qed.

Lemma fresh_set_absent : forall a k v b, ~ In k (map fst b) -> fresh (obj_set k v a) b = fresh a b.
Proof.
  intros. unfold fresh. apply filter_ext_in. intros x Hx.
  rewrite obj_set_keys. destruct (in_dec (list_eq_dec ascii_dec) k (map fst a)).
  - rewrite app_nil_r. auto.
  - destruct (in_dec (list_eq_dec ascii_dec) x (map fst a ++ [k])) as [i|i];
      destruct (in_dec (list_eq_dec ascii_dec) x (map fst a)) as [j|j]; auto.
    + exfalso. apply in_app_or in i. destruct i as [i|[i|[]]]; auto. subst. auto.
    + exfalso. apply i. apply in_or_app. auto.
Qed.

Lemma compound_or_char : forall b a c,
    NoDup (map fst b) ->
    compound_or a b = Some c ->
    map fst c = map fst a ++ fresh a b /\
    forall k, mopt (obj_get k a) (obj_get k b) = Some (obj_get k c).
Proof.
  induction b as [|[k v] b IH]; intros a c Hn H.
  - unfold compound_or in H. simpl in H. inversion H; subst. unfold fresh. simpl. rewrite app_nil_r.
    split; auto. intros k. unfold mopt. simpl. destruct (obj_get k c); auto.
  - simpl in Hn. inversion Hn; subst. rewrite compound_or_cons in H.
    assert (Hkb : obj_get k b = None) by (apply obj_get_none; auto).
    destruct (obj_get k a) as [w|] eqn:Ek.
    + destruct (merge_value w v) as [x|] eqn:Ev; [|discriminate].
      apply IH in H; auto. destruct H as [K G].
      assert (Hin : In k (map fst a)).
      { destruct (in_dec (list_eq_dec ascii_dec) k (map fst a)); auto.
        exfalso. apply obj_get_none in n. congruence. }
      split.
      * rewrite K, fresh_set_present, fresh_cons_present by auto.
        rewrite obj_set_keys. destruct (in_dec (list_eq_dec ascii_dec) k (map fst a)); [|contradiction].
        rewrite app_nil_r. auto.
      * intros k'. specialize (G k'). simpl. destruct (str_eqb k' k) eqn:E.
        { apply str_eqb_eq in E. subst. rewrite obj_get_set_same, Hkb in G. simpl in G.
          rewrite Ek. simpl. rewrite Ev. simpl. auto. }
        { apply str_eqb_neq in E. rewrite obj_get_set_other in G by auto. auto. }
    + apply IH in H; auto. destruct H as [K G].
      assert (Hin : ~ In k (map fst a)) by (apply obj_get_none; auto).
      split.
      * rewrite K, fresh_set_absent, fresh_cons_absent by auto.
        rewrite obj_set_keys. destruct (in_dec (list_eq_dec ascii_dec) k (map fst a)); [contradiction|].
        rewrite <- app_assoc. auto.
      * intros k'. specialize (G k'). simpl. destruct (str_eqb k' k) eqn:E.
        { apply str_eqb_eq in E. subst. rewrite obj_get_set_same, Hkb in G. simpl in G.
          rewrite Ek. simpl. auto. }
        { apply str_eqb_neq in E. rewrite obj_get_set_other in G by auto. auto. }
Qed.

Lemma compound_or_some : forall b a,
    NoDup (map fst b) ->
    (forall k, mopt (obj_get k a) (obj_get k b) <> None) ->
    exists c, compound_or a b = Some c.
Proof.
  induction b as [|[k v] b IH]; intros a Hn H.
  - unfold compound_or. simpl. eauto.
  - simpl in Hn. inversion Hn; subst. rewrite compound_or_cons.
    assert (Hkb : obj_get k b = None) by (apply obj_get_none; auto).
    pose proof (H k) as Hk. simpl in Hk. rewrite str_eqb_refl in Hk.
    assert (Hrest : forall x, forall k', mopt (obj_get k' (obj_set k x a)) (obj_get k' b) <> None).
    { intros x k'. destruct (str_eqb k' k) eqn:E.
      - apply str_eqb_eq in E. subst. rewrite Hkb, obj_get_set_same. simpl. discriminate.
      - pose proof (H k') as Hk'. simpl in Hk'. rewrite E in Hk'. apply str_eqb_neq in E.
        rewrite obj_get_set_other by auto. auto. }
    destruct (obj_get k a) as [w|] eqn:Ek.
    + simpl in Hk. destruct (merge_value w v) as [x|] eqn:Ev; [|exfalso; apply Hk; auto].
      apply IH; auto.
    + apply IH; auto.
Qed.

Lemma compound_or_none : forall b a,
    NoDup (map fst b) ->
    compound_or a b = None -> exists k, mopt (obj_get k a) (obj_get k b) = None.
Proof.
  induction b as [|[k v] b IH]; intros a Hn H.
  - discriminate.
  - simpl in Hn. inversion Hn; subst. rewrite compound_or_cons in H.
    assert (Hkb : obj_get k b = None) by (apply obj_get_none; auto).
    assert (Hrest : forall x, compound_or (obj_set k x a) b = None ->
                              exists k', mopt (obj_get k' a) (obj_get k' ((k, v) :: b)) = None).
    { intros x Hx. apply IH in Hx; auto. destruct Hx as [k' Hk']. exists k'. simpl.
      destruct (str_eqb k' k) eqn:E.
      - apply str_eqb_eq in E. subst. rewrite obj_get_set_same, Hkb in Hk'. discriminate.
      - apply str_eqb_neq in E. rewrite obj_get_set_other in Hk' by auto. auto. }
    destruct (obj_get k a) as [w|] eqn:Ek; auto.
    + destruct (merge_value w v) as [x|] eqn:Ev; eauto.
      exists k. simpl. rewrite str_eqb_refl, Ek. simpl. rewrite Ev. auto.
    + eauto.
Qed.

Lemma fresh_nodup : forall a b, NoDup (map fst b) -> NoDup (fresh a b).
Proof. intros. unfold fresh. apply NoDup_filter. auto. Qed.

Lemma in_fresh : forall a b k, In k (fresh a b) <-> In k (map fst b) /\ ~ In k (map fst a).
Proof.
  intros. unfold fresh. rewrite filter_In.
  destruct (in_dec (list_eq_dec ascii_dec) k (map fst a)); intuition; discriminate.
Qed.

Lemma NoDup_append : forall A (l m : list A),
    NoDup l -> NoDup m -> (forall x, In x l -> ~ In x m) -> NoDup (l ++ m).
Proof.
  induction l; simpl; intros m Hl Hm Hd; auto. inversion Hl; subst. constructor.
  - rewrite in_app_iff. intros [?|?]; auto. eapply Hd; eauto.
  - apply IHl; auto.
Qed.

Lemma compound_or_nodup : forall a b c,
    NoDup (map fst a) -> NoDup (map fst b) -> compound_or a b = Some c -> NoDup (map fst c).
Proof.
  intros a b c Ha Hb H. apply compound_or_char in H; auto. destruct H as [-> _].
  apply NoDup_append; auto. { apply fresh_nodup; auto. }
  intros x Hx Hf. apply in_fresh in Hf. tauto.
Qed.

(** ** Relation to the specification *)

Lemma merge_value_spec : forall vb va,
    well_formed va -> well_formed vb ->
    match merge_value va vb with
    | Some vc => merged va vb vc /\ ~ clash va vb
    | None => clash va vb
    end.
Proof.
  induction vb using json_nested_ind; intros va Ha Hb.
  - destruct va; try (simpl; apply clash_here; intro Hk; inversion Hk).
    rewrite merge_value_objects. inversion Ha; subst. inversion Hb; subst.
    rename members into a. rename o into b. rename H into IH.
    assert (Hval : forall k va vb, In (k, va) a -> In (k, vb) b ->
        match merge_value va vb with
        | Some vc => merged va vb vc /\ ~ clash va vb
        | None => clash va vb
        end).
    { intros k va vb Hia Hib. rewrite Forall_forall in IH. apply (IH (k, vb)); auto.
      - eapply H2; eauto.
      - eapply H4; eauto. }
    destruct (compound_or a b) as [c|] eqn:E; simpl.
    + pose proof (compound_or_nodup _ _ _ H1 H3 E) as Hc.
      apply compound_or_char in E; auto. destruct E as [E1 E2]. split.
      * constructor.
        { intros k. unfold has_member. rewrite E1, in_app_iff, in_fresh.
          destruct (in_dec (list_eq_dec ascii_dec) k (map fst a)); tauto. }
        { intros k v Hm Hn. unfold member, has_member in *. specialize (E2 k).
          apply obj_get_in in Hm; auto. apply obj_get_none in Hn. rewrite Hm, Hn in E2.
          simpl in E2. inversion E2. symmetry in H0. apply obj_get_in in H0; auto. }
        { intros k v Hm Hn. unfold member, has_member in *. specialize (E2 k).
          apply obj_get_in in Hm; auto. apply obj_get_none in Hn. rewrite Hm, Hn in E2.
          simpl in E2. inversion E2. symmetry in H0. apply obj_get_in in H0; auto. }
        { intros k va vb Hma Hmb. unfold member in *. specialize (E2 k).
          pose proof (Hval _ _ _ Hma Hmb) as Hv.
          apply obj_get_in in Hma; auto. apply obj_get_in in Hmb; auto.
          rewrite Hma, Hmb in E2. simpl in E2.
          destruct (merge_value va vb) as [vc|]; simpl in E2; [|discriminate].
          inversion E2. symmetry in H0. apply obj_get_in in H0; auto. exists vc. tauto. }
      * intro Hcl. inversion Hcl; subst.
        { apply H. constructor. }
        { unfold member in *. pose proof (Hval _ _ _ H5 H6) as Hv. specialize (E2 k).
          apply obj_get_in in H5; auto. apply obj_get_in in H6; auto.
          rewrite H5, H6 in E2. simpl in E2. destruct (merge_value va vb); [tauto|discriminate]. }
    + apply compound_or_none in E; auto. destruct E as [k Ek].
      destruct (obj_get k a) as [va|] eqn:Ga; [|discriminate].
      destruct (obj_get k b) as [vb|] eqn:Gb; [|discriminate].
      simpl in Ek. apply obj_get_in in Ga; auto. apply obj_get_in in Gb; auto.
      pose proof (Hval _ _ _ Ga Gb) as Hv.
      destruct (merge_value va vb); [discriminate|].
      eapply clash_inside; eauto.
  - destruct va; try (simpl; apply clash_here; intro Hk; inversion Hk).
    simpl. split; [apply merged_arrays|]. intro Hc. inversion Hc; subst. apply H0. constructor.
  - destruct va; try (simpl; apply clash_here; intro Hk; inversion Hk).
    simpl. split; [apply merged_scalars; simpl; [constructor|auto]|]. intro Hc. inversion Hc; subst. apply H. constructor.
  - destruct va; try (simpl; apply clash_here; intro Hk; inversion Hk).
    simpl. split; [apply merged_scalars; simpl; [constructor|auto]|]. intro Hc. inversion Hc; subst. apply H. constructor.
  - destruct va; try (simpl; apply clash_here; intro Hk; inversion Hk).
    simpl. split; [apply merged_scalars; simpl; [constructor|auto]|]. intro Hc. inversion Hc; subst. apply H. constructor.
  - destruct va; try (simpl; apply clash_here; intro Hk; inversion Hk).
    simpl. split; [apply merged_scalars; simpl; [constructor|auto]|]. intro Hc. inversion Hc; subst. apply H. constructor.
  - destruct va; try (simpl; apply clash_here; intro Hk; inversion Hk).
    simpl. split; [apply merged_scalars; simpl; [constructor|auto]|]. intro Hc. inversion Hc; subst. apply H. constructor.
  - destruct va; try (simpl; apply clash_here; intro Hk; inversion Hk).
    simpl. split; [apply merged_scalars; simpl; [constructor|auto]|]. intro Hc. inversion Hc; subst. apply H. constructor.
Qed.

Theorem compound_or_spec : forall a b,
    well_formed (JObject a) -> well_formed (JObject b) ->
    (exists c, compound_or a b = Some c /\ merged (JObject a) (JObject b) (JObject c) /\
               ~ clash (JObject a) (JObject b)) \/
    (compound_or a b = None /\ clash (JObject a) (JObject b)).
Proof.
  intros a b Ha Hb. pose proof (merge_value_spec (JObject b) (JObject a) Ha Hb) as H.
  rewrite merge_value_objects in H. destruct (compound_or a b) as [c|] eqn:E; simpl in H.
  - left. exists c. tauto.
  - right. auto.
Qed.

(** The result is determined by the specification (up to the order of
    members). *)
Lemma merged_unique : forall va vb vc vd,
    well_formed vb -> merged va vb vc -> merged va vb vd ->
    match vc, vd with
    | JObject _, JObject _ => True
    | _, _ => vc = vd
    end.
Proof.
  intros va vb vc vd _ H1 H2. inversion H1; subst; inversion H2; subst; auto; simpl in *; try tauto;
    destruct vd; simpl in *; auto; try tauto.
Qed.

(** ** Algebraic laws *)

Lemma well_formed_members : forall o k v, well_formed (JObject o) -> obj_get k o = Some v -> well_formed v.
Proof.
  intros o k v H Hg. inversion H; subst. apply (H2 k). apply obj_get_in; auto.
Qed.

Definition bind {A B} (x : option A) (f : A -> option B) : option B :=
  match x with Some y => f y | None => None end.

Lemma fresh_assoc : forall a b c x y,
    map fst x = map fst a ++ fresh a b ->
    map fst y = map fst b ++ fresh b c ->
    map fst x ++ fresh x c = map fst a ++ fresh a y.
Proof.
  intros a b c x y Hx Hy.
  assert (fresh a y = fresh a b ++ fresh x c) as ->.
  { unfold fresh at 1. rewrite Hy, filter_app. f_equal.
    unfold fresh. rewrite (filter_ext (fun k => if in_dec (list_eq_dec ascii_dec) k (map fst x) then false else true)
      (fun k => andb
        (if in_dec (list_eq_dec ascii_dec) k (map fst b) then false else true)
        (if in_dec (list_eq_dec ascii_dec) k (map fst a) then false else true))).
    - clear. induction (map fst c) as [|k l IH]; [reflexivity|].
      simpl. destruct (in_dec (list_eq_dec ascii_dec) k (map fst b)); simpl; [exact IH|].
      destruct (in_dec (list_eq_dec ascii_dec) k (map fst a)); simpl; [exact IH|].
      f_equal. exact IH.
    - intros k. rewrite Hx.
      destruct (in_dec (list_eq_dec ascii_dec) k (map fst a ++ fresh a b)) as [i|i];
      destruct (in_dec (list_eq_dec ascii_dec) k (map fst b)) as [j|j];
      destruct (in_dec (list_eq_dec ascii_dec) k (map fst a)) as [l|l]; simpl; auto; exfalso;
        rewrite in_app_iff, in_fresh in i; tauto. }
  rewrite Hx, app_assoc. auto.
Qed.

Lemma merge_value_type : forall a b c, merge_value a b = Some c -> json_type_of c = json_type_of a.
Proof.
  intros a b c H. destruct a; destruct b; simpl in H; try discriminate; try (inversion H; subst; reflexivity).
  match type of H with (if ?x then _ else _) = _ => destruct x; [discriminate|] end.
  inversion H; reflexivity.
Qed.

Lemma merge_value_same_type : forall a b c, merge_value a b = Some c -> json_type_of a = json_type_of b.
Proof. intros a b c H. destruct a; destruct b; simpl in H; try discriminate; reflexivity. Qed.

Lemma merge_assoc : forall a b c,
    well_formed a -> well_formed b -> well_formed c ->
    bind (merge_value a b) (fun x => merge_value x c) = bind (merge_value b c) (fun y => merge_value a y).
Proof.
  induction a using json_nested_ind; intros b c Ha Hb Hc;
    try (destruct b; destruct c; try reflexivity;
         try (simpl; match goal with |- context [if snd ?r then _ else _] => destruct (snd r); reflexivity end)).
  2:{ simpl. unfold array_merge. rewrite app_assoc. reflexivity. }
  rename o into a. rename members into b. rename members0 into c.
  rewrite !merge_value_objects.
  inversion Ha; subst. inversion Hb; subst. inversion Hc; subst.
  assert (Hpt : forall k, bind (mopt (obj_get k a) (obj_get k b)) (fun x => mopt x (obj_get k c)) =
                          bind (mopt (obj_get k b) (obj_get k c)) (fun y => mopt (obj_get k a) y)).
  { intros k. destruct (obj_get k a) as [va|] eqn:Ga.
    - destruct (obj_get k b) as [vb|] eqn:Gb.
      + destruct (obj_get k c) as [vc|] eqn:Gc.
        * simpl. rewrite Forall_forall in H.
          pose proof (H (k, va)) as IH. simpl in IH.
          specialize (IH (proj1 (obj_get_in _ _ _ H1) Ga) vb vc
                         (well_formed_members _ _ _ Ha Ga) (well_formed_members _ _ _ Hb Gb)
                         (well_formed_members _ _ _ Hc Gc)).
          destruct (merge_value va vb); destruct (merge_value vb vc); simpl in *; try rewrite IH; auto.
          rewrite <- IH. auto.
        * simpl. destruct (merge_value va vb); auto.
      + simpl. destruct (obj_get k c); auto.
    - simpl. destruct (mopt (obj_get k b) (obj_get k c)); auto. }
  destruct (compound_or a b) as [x|] eqn:Eab; cbn [bind option_map].
  - rewrite merge_value_objects. destruct (compound_or x c) as [z|] eqn:Exc; cbn [bind option_map].
    + (* left succeeds *)
      pose proof (compound_or_nodup _ _ _ H1 H3 Eab) as Nx.
      pose proof (compound_or_nodup _ _ _ Nx H5 Exc) as Nz.
      apply compound_or_char in Eab; auto. destruct Eab as [Kx Gx].
      apply compound_or_char in Exc; auto. destruct Exc as [Kz Gz].
      assert (Hbc : forall k, mopt (obj_get k b) (obj_get k c) <> None).
      { intros k Hk. specialize (Hpt k). rewrite Gx in Hpt. simpl in Hpt. rewrite Gz, Hk in Hpt. discriminate. }
      destruct (compound_or_some c b H5 Hbc) as [y Ey]. rewrite Ey. cbn [bind option_map].
      pose proof (compound_or_nodup _ _ _ H3 H5 Ey) as Ny.
      apply compound_or_char in Ey; auto. destruct Ey as [Ky Gy].
      assert (Hay : forall k, mopt (obj_get k a) (obj_get k y) = Some (obj_get k z)).
      { intros k. specialize (Hpt k). rewrite Gx in Hpt. simpl in Hpt. rewrite Gz, Gy in Hpt. simpl in Hpt. auto. }
      destruct (compound_or_some y a Ny) as [w Ew]. { intros k. rewrite Hay. discriminate. }
      rewrite merge_value_objects, Ew. cbn [bind option_map]. do 2 f_equal.
      apply compound_or_char in Ew; auto. destruct Ew as [Kw Gw].
      apply lookup_ext; auto.
      * rewrite Kz, Kw. eapply fresh_assoc; eauto.
      * intros k. specialize (Gw k). rewrite Hay in Gw. inversion Gw. auto.
    + (* left fails in the second step *)
      apply compound_or_none in Exc; auto. destruct Exc as [k Hk].
      apply compound_or_char in Eab; auto. destruct Eab as [Kx Gx].
      destruct (compound_or b c) as [y|] eqn:Ey; cbn [bind option_map]; auto.
      pose proof (compound_or_nodup _ _ _ H3 H5 Ey) as Ny.
      apply compound_or_char in Ey; auto. destruct Ey as [Ky Gy].
      rewrite merge_value_objects. destruct (compound_or a y) as [w|] eqn:Ew; auto.
      apply compound_or_char in Ew; auto. destruct Ew as [Kw Gw].
      specialize (Hpt k). rewrite Gx, Gy in Hpt. simpl in Hpt. rewrite Hk, Gw in Hpt. discriminate.
  - (* left fails in the first step *)
    apply compound_or_none in Eab; auto. destruct Eab as [k Hk].
    destruct (compound_or b c) as [y|] eqn:Ey; cbn [bind option_map]; auto.
    pose proof (compound_or_nodup _ _ _ H3 H5 Ey) as Ny.
    apply compound_or_char in Ey; auto. destruct Ey as [Ky Gy].
    rewrite merge_value_objects. destruct (compound_or a y) as [w|] eqn:Ew; auto.
    apply compound_or_char in Ew; auto. destruct Ew as [Kw Gw].
    specialize (Hpt k). rewrite Hk, Gy in Hpt. simpl in Hpt. rewrite Gw in Hpt. discriminate.
Qed.

Theorem compound_or_assoc : forall a b c,
    well_formed (JObject a) -> well_formed (JObject b) -> well_formed (JObject c) ->
    bind (compound_or a b) (fun x => compound_or x c) = bind (compound_or b c) (fun y => compound_or a y).
Proof.
  intros a b c Ha Hb Hc. pose proof (merge_assoc _ _ _ Ha Hb Hc) as H.
  rewrite !merge_value_objects in H.
  destruct (compound_or a b) as [x|]; destruct (compound_or b c) as [y|]; cbn [bind option_map] in *;
    rewrite ?merge_value_objects in H.
  - destruct (compound_or x c); destruct (compound_or a y); simpl in H; congruence.
  - destruct (compound_or x c); simpl in H; congruence.
  - destruct (compound_or a y); simpl in H; congruence.
  - auto.
Qed.

Theorem compound_or_empty : forall a, well_formed (JObject a) ->
    compound_or a [] = Some a /\ compound_or [] a = Some a.
Proof.
  intros a Ha. split; [reflexivity|]. inversion Ha; subst.
  destruct (compound_or_some a [] H0) as [c Hc].
  { intros k. simpl. discriminate. }
  rewrite Hc. f_equal. pose proof (compound_or_nodup [] a c (NoDup_nil _) H0 Hc).
  apply compound_or_char in Hc; auto. destruct Hc as [K G]. symmetry. apply lookup_ext; auto.
  - rewrite K. simpl. unfold fresh. simpl. clear.
    induction (map fst a); simpl; auto. f_equal. auto.
  - intros k. specialize (G k). simpl in G. inversion G. auto.
Qed.

(** * Loading several files *)

Lemma compound_or_members : forall a b c, compound_or a b = Some c -> fst (merge_members a b) = c.
Proof.
  unfold compound_or. intros a b c H. destruct (snd (merge_members a b)); [discriminate|].
  inversion H; auto.
Qed.

Lemma load_config_step : forall fs f, load_config (fs ++ [f]) =
    match f with None => load_config fs | Some b => fst (merge_members (load_config fs) b) end.
Proof. intros. unfold load_config. rewrite fold_left_app. simpl. auto. Qed.

Lemma merge_members_keeps : forall b a k, has_member a k -> has_member (fst (merge_members a b)) k.
Proof.
  induction b as [|[k' v] b IH]; simpl; intros a k H; auto.
  destruct (obj_get k' a) as [w|]; [destruct (merge_value w v)|]; simpl; auto;
    apply IH; unfold has_member; rewrite obj_set_keys, in_app_iff; auto.
Qed.

Lemma load_config_keeps : forall fs gs k, has_member (load_config fs) k -> has_member (load_config (fs ++ gs)) k.
Proof.
  intros fs gs k H. induction gs as [|f gs IH] using rev_ind.
  - rewrite app_nil_r. auto.
  - rewrite app_assoc, load_config_step. destruct f; auto. apply merge_members_keeps. auto.
Qed.

Theorem load_config_ok : forall fs f,
    (f = None -> load_config (fs ++ [f]) = load_config fs) /\
    (forall b c, f = Some b -> compound_or (load_config fs) b = Some c -> load_config (fs ++ [f]) = c) /\
    (forall k, has_member (load_config fs) k -> has_member (load_config (fs ++ [f])) k).
Proof.
  intros fs f. repeat split.
  - intros ->. rewrite load_config_step. auto.
  - intros b c -> H. rewrite load_config_step. apply compound_or_members. auto.
  - intros k. apply load_config_keeps.
Qed.
