(** Proofs about the locations that references and targets denote. *)

From Coq Require Import Ascii String Bool Arith Lia.
From Coq Require Import List.
From Verif Require Import Str Path PathProofs JsonModel DbModel LoadModel LoadSpec.
Import ListNotations.

Lemma ordinary_test : forall c, ordinary c ->
    is_nil c = false /\ str_eqb c dot = false /\ str_eqb c dotdot = false.
Proof.
  intros c (H1 & H2 & H3 & _). repeat split; [destruct c; [congruence|reflexivity]|apply str_eqb_neq; auto|apply str_eqb_neq; auto].
Qed.

Lemma normal_fold : forall abs cs out slash, Forall ordinary cs ->
    fold_left (normal_step abs) cs (out, slash) = (rev cs ++ out, if is_nil cs then slash else false).
Proof.
  intros abs. induction cs as [|c cs IH]; intros out slash H; auto. inversion H; subst.
  destruct (ordinary_test c) as (E1 & E2 & E3); auto. cbn [fold_left].
  replace (normal_step abs (out, slash) c) with (c :: out, false) by (unfold normal_step; rewrite E1, E2, E3; reflexivity).
  rewrite IH by auto. simpl. rewrite <- app_assoc. simpl. destruct cs; reflexivity.
Qed.

Lemma normal_ups : forall n out, (out = [] \/ exists out', out = dotdot :: out') -> forall slash,
    fold_left (normal_step false) (repeat dotdot n) (out, slash) = (repeat dotdot n ++ out, if Nat.eqb n 0 then slash else false).
Proof.
  induction n as [|n IH]; intros out Hout slash; auto. cbn [repeat fold_left].
  replace (normal_step false (out, slash) dotdot) with (dotdot :: out, false).
  - rewrite IH by (right; eauto). simpl. rewrite <- (app_nil_l out) at 1.
    change (dotdot :: [] ++ out) with ([dotdot] ++ out). rewrite app_assoc, <- repeat_cons. simpl. destruct (Nat.eqb n 0); reflexivity.
  - destruct Hout as [->|[out' ->]]; reflexivity.
Qed.

Lemma fold_normalised : forall abs cs, normalised abs cs ->
    fold_left (normal_step abs) cs ([], false) = (rev cs, false).
Proof.
  intros abs cs (n & m & -> & Hm & Habs). rewrite fold_left_app.
  assert (E : fold_left (normal_step abs) (repeat dotdot n) ([], false) = (repeat dotdot n, false)).
  { destruct abs; [rewrite (Habs eq_refl); reflexivity|]. rewrite normal_ups by auto. rewrite app_nil_r. destruct (Nat.eqb n 0); reflexivity. }
  rewrite E, normal_fold by auto. rewrite rev_app_distr. replace (rev (repeat dotdot n)) with (repeat dotdot n).
  - destruct m; reflexivity.
  - clear. induction n as [|n IH]; auto. simpl. rewrite <- IH. apply repeat_cons.
Qed.

Lemma normalised_ordinary : forall abs l, Forall ordinary l -> normalised abs l.
Proof. intros abs l H. exists 0, l. auto. Qed.

Lemma normalised_app : forall abs a b, normalised abs a -> Forall ordinary b -> normalised abs (a ++ b).
Proof.
  intros abs a b (n & m & -> & Hm & Habs) Hb. exists n, (m ++ b). rewrite app_assoc. repeat split; auto. apply Forall_app. auto.
Qed.

Lemma normal_normalised : forall abs cs, normalised abs cs -> lexically_normal (mk_path abs cs) = mk_path abs cs.
Proof.
  intros abs cs H. unfold lexically_normal. simpl absolute. simpl comps.
  destruct abs, cs as [|c cs]; try reflexivity; rewrite fold_normalised by auto;
    (destruct (rev (c :: cs)) eqn:E; [apply (f_equal (@length _)) in E; rewrite rev_length in E; discriminate|]);
    rewrite <- E, rev_involutive; simpl; rewrite app_nil_r; reflexivity.
Qed.

Lemma normal_ordinary : forall abs cs, Forall ordinary cs -> lexically_normal (mk_path abs cs) = mk_path abs cs.
Proof. intros. apply normal_normalised. apply normalised_ordinary. auto. Qed.

(** A dot in between does not matter. *)
Lemma normal_skip_dot : forall abs a b, normalised abs a -> Forall ordinary b -> b <> [] ->
    lexically_normal (mk_path abs (a ++ dot :: b)) = mk_path abs (a ++ b).
Proof.
  intros abs a b Ha Hb Hne.
  assert (E : fold_left (normal_step abs) (a ++ dot :: b) ([], false) = (rev (a ++ b), false)).
  { rewrite fold_left_app, fold_normalised by auto. simpl fold_left. rewrite normal_fold by auto.
    rewrite rev_app_distr. destruct b; [congruence|reflexivity]. }
  assert (Hr : exists d l, rev (a ++ b) = d :: l).
  { destruct (rev (a ++ b)) as [|d l] eqn:X; [|eauto]. apply (f_equal (@length _)) in X.
    rewrite rev_length, app_length in X. destruct b; [congruence|simpl in X; lia]. }
  destruct Hr as (d & l & Hr).
  unfold lexically_normal. simpl absolute. simpl comps.
  destruct abs; (destruct (a ++ dot :: b) eqn:X; [destruct a; discriminate|]); rewrite <- X in *; rewrite E, Hr; cbv iota;
    rewrite <- Hr, rev_involutive; simpl; rewrite app_nil_r; reflexivity.
Qed.

Definition proper (c : str) : Prop := is_nil c = false.

Lemma normalised_proper : forall abs cs, normalised abs cs -> Forall proper cs.
Proof.
  intros abs cs (n & m & -> & Hm & _). apply Forall_app. split.
  - apply Forall_forall. intros x Hx. apply repeat_spec in Hx. subst. reflexivity.
  - eapply Forall_impl; [|exact Hm]. intros c Hc. apply ordinary_test. exact Hc.
Qed.

Lemma last_proper : forall cs, Forall proper cs -> cs <> [] -> is_nil (last cs []) = false.
Proof.
  induction cs as [|c cs IH]; intros H Hne; [congruence|]. inversion H; subst. destruct cs as [|c' cs].
  - simpl. auto.
  - change (last (c :: c' :: cs) []) with (last (c' :: cs) ([] : str)). apply IH; auto. discriminate.
Qed.

Lemma strip_proper : forall cs, Forall proper cs -> strip_trailing cs = cs.
Proof.
  intros [|c cs] H; auto. unfold strip_trailing. rewrite last_proper; auto. discriminate.
Qed.

Lemma append_names : forall abs cs l, Forall proper cs -> l <> [] ->
    append (mk_path abs cs) (mk_path false l) = mk_path abs (cs ++ l).
Proof.
  intros abs cs l H Hne. unfold append. simpl. destruct l; [congruence|].
  rewrite strip_proper by auto. reflexivity.
Qed.

Lemma append_dot : forall l, l <> [] -> append (mk_path false [dot]) (mk_path false l) = mk_path false (dot :: l).
Proof. intros [|c l] H; [congruence|reflexivity]. Qed.

Lemma append_fold : forall a acc, Forall ordinary acc -> Forall ordinary a ->
    fold_left (fun acc c => append acc (mk_path false (if is_nil c then [] else [c]))) a (mk_path false acc) = mk_path false (acc ++ a).
Proof.
  induction a as [|c a IH]; intros acc Hacc Ha; simpl.
  - rewrite app_nil_r. reflexivity.
  - inversion Ha; subst. destruct (ordinary_test c) as (E1 & _); auto. rewrite E1.
    rewrite append_names by (eauto using normalised_proper, (normalised_ordinary false); discriminate). rewrite IH; auto; [rewrite <- app_assoc; reflexivity|].
    apply Forall_app. auto.
Qed.

Lemma mismatch_prefix : forall s l, mismatch (s ++ l) s = (l, []).
Proof.
  induction s as [|c s IH]; intros l; simpl; [destruct l; reflexivity|]. rewrite str_eqb_refl. apply IH.
Qed.

(** What is inside the source directory, relative to it *)
Lemma relative_inside : forall s l, directory_ok s -> Forall ordinary l -> l <> [] ->
    lexically_relative (inside s l) s = mk_path false l.
Proof.
  intros s l Hs Hl Hne. destruct l as [|c l]; [congruence|]. inversion Hl; subst.
  destruct (ordinary_test c) as (E1 & E2 & E3); auto. unfold inside.
  destruct Hs as [->|[Hs Hs']].
  - rewrite (proj2 (path_eqb_eq _ _) eq_refl). simpl is_nil. cbv iota. unfold lexically_relative. simpl absolute. simpl Bool.eqb. simpl negb. cbv iota.
    simpl comps. unfold mismatch. rewrite E2. simpl count_up. cbv iota beta. simpl Nat.ltb. simpl Nat.eqb. simpl hd. rewrite E1. simpl.
    rewrite E1. change (append (mk_path false []) (mk_path false [c])) with (mk_path false [c]). apply (append_fold l [c]); auto.
  - destruct (path_eqb s (mk_path false [dot])) eqn:E.
    + apply path_eqb_eq in E. subst. exfalso. destruct Hs as (n & m & X & Hm & _). simpl in X. destruct n; [|discriminate].
      simpl in X. subst m. inversion Hm as [|? ? Y]; subst. destruct Y as (_ & Y & _). congruence.
    + unfold lexically_relative. simpl absolute. rewrite Bool.eqb_reflx. simpl negb. cbv iota. simpl comps. rewrite mismatch_prefix.
      cbv iota beta. simpl count_up. cbv iota beta. simpl Nat.ltb. simpl hd. rewrite E1. simpl. rewrite E1.
      change (append (mk_path false []) (mk_path false [c])) with (mk_path false [c]). apply (append_fold l [c]); auto.
Qed.

Lemma inside_plain : forall s l, directory_ok s -> s <> mk_path false [dot] ->
    inside s l = mk_path (absolute s) (comps s ++ l) /\ normalised (absolute s) (comps s).
Proof.
  intros s l [Hs|[Hs _]] Hne; [congruence|]. unfold inside. rewrite (proj2 (path_eqb_neq _ _) Hne). auto.
Qed.

Lemma inside_dot : forall l, inside (mk_path false [dot]) l = mk_path false (if is_nil l then [dot] else l).
Proof. reflexivity. Qed.

(** The scanner finds the file [f] in the directory [d]. *)
Section File.
Variables s t : path.
Variable d : list str.
Variable f : str.
Hypothesis Hs : directory_ok s.
Hypothesis Ht : directory_ok t.
Hypothesis Hd : Forall ordinary d.
Let src := append (inside s d) (mk_path false [f]).

Lemma inside_proper : Forall proper (comps (inside s d)).
Proof.
  destruct (path_eq_dec s (mk_path false [dot])) as [E|Hne].
  - rewrite E, inside_dot. simpl. destruct d as [|c d'] eqn:Ed; simpl; [repeat constructor|].
    eapply (normalised_proper false). apply normalised_ordinary. auto.
  - destruct (inside_plain s d Hs Hne) as [-> Hp]. simpl. eapply normalised_proper. apply normalised_app; eauto.
Qed.

Lemma inside_is_normal : lexically_normal (inside s d) = inside s d.
Proof.
  destruct (path_eq_dec s (mk_path false [dot])) as [->|Hns].
  - rewrite inside_dot. destruct d; [reflexivity|]. simpl is_nil. cbv iota. apply normal_ordinary. auto.
  - destruct (inside_plain s d Hs Hns) as [-> Hp]. apply normal_normalised. apply normalised_app; auto.
Qed.

Lemma file_dir : source_file_dir src = inside s d.
Proof.
  pose proof inside_proper as Hp. pose proof inside_is_normal as Hn. unfold source_file_dir, src.
  destruct (inside s d) as [abs cs]. simpl in Hp. rewrite append_names by (auto; discriminate).
  unfold parent_path. simpl. rewrite removelast_last. exact Hn.
Qed.

Lemma inside_append : forall l, Forall ordinary l -> l <> [] ->
    lexically_normal (append (inside s d) (mk_path false (dot :: l))) = inside s (d ++ l) /\
    lexically_relative (append (inside s d) (mk_path false l)) s = mk_path false (d ++ l).
Proof.
  intros l Hl Hne. assert (Hdl : Forall ordinary (d ++ l)) by (apply Forall_app; auto).
  assert (Hn : d ++ l <> []) by (destruct d; [exact Hne|discriminate]).
  assert (Hi : is_nil (d ++ l) = false) by (destruct (d ++ l); [congruence|reflexivity]).
  destruct (path_eq_dec s (mk_path false [dot])) as [E|Hns].
  - rewrite E. rewrite !inside_dot, Hi. destruct d as [|c d'] eqn:Ed.
    + simpl is_nil. cbv iota. simpl app. split.
      * rewrite append_dot by discriminate. change (dot :: dot :: l) with ([dot] ++ dot :: l).
        assert (X : lexically_normal (mk_path false ([dot] ++ dot :: l)) = lexically_normal (mk_path false (dot :: l))) by reflexivity.
        rewrite X. apply (normal_skip_dot false [] l); auto using normalised_ordinary.
      * rewrite append_dot by auto. unfold lexically_relative. simpl absolute. simpl comps. simpl Bool.eqb. simpl negb. cbv iota.
        change (mismatch (dot :: l) [dot]) with (mismatch ([dot] ++ l) [dot]). rewrite mismatch_prefix.
        destruct l as [|c l]; [congruence|]. inversion Hl; subst. destruct (ordinary_test c) as (E1 & _); auto.
        simpl count_up. cbv iota beta. simpl Nat.ltb. simpl hd. rewrite E1. simpl. rewrite E1.
        change (append (mk_path false []) (mk_path false [c])) with (mk_path false [c]). apply (append_fold l [c]); auto.
    + rewrite <- Ed in *. replace (is_nil d) with false by (rewrite Ed; reflexivity). split.
      * rewrite append_names by (eauto using normalised_proper, (normalised_ordinary false); discriminate). apply normal_skip_dot; auto using normalised_ordinary.
      * rewrite append_names by eauto using normalised_proper, (normalised_ordinary false). pose proof (relative_inside (mk_path false [dot]) (d ++ l) (or_introl eq_refl) Hdl Hn) as R.
        rewrite inside_dot, Hi in R. exact R.
  - destruct (inside_plain s d Hs Hns) as [-> Hp]. assert (Hpd : normalised (absolute s) (comps s ++ d)) by (apply normalised_app; auto). split.
    + rewrite append_names by (eauto using normalised_proper, (normalised_ordinary false); discriminate). rewrite normal_skip_dot by auto.
      destruct (inside_plain s (d ++ l) Hs Hns) as [-> _]. rewrite app_assoc. reflexivity.
    + rewrite append_names by eauto using normalised_proper, (normalised_ordinary false). pose proof (relative_inside s (d ++ l) Hs Hdl Hn) as R.
      destruct (inside_plain s (d ++ l) Hs Hns) as [E _]. rewrite E in R. rewrite <- app_assoc. exact R.
Qed.

Lemma string_local : forall l, l <> [] -> exists r, path_string (mk_path false (dot :: l)) = "."%char :: "/"%char :: r.
Proof. intros [|c l] H; [congruence|]. exists (join_slash (c :: l)). reflexivity. Qed.

Lemma string_not_local : forall l, Forall ordinary l ->
    match path_string (mk_path false l) with "."%char :: "/"%char :: _ => true | _ => false end = false.
Proof.
  intros [|c l] H; auto. inversion H; subst. destruct H2 as (H1 & H2 & _ & H4).
  assert (X : exists r, path_string (mk_path false (c :: l)) = c ++ r /\ (r = [] \/ exists r', r = "/"%char :: r')).
  { unfold path_string. simpl. destruct l; [exists []; rewrite app_nil_r; auto|eauto]. }
  destruct X as (r & -> & _). destruct c as [|x c]; [congruence|].
  destruct c as [|y c].
  - destruct (ascii_dec x ".") as [->|Hx]; [exfalso; apply H2; reflexivity|].
    simpl. destruct x as [b0 b1 b2 b3 b4 b5 b6 b7]. destruct b0, b1, b2, b3, b4, b5, b6, b7; try reflexivity. congruence.
  - simpl. assert (Hy : y <> "/"%char) by (intro; subst; apply H4; simpl; auto).
    destruct x as [b0 b1 b2 b3 b4 b5 b6 b7]. destruct b0, b1, b2, b3, b4, b5, b6, b7; try reflexivity.
    destruct y as [b0 b1 b2 b3 b4 b5 b6 b7]. destruct b0, b1, b2, b3, b4, b5, b6, b7; try reflexivity. congruence.
Qed.

Lemma inside_normal : forall l, Forall ordinary l -> lexically_normal (inside s l) = inside s l.
Proof.
  intros l Hl. destruct (path_eq_dec s (mk_path false [dot])) as [->|Hns].
  - rewrite inside_dot. destruct l; [reflexivity|]. simpl is_nil. cbv iota. apply normal_ordinary. auto.
  - destruct (inside_plain s l Hs Hns) as [-> Hp]. apply normal_normalised. apply normalised_app; auto.
Qed.

Lemma append_source : forall l, Forall ordinary l -> l <> [] ->
    lexically_normal (append s (mk_path false l)) = inside s l /\
    lexically_relative (append s (mk_path false l)) s = mk_path false l.
Proof.
  intros l Hl Hne. destruct (path_eq_dec s (mk_path false [dot])) as [E|Hns].
  - rewrite E. rewrite append_dot by auto. rewrite inside_dot. replace (is_nil l) with false by (destruct l; [congruence|reflexivity]). split.
    + apply (normal_skip_dot false [] l); auto using normalised_ordinary.
    + destruct l as [|c l]; [congruence|]. inversion Hl; subst. destruct (ordinary_test c) as (E1 & _); auto.
      unfold lexically_relative. simpl absolute. simpl comps. simpl Bool.eqb. simpl negb. cbv iota.
      change (mismatch (dot :: c :: l) [dot]) with (mismatch ([dot] ++ c :: l) [dot]). rewrite mismatch_prefix.
      simpl count_up. cbv iota beta. simpl Nat.ltb. simpl hd. rewrite E1. simpl. rewrite E1.
      change (append (mk_path false []) (mk_path false [c])) with (mk_path false [c]). apply (append_fold l [c]); auto.
  - destruct (inside_plain s l Hs Hns) as [E Hp]. rewrite E. destruct s as [abs cs]. simpl in *. rewrite append_names by eauto using normalised_proper, (normalised_ordinary false). split.
    + apply normal_normalised. apply normalised_app; auto.
    + pose proof (relative_inside (mk_path abs cs) l Hs Hl Hne) as R. rewrite E in R. exact R.
Qed.

Lemma append_target : forall l, l <> [] -> Forall ordinary l ->
    lexically_normal (append t (mk_path false l)) = inside t l.
Proof.
  intros l Hne Hl. destruct (path_eq_dec t (mk_path false [dot])) as [->|Hnt].
  - rewrite append_dot by auto. rewrite inside_dot. replace (is_nil l) with false by (destruct l; [congruence|reflexivity]).
    apply (normal_skip_dot false [] l); auto using normalised_ordinary.
  - destruct (inside_plain t l Ht Hnt) as [-> Hp]. destruct t as [abs cs]. simpl in *.
    rewrite append_names by eauto using normalised_proper. apply normal_normalised. apply normalised_app; auto.
Qed.

Theorem locations : forall x, Forall ordinary x -> x <> [] ->
    prepend_search_path src s t (mk_path false (dot :: x)) Project = inside s (d ++ x) /\
    prepend_search_path src s t (mk_path false x) Project = inside s x /\
    make_target_name src s t (mk_path false x) = inside t (d ++ x) /\
    prepend_search_path src s t (mk_path false (dot :: x)) Generated = inside t (d ++ x) /\
    prepend_search_path src s t (mk_path false x) Generated = inside t x.
Proof.
  intros x Hx Hne. assert (Hdx : Forall ordinary (d ++ x)) by (apply Forall_app; auto).
  assert (Hn : d ++ x <> []) by (destruct d; [exact Hne|discriminate]).
  destruct (inside_append x Hx Hne) as [I1 I2]. destruct (append_source x Hx Hne) as [S1 S2].
  destruct (string_local x Hne) as [r Hr]. pose proof (string_not_local x Hx) as Hnl.
  unfold prepend_search_path, make_target_name. rewrite file_dir, Hr, Hnl, I1, I2, S1, S2. cbv iota beta zeta.
  rewrite (relative_inside s (d ++ x) Hs Hdx Hn), !append_target by auto. rewrite inside_normal by auto. auto.
Qed.
End File.

Lemma inside_inj : forall t l1 l2, Forall ordinary l1 -> Forall ordinary l2 -> inside t l1 = inside t l2 -> l1 = l2.
Proof.
  intros t l1 l2 H1 H2 E. unfold inside in E. destruct (path_eqb t (mk_path false [dot])).
  - destruct l1 as [|a l1], l2 as [|b l2]; simpl in E; inversion E; subst; auto.
    + inversion H2 as [|? ? X]; subst. destruct X as (_ & X & _). congruence.
    + inversion H1 as [|? ? X]; subst. destruct X as (_ & X & _). congruence.
  - inversion E as [X]. apply app_inv_head in X. exact X.
Qed.

Theorem targets_apart : forall s t d1 f1 x1 d2 f2 x2,
    directory_ok s -> directory_ok t ->
    Forall ordinary d1 -> Forall ordinary x1 -> x1 <> [] -> Forall ordinary d2 -> Forall ordinary x2 -> x2 <> [] ->
    (make_target_name (append (inside s d1) (mk_path false [f1])) s t (mk_path false x1) =
     make_target_name (append (inside s d2) (mk_path false [f2])) s t (mk_path false x2) <-> d1 ++ x1 = d2 ++ x2).
Proof.
  intros s t d1 f1 x1 d2 f2 x2 Hs Ht H1 H2 H3 H4 H5 H6.
  destruct (locations s t d1 f1 Hs Ht H1 x1 H2 H3) as (_ & _ & E1 & _).
  destruct (locations s t d2 f2 Hs Ht H4 x2 H5 H6) as (_ & _ & E2 & _).
  rewrite E1, E2. split; intro E; [|congruence]. eapply inside_inj; eauto; apply Forall_app; auto.
Qed.

Theorem target_escapes : exists s t src x,
    s = mk_path false [dot; lit "foo"] /\ t = mk_path false [lit "out"] /\
    src = mk_path false [lit "foo"; lit "core"; lit "x.cpp"] /\ ordinary x /\
    make_target_name src s t (mk_path false [x]) = mk_path false [lit "foo"; lit "core"; x].
Proof.
  exists (mk_path false [dot; lit "foo"]), (mk_path false [lit "out"]), (mk_path false [lit "foo"; lit "core"; lit "x.cpp"]), (lit "x.o").
  repeat split; try reflexivity; try discriminate. simpl. intro H. repeat (destruct H as [H|H]; [discriminate H|]). exact H.
Qed.
