(** Proofs about installing, continued: the whole script. *)

From Coq Require Import Ascii String Bool ZArith Lia.
From Coq Require Import List.
From Verif Require Import Str Path PathProofs DbModel LoadModel LoadSpec LoadProofs SetupModel SetupSpec SetupProofs.
Import ListNotations.

Lemma under_both a b q : under a q -> under b q -> under a b \/ under b a.
Proof.
  intros (r & ->) (s & E). apply app_split in E as [(e & -> & _) | (e & -> & _)]; [right|left]; eexists; reflexivity.
Qed.

Lemma apart_below a b q : apart a b -> under a q -> ~ under b q /\ ~ under q b.
Proof.
  intros (N1 & N2) U. split.
  - intro V. destruct (under_both _ _ _ U V); auto.
  - intros (r & ->). destruct U as (s & ->). apply N1. exists (s ++ r). now rewrite app_assoc.
Qed.

Lemma apart_sym a b : apart a b -> apart b a.
Proof. intros (N1 & N2). now split. Qed.

Lemma apart_longer a b c : apart a b -> apart a (b ++ c).
Proof.
  intros H. destruct (apart_below b a (b ++ c) (apart_sym _ _ H)); [now exists c|]. split; assumption.
Qed.

Lemma apart_names p n m : n <> m -> apart (p ++ [n]) (p ++ [m]).
Proof.
  intro N. split; intros (r & E); rewrite <- app_assoc in E; apply app_inv_head in E; injection E; intros; congruence.
Qed.

Lemma under_longer a b c : under a b -> under a (b ++ c).
Proof. intros (r & ->). exists (r ++ c). now rewrite app_assoc. Qed.

Lemma under_trans a b c : under a b -> under b c -> under a c.
Proof. intros (r & ->) (s & ->). exists (r ++ s). now rewrite app_assoc. Qed.

(** A change at [p] leaves everything as it was that is neither there nor on the way. *)
Lemma alter_apart f p t t' q : alter f p (Some t) = Some t' -> apart p q -> lookup t' q = lookup t q.
Proof. intros A (N1 & N2). now apply (alter_other f p). Qed.

Lemma some_prefix t p q u : lookup t (p ++ q) = Some u -> q <> [] -> exists r x es, lookup t p = Some (DirNode r x es).
Proof.
  intros L N. rewrite lookup_app in L. destruct (lookup t p) as [[|r x es]|]; [|now exists r, x, es|discriminate].
  destruct q; [contradiction|discriminate].
Qed.

(** ** Changes of permissions *)

Lemma chmod_lookup p t t' q : alter chmod p (Some t) = Some t' ->
  match lookup t q with
  | Some (FileNode c r x) => exists r' x', lookup t' q = Some (FileNode c r' x') /\ (r = true -> r' = true) /\ (x = true -> x' = true) /\
      (q = p -> r' = true /\ x' = true)
  | Some (DirNode r x es) => exists r' x' es', lookup t' q = Some (DirNode r' x' es') /\ map fst es' = map fst es
  | None => lookup t' q = None
  end.
Proof.
  intro A. destruct (is_prefix p q) eqn:E1.
  - apply is_prefix_under in E1 as (rest & ->). destruct (alter_same _ _ _ _ A) as (new & C & L).
    rewrite !lookup_app, L. destruct (lookup t p) as [[c r x|r x es]|]; [| |discriminate]; injection C as <-.
    + destruct rest as [|d rest]; [|reflexivity]. cbn [lookup]. exists true, true. auto.
    + destruct rest as [|d rest]; [cbn [lookup]; exists true, true, es; auto|]. cbn [lookup].
      destruct (get d es) as [u|]; [|reflexivity]. destruct (lookup u rest) as [[c0 r0 x0|r0 x0 es0]|]; [| |reflexivity].
      * exists r0, x0. split; [reflexivity|]. split; [auto|]. split; [auto|]. intro F. exfalso. assert (G : p ++ d :: rest = p ++ []) by (now rewrite app_nil_r).
        apply app_inv_head in G; discriminate.
      * exists r0, x0, es0. auto.
  - assert (N1 : ~ under p q) by (intro U; apply is_prefix_under in U; congruence).
    destruct (is_prefix q p) eqn:E2.
    + apply is_prefix_under in E2 as (rest & ->). assert (rest <> []) by (intros ->; apply N1; rewrite app_nil_r; apply under_refl).
      assert (K : forall q rest t t', alter chmod (q ++ rest) (Some t) = Some t' -> rest <> [] ->
        exists r x es es', lookup t q = Some (DirNode r x es) /\ lookup t' q = Some (DirNode r x es') /\ map fst es' = map fst es).
      { clear. induction q as [|d q IH]; intros rest t t' A N.
        - destruct rest as [|d rest]; [contradiction|]. cbn [app alter] in A. destruct t as [|r x es]; [discriminate|].
          destruct (alter chmod rest (get d es)) as [u'|] eqn:B; [|discriminate]. injection A as <-.
          exists r, x, es. eexists. cbn [lookup]. split; [reflexivity|]. split; [reflexivity|].
          destruct (get d es) as [u|] eqn:G; [|destruct rest; discriminate]. clear B N. revert G. induction es as [|[k v] es IH]; [discriminate|].
          cbn [get set map fst]. destruct (str_eqb k d) eqn:Ek; [reflexivity|]. intro G. cbn [map fst]. now rewrite IH.
        - cbn [app alter] in A. destruct t as [|r x es]; [discriminate|].
          destruct (alter chmod (q ++ rest) (get d es)) as [u'|] eqn:B; [|discriminate]. injection A as <-.
          cbn [lookup]. rewrite get_set, str_eqb_refl. destruct (get d es) as [u|] eqn:G; [now apply (IH rest)|].
          destruct q; [destruct rest; [contradiction|discriminate]|discriminate]. }
      destruct (K _ _ _ _ A H) as (r & x & es & es' & L & L' & M). rewrite L. exists r, x, es'. auto.
    + assert (N2 : ~ under q p) by (intro U; apply is_prefix_under in U; congruence).
      rewrite (alter_other _ _ _ _ _ A N1 N2). destruct (lookup t q) as [[c r x|r x es]|]; [| |reflexivity].
      * exists r, x. split; [reflexivity|]. split; [auto|]. split; [auto|]. intros ->. destruct N1. apply under_refl.
      * exists r, x, es. auto.
Qed.

Lemma each_chmod_lookup D names : forall t t' q, each (fun t name => alter chmod (D ++ [name]) (Some t)) names t = Some t' ->
  match lookup t q with
  | Some (FileNode c r x) => exists r' x', lookup t' q = Some (FileNode c r' x') /\ (r = true -> r' = true) /\ (x = true -> x' = true) /\
      (forall n, q = D ++ [n] -> In n names -> r' = true /\ x' = true)
  | Some (DirNode r x es) => exists r' x' es', lookup t' q = Some (DirNode r' x' es')
  | None => lookup t' q = None
  end.
Proof.
  induction names as [|n names IH]; intros t t' q H; cbn [each] in H.
  - injection H as <-. destruct (lookup t q) as [[c r x|r x es]|]; [| |reflexivity].
    + exists r, x. split; [reflexivity|]. split; [auto|]. split; [auto|]. intros n _ I. destruct I.
    + exists r, x, es. reflexivity.
  - destruct (alter chmod (D ++ [n]) (Some t)) as [t1|] eqn:A; [|discriminate].
    pose proof (chmod_lookup _ _ _ q A) as C. specialize (IH _ _ q H).
    destruct (lookup t q) as [[c r x|r x es]|].
    + destruct C as (r1 & x1 & L1 & R1 & X1 & E1). rewrite L1 in IH. destruct IH as (r2 & x2 & L2 & R2 & X2 & E2).
      exists r2, x2. split; [exact L2|]. split; [auto|]. split; [auto|]. intros m Q [I | I]; [|now apply (E2 m)].
      subst m. destruct (E1 Q). auto.
    + destruct C as (r1 & x1 & es1 & L1 & _). rewrite L1 in IH. exact IH.
    + rewrite C in IH. exact IH.
Qed.

(** ** Places outside *)

Section Outside.
  Variables mask_r mask_x : bool.
  Variables bin dest : list str.

  (** Where files are put, and directories that may be made *)
  Definition inner (q : list str) : Prop := under (bin ++ [lit "maike2"]) q \/ exists n rest, q = dest ++ n :: rest.
  Definition outer (q : list str) : Prop := under q bin \/ under q dest.

  Definition outside (t t' : tree) : Prop := forall q, ~ inner q ->
    match lookup t q with
    | Some (FileNode c r x) => lookup t' q = Some (FileNode c r x)
    | Some (DirNode r x es) => exists es', lookup t' q = Some (DirNode r x es')
    | None => lookup t' q = None \/ outer q /\ exists es, lookup t' q = Some (DirNode mask_r mask_x es)
    end.

  Lemma outside_refl t : outside t t.
  Proof. intros q _. destruct (lookup t q) as [[|r x es]|]; [reflexivity|now exists es|now left]. Qed.

  Lemma outside_trans a b c : outside a b -> outside b c -> outside a c.
  Proof.
    intros H1 H2 q N. specialize (H1 q N). specialize (H2 q N). destruct (lookup a q) as [[|r x es]|].
    - rewrite H1 in H2. exact H2.
    - destruct H1 as (es' & L). rewrite L in H2. exact H2.
    - destruct H1 as [L | (O & es & L)]; rewrite L in H2; [exact H2|]. destruct H2 as (es' & L'). right. split; [exact O|]. now exists es'.
  Qed.

  Lemma outside_alter f p t t' : alter f p (Some t) = Some t' -> inner p -> outside t t'.
  Proof.
    intros A I q N. destruct (is_prefix q p) eqn:E.
    - apply is_prefix_under in E as (rest & ->).
      assert (rest <> []) by (intros ->; apply N; now rewrite app_nil_r in I).
      destruct (alter_before _ _ _ _ q rest A eq_refl H) as (r & x & es & es' & L & L'). rewrite L. now exists es'.
    - assert (N2 : ~ under q p) by (intro U; apply is_prefix_under in U; congruence).
      assert (N1 : ~ under p q).
      { intros (s & ->). apply N. destruct I as [I | (n & rest & ->)].
        - left. now apply under_longer.
        - right. exists n, (rest ++ s). now rewrite <- app_assoc. }
      rewrite (alter_other _ _ _ _ _ A N1 N2). destruct (lookup t q) as [[|r x es]|]; [reflexivity|now exists es|now left].
  Qed.

  Lemma outside_mkdir p t t' : mkdir_p mask_r mask_x p (Some t) = Some t' -> (forall q, under q p -> outer q) -> outside t t'.
  Proof.
    intros M O q _. pose proof (mkdir_lookup _ _ p t t' q M) as H. destruct (lookup t q) as [[|r x es]|]; [exact H| |].
    - destruct H as (es' & L & _). now exists es'.
    - destruct H as [L | (U & E)]; [now left|]. right. auto.
  Qed.

  Lemma outside_each {A} (f : tree -> A -> option tree) l : (forall t a t', f t a = Some t' -> outside t t') ->
    forall t t', each f l t = Some t' -> outside t t'.
  Proof.
    intro H. induction l as [|a l IH]; intros t t' E; cbn [each] in E; [injection E as <-; apply outside_refl|].
    destruct (f t a) as [t1|] eqn:F; [|discriminate]. eapply outside_trans; [eapply H; exact F|]. now apply IH.
  Qed.
End Outside.

(** ** Copies of recipes *)

Section Recipes.
  Variables mask_r mask_x : bool.
  Variables R D : list str.
  Hypothesis Apart : apart R D.

  Lemma copy_one_alter t n t' : copy_one mask_r mask_x R D t n = Some t' ->
    exists s, lookup t (R ++ [n]) = Some s /\ alter (copy mask_r mask_x s) (D ++ [n]) (Some t) = Some t'.
  Proof.
    unfold copy_one. destruct (is_prefix _ _); [discriminate|]. destruct (lookup t (R ++ [n])) as [s|]; [|discriminate].
    intro A. now exists s.
  Qed.

  Lemma copies_source names : forall t t' q, each (copy_one mask_r mask_x R D) names t = Some t' -> under R q -> lookup t' q = lookup t q.
  Proof.
    induction names as [|n names IH]; intros t t' q E U; cbn [each] in E; [now injection E as <-|].
    destruct (copy_one _ _ R D t n) as [t1|] eqn:C; [|discriminate]. rewrite (IH _ _ q E U).
    destruct (copy_one_alter _ _ _ C) as (s & _ & A). apply (alter_apart _ _ _ _ q A).
    destruct (apart_below R (D ++ [n]) q (apart_longer _ _ _ Apart) U). now split.
  Qed.

  Lemma copies_apart names : forall t t' q, each (copy_one mask_r mask_x R D) names t = Some t' ->
    (forall n, In n names -> apart (D ++ [n]) q) -> lookup t' q = lookup t q.
  Proof.
    induction names as [|n names IH]; intros t t' q E U; cbn [each] in E; [now injection E as <-|].
    destruct (copy_one _ _ R D t n) as [t1|] eqn:C; [|discriminate]. rewrite (IH _ _ q E) by (intros m I; apply U; now right).
    destruct (copy_one_alter _ _ _ C) as (s & _ & A). apply (alter_apart _ _ _ _ q A). apply U. now left.
  Qed.

  Lemma copies_made names : forall t t' n rest c s, each (copy_one mask_r mask_x R D) names t = Some t' -> In n names ->
    lookup t (R ++ [n]) = Some s -> proper s -> file_at s rest c -> file_at t' (D ++ n :: rest) c.
  Proof.
    induction names as [|m names IH]; intros t t' n rest c s E I L P F; [destruct I|]. cbn [each] in E.
    destruct (copy_one _ _ R D t m) as [t1|] eqn:C; [|discriminate].
    destruct (copy_one_alter _ _ _ C) as (s0 & L0 & A).
    destruct (in_dec (list_eq_dec ascii_dec) n names) as [In' | Out].
    - apply (IH t1 t' n rest c s E In'); auto. rewrite <- L. apply (alter_apart _ _ _ _ _ A).
      destruct (apart_below R (D ++ [m]) (R ++ [n]) (apart_longer _ _ _ Apart)); [now exists [n]|]. now split.
    - destruct I as [-> | I]; [|contradiction]. rewrite L in L0. injection L0 as <-.
      destruct (alter_same _ _ _ _ A) as (new & Cp & Ln).
      pose proof (copy_content _ _ _ _ _ _ _ P Cp F) as (r & x & Q).
      exists r, x. rewrite (copies_apart _ _ _ (D ++ n :: rest) E).
      + change (n :: rest) with ([n] ++ rest). rewrite app_assoc, lookup_app, Ln. exact Q.
      + intros m I. change (n :: rest) with ([n] ++ rest). rewrite app_assoc. apply apart_longer. apply apart_names. intros ->. contradiction.
  Qed.
End Recipes.
