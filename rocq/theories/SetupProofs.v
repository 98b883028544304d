(** Proofs about building and installing. *)

From Coq Require Import Ascii String Bool ZArith Lia.
From Coq Require Import List.
From Verif Require Import Str Path PathProofs LoadModel LoadSpec TreeProofs CfgProofs SetupModel SetupSpec.
Import ListNotations.

(** ** Entries *)

Lemma str_eqb_sym a b : str_eqb a b = str_eqb b a.
Proof.
  destruct (str_eqb a b) eqn:E.
  - apply str_eqb_eq in E. subst. now rewrite str_eqb_refl.
  - destruct (str_eqb b a) eqn:F; [|reflexivity]. apply str_eqb_eq in F. subst. now rewrite str_eqb_refl in E.
Qed.

Lemma str_eqb_neq a b : a <> b -> str_eqb a b = false.
Proof. intro N. destruct (str_eqb a b) eqn:E; [|reflexivity]. apply str_eqb_eq in E. contradiction. Qed.

Lemma get_set n m t l : get n (set m t l) = if str_eqb m n then Some t else get n l.
Proof.
  induction l as [|[k u] l IH]; cbn [set get]; [reflexivity|].
  destruct (str_eqb k m) eqn:E.
  - apply str_eqb_eq in E. subst k. cbn [get]. now destruct (str_eqb m n).
  - cbn [get]. destruct (str_eqb k n) eqn:F.
    + apply str_eqb_eq in F. subst n. rewrite str_eqb_sym, E. reflexivity.
    + exact IH.
Qed.

Lemma get_in n l t : get n l = Some t -> In (n, t) l.
Proof.
  induction l as [|[k u] l IH]; [discriminate|]. cbn [get]. destruct (str_eqb k n) eqn:E.
  - apply str_eqb_eq in E. intro H. injection H as ->. subst. now left.
  - intro H. right. auto.
Qed.

Lemma get_name n l t : get n l = Some t -> In n (map fst l).
Proof. intro H. apply get_in in H. now apply (in_map fst) in H. Qed.

Lemma set_names n t l m : In m (map fst (set n t l)) <-> m = n \/ In m (map fst l).
Proof.
  induction l as [|[k u] l IH]; cbn [set map fst In]; [intuition auto|].
  destruct (str_eqb k n) eqn:E.
  - apply str_eqb_eq in E. subst k. cbn [map fst In]. intuition auto.
  - cbn [map fst In]. rewrite IH. intuition auto.
Qed.

(** ** Places *)

Lemma lookup_app t p q : lookup t (p ++ q) = match lookup t p with Some u => lookup u q | None => None end.
Proof.
  revert t. induction p as [|c p IH]; intro t; [reflexivity|]. cbn [app lookup].
  destruct t as [|r x es]; [reflexivity|]. destruct (get c es); [apply IH|reflexivity].
Qed.

Lemma under_refl p : under p p.
Proof. exists []. now rewrite app_nil_r. Qed.

Lemma under_cons c p q : under (c :: p) (c :: q) <-> under p q.
Proof.
  split; intros (r & E).
  - injection E as ->. now exists r.
  - subst. now exists r.
Qed.

Lemma under_app p q r : under (p ++ q) r -> under p r.
Proof. intros (s & ->). exists (q ++ s). now rewrite app_assoc. Qed.

Lemma alter_same f p : forall t t', alter f p (Some t) = Some t' ->
  exists new, f (lookup t p) = Some new /\ lookup t' p = Some new.
Proof.
  induction p as [|c p IH]; intros t t' H; [now exists t'|].
  cbn [alter] in H. destruct t as [|r x es]; [discriminate|].
  cbn [lookup]. destruct (get c es) as [u|] eqn:G.
  - destruct (alter f p (Some u)) as [u'|] eqn:A; [|discriminate]. injection H as <-.
    destruct (IH _ _ A) as (new & E & L). exists new. split; [exact E|]. cbn [lookup]. rewrite get_set, str_eqb_refl. exact L.
  - destruct (alter f p None) as [u'|] eqn:A; [|discriminate]. injection H as <-.
    destruct p as [|d p]; [|discriminate]. exists u'. split; [exact A|]. cbn [lookup]. now rewrite get_set, str_eqb_refl.
Qed.

(** Places elsewhere are as they were. *)
Lemma alter_other f p : forall t t' q, alter f p (Some t) = Some t' -> ~ under p q -> ~ under q p -> lookup t' q = lookup t q.
Proof.
  induction p as [|c p IH]; intros t t' q H N1 N2; [destruct (N1 (ex_intro _ q eq_refl))|].
  destruct q as [|d q]; [destruct (N2 (ex_intro _ (c :: p) eq_refl))|].
  cbn [alter] in H. destruct t as [|r x es]; [discriminate|].
  destruct (alter f p (get c es)) as [u'|] eqn:A; [|discriminate]. injection H as <-.
  cbn [lookup]. rewrite get_set. destruct (str_eqb c d) eqn:E; [|reflexivity].
  apply str_eqb_eq in E. subst d. destruct (get c es) as [u|] eqn:G.
  - apply (IH u u'); [exact A| |]; rewrite under_cons in *; assumption.
  - destruct p as [|e p]; [destruct N1; now exists q|discriminate].
Qed.

(** Directories on the way remain, with the same permissions. *)
Lemma alter_before f p : forall t t' q rest, alter f p (Some t) = Some t' -> p = q ++ rest -> rest <> [] ->
  exists r x es es', lookup t q = Some (DirNode r x es) /\ lookup t' q = Some (DirNode r x es').
Proof.
  induction p as [|c p IH]; intros t t' q rest H E N.
  - destruct q; [|discriminate]. cbn in E. subst. contradiction.
  - cbn [alter] in H. destruct t as [|r x es]; [discriminate|].
    destruct (alter f p (get c es)) as [u'|] eqn:A; [|discriminate]. injection H as <-.
    destruct q as [|d q]; [exists r, x, es; eexists; split; reflexivity|].
    injection E as -> E. cbn [lookup]. rewrite get_set, str_eqb_refl. destruct (get d es) as [u|] eqn:G.
    + now apply (IH u u' q rest).
    + destruct p as [|e p]; [|discriminate]. destruct q; cbn in E; [subst; contradiction|discriminate].
Qed.

(** ** Directories made *)

Section Made.
  Variables mask_r mask_x : bool.

  Lemma mkdir_none p : exists t, mkdir_p mask_r mask_x p None = Some t /\
    forall q, lookup t q = None \/ exists es, under q p /\ lookup t q = Some (DirNode mask_r mask_x es).
  Proof.
    induction p as [|c p (t & E & H)].
    - exists (DirNode mask_r mask_x []). split; [reflexivity|]. intros [|d q]; [|now left].
      right. exists []. split; [apply under_refl|reflexivity].
    - exists (DirNode mask_r mask_x [(c, t)]). cbn [mkdir_p]. rewrite E. split; [reflexivity|].
      intros [|d q]; [right; exists [(c, t)]; split; [now exists (c :: p)|reflexivity]|].
      cbn [lookup get]. destruct (str_eqb c d) eqn:G; [|now left].
      apply str_eqb_eq in G. subst d. destruct (H q) as [L | (es & U & L)]; [now left|].
      right. exists es. split; [now apply under_cons|exact L].
  Qed.

  (** What is at a place afterwards *)
  Lemma mkdir_lookup p : forall t t' q, mkdir_p mask_r mask_x p (Some t) = Some t' ->
    match lookup t q with
    | Some (DirNode r x es) => exists es', lookup t' q = Some (DirNode r x es') /\ (~ under q p -> es' = es)
    | Some (FileNode c r x) => lookup t' q = Some (FileNode c r x)
    | None => lookup t' q = None \/ under q p /\ exists es, lookup t' q = Some (DirNode mask_r mask_x es)
    end.
  Proof.
    induction p as [|c p IH]; intros t t' q H.
    - cbn [mkdir_p] in H. destruct t as [|r x es]; [discriminate|]. injection H as <-.
      destruct (lookup _ q) as [[|r' x' es']|]; [reflexivity| |now left]. exists es'. now split.
    - cbn [mkdir_p] in H. destruct t as [|r x es]; [discriminate|].
      destruct (mkdir_p mask_r mask_x p (get c es)) as [u'|] eqn:M; [|discriminate]. injection H as <-.
      destruct q as [|d q].
      { cbn [lookup]. eexists. split; [reflexivity|]. intro N. destruct N. now exists (c :: p). }
      cbn [lookup]. rewrite get_set. destruct (str_eqb c d) eqn:E.
      2:{ destruct (get d es) as [u|]; [|now left]. destruct (lookup u q) as [[|r' x' es']|]; [reflexivity| |now left].
          exists es'. now split. }
      apply str_eqb_eq in E. subst d. destruct (get c es) as [u|] eqn:G.
      + specialize (IH u u' q M). destruct (lookup u q) as [[|r' x' es']|]; [exact IH| |].
        * destruct IH as (e & L & N). exists e. split; [exact L|]. rewrite under_cons. exact N.
        * rewrite under_cons. exact IH.
      + destruct (mkdir_none p) as (v & E & L). rewrite M in E. injection E as <-.
        rewrite under_cons. destruct (L q) as [L' | (e & U & L')]; [now left|]. right. split; [exact U|]. now exists e.
  Qed.

  Lemma mkdir_made p t t' : mkdir_p mask_r mask_x p (Some t) = Some t' -> exists r x es, lookup t' p = Some (DirNode r x es).
  Proof.
    revert t t'. induction p as [|c p IH]; intros t t' H; cbn [mkdir_p] in H.
    - destruct t as [|r x es]; [discriminate|]. injection H as <-. now exists r, x, es.
    - destruct t as [|r x es]; [discriminate|].
      destruct (mkdir_p mask_r mask_x p (get c es)) as [u'|] eqn:M; [|discriminate]. injection H as <-.
      cbn [lookup]. rewrite get_set, str_eqb_refl. destruct (get c es) as [u|]; [now apply (IH u)|].
      clear -M. revert u' M. induction p as [|c p IH]; intros u' M; cbn [mkdir_p] in M.
      + injection M as <-. now exists mask_r, mask_x, [].
      + destruct (mkdir_p mask_r mask_x p None) as [v|] eqn:E; [|discriminate]. injection M as <-. cbn [lookup get].
        rewrite str_eqb_refl. now apply IH.
  Qed.

  Lemma mkdir_apart p t t' q : mkdir_p mask_r mask_x p (Some t) = Some t' -> ~ under q p -> lookup t' q = lookup t q.
  Proof.
    intros M N. pose proof (mkdir_lookup p t t' q M) as H. destruct (lookup t q) as [[|r x es]|]; [exact H| |].
    - destruct H as (es' & L & E). now rewrite L, E.
    - destruct H as [H | (U & _)]; [exact H|contradiction].
  Qed.

  (** ** Copies *)

  Definition copy_entries : list (str * tree) -> list (str * tree) -> option (list (str * tree)) :=
    fix copy_entries es acc :=
      match es with
      | [] => Some acc
      | (n, s') :: es' =>
          match copy mask_r mask_x s' (get n acc) with
          | Some t' => copy_entries es' (set n t' acc)
          | None => None
          end
      end.

  Lemma copy_entries_other es : forall acc out n, copy_entries es acc = Some out -> ~ In n (map fst es) -> get n out = get n acc.
  Proof.
    induction es as [|[m s] es IH]; intros acc out n H N; [now injection H as <-|].
    cbn [copy_entries] in H. destruct (copy _ _ s (get m acc)) as [t'|]; [|discriminate].
    rewrite (IH _ _ n H) by (intro I; apply N; now right). rewrite get_set.
    rewrite str_eqb_neq; [reflexivity|]. intro E. apply N. now left.
  Qed.

  Lemma copy_entries_in es : forall acc out n s, copy_entries es acc = Some out -> NoDup (map fst es) -> In (n, s) es ->
    exists d t', copy mask_r mask_x s d = Some t' /\ get n out = Some t'.
  Proof.
    induction es as [|[m s0] es IH]; intros acc out n s H D I; [destruct I|].
    cbn [copy_entries] in H. destruct (copy _ _ s0 (get m acc)) as [t'|] eqn:C; [|discriminate].
    inversion D as [|? ? N D']; subst. destruct I as [I | I].
    - injection I as -> ->. exists (get n acc), t'. split; [exact C|].
      rewrite (copy_entries_other _ _ _ n H N), get_set, str_eqb_refl. reflexivity.
    - now apply (IH _ _ n s H).
  Qed.

  (** Each file is there with its content. *)
  Lemma copy_content q : forall s d t' c, proper s -> copy mask_r mask_x s d = Some t' -> file_at s q c -> file_at t' q c.
  Proof.
    induction q as [|n q IH]; intros s d t' c P H (r & x & L).
    - injection L as ->. cbn in H. destruct d as [[? r' x'|]|]; [|discriminate|]; injection H as <-.
      + now exists r', x'.
      + eexists. eexists. reflexivity.
    - destruct s as [|r0 x0 es]; [discriminate|]. cbn [lookup] in L. destruct (get n es) as [s'|] eqn:G; [|discriminate].
      apply get_in in G. inversion P as [|? ? ? D Q]; subst.
      change (match d with
              | None => option_map (DirNode (r0 && mask_r) (x0 && mask_x)) (copy_entries es [])
              | Some (DirNode r' x' es') => option_map (DirNode r' x') (copy_entries es es')
              | Some (FileNode _ _ _) => None
              end = Some t') in H.
      assert (K : exists r' x' acc out, copy_entries es acc = Some out /\ t' = DirNode r' x' out).
      { destruct d as [[|r' x' es']|]; [discriminate| |];
          (destruct (copy_entries es _) as [out|] eqn:C; [|discriminate]); injection H as <-; do 4 eexists; split; try eassumption; reflexivity. }
      destruct K as (r' & x' & acc & out & C & ->).
      destruct (copy_entries_in _ _ _ n s' C D G) as (d' & u & Cu & Gu).
      assert (F : file_at u q c) by (apply (IH s' d' u c); [now apply (Q n)|exact Cu|now exists r, x]).
      destruct F as (r1 & x1 & F). exists r1, x1. cbn [lookup]. now rewrite Gu.
  Qed.

  (** Permissions of what there was are kept. *)
  Lemma copy_file c r x d t' : copy mask_r mask_x (FileNode c r x) d = Some t' -> exists r' x', t' = FileNode c r' x'.
  Proof.
    cbn. destruct d as [[? r' x'|]|]; [|discriminate|]; intro H; injection H as <-; eexists; eexists; reflexivity.
  Qed.
End Made.

Lemma is_prefix_under a : forall b, is_prefix a b = true <-> under a b.
Proof.
  induction a as [|c a IH]; intro b; [split; [intros _; now exists b|reflexivity]|].
  destruct b as [|d b]; cbn [is_prefix]; [split; [discriminate|intros (r & E); discriminate]|].
  rewrite andb_true_iff, IH. split.
  - intros (E & U). apply str_eqb_eq in E. subst d. now apply under_cons.
  - intros (r & E). injection E as -> ->. split; [apply str_eqb_refl|now exists r].
Qed.

(** ** Names and places *)

Lemma normal_fold_ordinary cs : forall out b, Forall (fun c => ~ In "/"%char c) cs -> Forall ordinary out ->
  Forall ordinary (fst (fold_left (normal_step true) cs (out, b))).
Proof.
  induction cs as [|c cs IH]; intros out b F O; [exact O|]. inversion F as [|? ? N F']; subst. cbn [fold_left].
  assert (K : exists out' b', normal_step true (out, b) c = (out', b') /\ Forall ordinary out').
  { unfold normal_step. destruct (is_nil c) eqn:E1; [cbn [orb]; eauto|]. cbn [orb].
    destruct (str_eqb c dot) eqn:E2; [eauto|]. destruct (str_eqb c dotdot) eqn:E3.
    - destruct out as [|d out']; [eauto|]. inversion O as [|? ? Od O']; subst. destruct (str_eqb d dotdot) eqn:E4; [|eauto].
      apply str_eqb_eq in E4. destruct Od as (_ & _ & Nd & _). contradiction.
    - exists (c :: out), false. split; [reflexivity|]. constructor; [|exact O].
      split; [intros ->; discriminate|]. split; [intros ->; now rewrite str_eqb_refl in E2|].
      split; [intros ->; now rewrite str_eqb_refl in E3|exact N]. }
  destruct K as (out' & b' & -> & O'). now apply IH.
Qed.

Lemma normal_step_ordinary out b c : ordinary c -> normal_step true (out, b) c = (c :: out, false).
Proof.
  intros (N & D & DD & _). unfold normal_step. destruct c as [|a c]; [contradiction|]. cbn [is_nil orb].
  rewrite (str_eqb_neq _ _ D), (str_eqb_neq _ _ DD). reflexivity.
Qed.

Lemma fold_ordinary l : forall out b, Forall ordinary l ->
  fst (fold_left (normal_step true) l (out, b)) = rev l ++ out.
Proof.
  induction l as [|c l IH]; intros out b F; [reflexivity|]. inversion F; subst. cbn [fold_left rev].
  rewrite normal_step_ordinary by assumption. rewrite IH by assumption. now rewrite <- app_assoc.
Qed.

Lemma ordinary_filter l : Forall ordinary l -> filter (fun c => negb (is_nil c)) l = l.
Proof.
  induction 1 as [|c l (N & _) _ IH]; [reflexivity|]. cbn [filter]. destruct c; [contradiction|]. cbn. now rewrite IH.
Qed.

Lemma normal_comps cs : Forall (fun c => ~ In "/"%char c) cs ->
  filter (fun c => negb (is_nil c)) (comps (lexically_normal (mk_path true cs))) =
  rev (fst (fold_left (normal_step true) cs ([], false))).
Proof.
  intro F. unfold lexically_normal. cbn [absolute comps].
  pose proof (normal_fold_ordinary cs [] false F (Forall_nil _)) as O.
  destruct (fold_left (normal_step true) cs ([], false)) as [out b]. cbn [fst] in *.
  destruct out as [|d out]; [reflexivity|]. cbn [comps].
  rewrite filter_app. pose proof (ordinary_filter (rev (d :: out)) (Forall_rev O)) as K. unfold str in *. rewrite K.
  destruct (b && negb (str_eqb d dotdot)); cbn [filter is_nil negb]; apply app_nil_r.
Qed.

Lemma last_ordinary l : Forall ordinary l -> strip_trailing l = l.
Proof.
  intro F. unfold strip_trailing. destruct l as [|c l] using rev_ind; [reflexivity|].
  rewrite last_last. apply Forall_app in F as (_ & F). inversion F as [|? ? (N & _) _]; subst. destruct c; [contradiction|reflexivity].
Qed.

(** Pieces of a name between slashes *)
Lemma split_slash_app a : forall b cur, split_slash (a ++ "/"%char :: b) cur = split_slash a cur ++ split_slash b [].
Proof.
  induction a as [|c a IH]; intros b cur; cbn [app split_slash].
  - reflexivity.
  - destruct (Ascii.eqb c "/"); rewrite IH; reflexivity.
Qed.

Definition pieces (s : str) : list str := filter (fun c => negb (is_nil c)) (split_slash s []).

Lemma pieces_no_slash s : Forall (fun c => ~ In "/"%char c) (pieces s).
Proof.
  unfold pieces. apply Forall_forall. intros c I. apply filter_In in I as (I & _).
  assert (G : Forall no_slash (split_slash s [])) by (apply split_pieces; intros K; destruct K).
  rewrite Forall_forall in G. exact (G c I).
Qed.

Lemma parse_pieces s : exists extra, comps (parse_path s) = pieces s ++ extra /\ (extra = [] \/ extra = [[]]).
Proof.
  rewrite parse_comps. change (filter is_proper (split_slash s [])) with (pieces s). destruct (pieces s) as [|p l] eqn:E; [exists []; auto|]. cbn [is_nil]. destruct (is_nil (last (split_slash s []) [])).
  - exists [[]]. auto.
  - exists []. rewrite app_nil_r. auto.
Qed.

Definition steps_of (here : list str) (s : str) : list str :=
  (match s with "/"%char :: _ => [] | _ => here end) ++ pieces s.

Lemma place_steps here s : Forall ordinary here ->
  place_of here s = rev (fst (fold_left (normal_step true) (steps_of here s) ([], false))).
Proof.
  intro O. unfold place_of, steps_of.
  assert (Oh : Forall (fun c => ~ In "/"%char c) here) by (eapply Forall_impl; [|exact O]; intros c (_ & _ & _ & N); exact N).
  assert (A : exists extra, comps (append (mk_path true here) (parse_path s)) =
            ((match s with "/"%char :: _ => [] | _ => here end) ++ pieces s) ++ extra /\ (extra = [] \/ extra = [[]]) /\
            absolute (append (mk_path true here) (parse_path s)) = true).
  { destruct (parse_pieces s) as (extra & B & X). assert (Abs : absolute (parse_path s) = match s with c :: _ => Ascii.eqb c "/" | [] => false end) by reflexivity.
    destruct (parse_path s) as [abs cs]. cbn [absolute comps] in *. subst abs cs. unfold append. cbn [absolute comps].
    destruct (match s with c :: _ => Ascii.eqb c "/" | [] => false end) eqn:Abs.
    - destruct s as [|c s]; [discriminate|]. apply Ascii.eqb_eq in Abs. subst c. exists extra. cbn [comps absolute]. auto.
    - assert (Hs : match s with "/"%char :: _ => [] | _ => here end = here).
      { destruct s as [|c s]; [reflexivity|]. destruct c as [[] [] [] [] [] [] [] []]; try reflexivity. discriminate. }
      rewrite Hs. destruct (pieces s ++ extra) as [|p l] eqn:E.
      + apply app_eq_nil in E as (E1 & E2). rewrite E1, app_nil_r. destruct (has_filename (mk_path true here)); cbn [comps absolute].
        * exists [[]]. auto.
        * exists []. rewrite app_nil_r. auto.
      + cbn [comps absolute]. rewrite (last_ordinary here O). exists extra. rewrite <- app_assoc, E. auto. }
  destruct A as (extra & C & X & Abs).
  destruct (append (mk_path true here) (parse_path s)) as [abs cs]. cbn [comps absolute] in *. subst abs cs.
  rewrite normal_comps.
  - rewrite fold_left_app. destruct X as [-> | ->]; [reflexivity|].
    destruct (fold_left _ _ ([], false)) as [out b]. reflexivity.
  - apply Forall_app. split; [apply Forall_app; split; [|apply pieces_no_slash]|].
    + destruct s as [|c s]; [exact Oh|]. destruct c as [[] [] [] [] [] [] [] []]; try exact Oh. constructor.
    + destruct X as [-> | ->]; repeat constructor. intros [].
Qed.

Lemma place_ordinary here s : Forall ordinary here -> Forall ordinary (place_of here s).
Proof.
  intro O. rewrite place_steps by exact O. apply Forall_rev. apply normal_fold_ordinary; [|constructor].
  unfold steps_of. apply Forall_app. split; [|apply pieces_no_slash].
  assert (Oh : Forall (fun c => ~ In "/"%char c) here) by (eapply Forall_impl; [|exact O]; intros c (_ & _ & _ & N); exact N).
  destruct s as [|c s]; [exact Oh|]. destruct c as [[] [] [] [] [] [] [] []]; try exact Oh. constructor.
Qed.

(** A name in the directory [dir] *)
Lemma place_below here dir rest : Forall ordinary here -> Forall ordinary (pieces rest) ->
  place_of here (dir ++ "/"%char :: rest) = place_of here (dir ++ ["/"%char]) ++ pieces rest.
Proof.
  intros O R. rewrite !place_steps by exact O.
  assert (S : steps_of here (dir ++ "/"%char :: rest) = steps_of here (dir ++ ["/"%char]) ++ pieces rest).
  { unfold steps_of. rewrite <- app_assoc.
    replace (match dir ++ "/"%char :: rest with "/"%char :: _ => [] | _ => here end)
      with (match dir ++ ["/"%char] with "/"%char :: _ => [] | _ => here end) by (destruct dir as [|c dir]; [reflexivity|]; reflexivity).
    f_equal. unfold pieces. rewrite !split_slash_app, !filter_app. cbn. now rewrite app_nil_r. }
  rewrite S, fold_left_app. destruct (fold_left _ (steps_of here (dir ++ ["/"%char])) _) as [out b]. cbn [fst].
  rewrite fold_ordinary by exact R. now rewrite rev_app_distr, rev_involutive.
Qed.

Lemma ordinary_literal c : negb (is_nil c) && negb (str_eqb c dot) && negb (str_eqb c dotdot) && negb (existsb (Ascii.eqb "/") c) = true ->
  ordinary c.
Proof.
  intro H. rewrite !andb_true_iff, !negb_true_iff in H. destruct H as (((N & D) & DD) & S). repeat split.
  - intros ->. discriminate.
  - intros ->. discriminate.
  - intros ->. discriminate.
  - intro I. enough (existsb (Ascii.eqb "/") c = true) by congruence. apply existsb_exists. exists "/"%char. split; [exact I|]. reflexivity.
Qed.

Definition base_place (here : list str) (dir : str) : list str := place_of here (dir ++ ["/"%char]).

Lemma bin_place here dir : Forall ordinary here -> place_of here (dir ++ lit "/bin") = base_place here dir ++ [lit "bin"].
Proof.
  intro O. change (lit "/bin") with ("/"%char :: lit "bin"). rewrite place_below; [reflexivity|exact O|].
  vm_compute pieces. constructor; [|constructor]. apply ordinary_literal. reflexivity.
Qed.

Lemma recipes_place here dir : Forall ordinary here ->
  place_of here (dir ++ lit "/lib/maike2/recipes") = base_place here dir ++ [lit "lib"; lit "maike2"; lit "recipes"].
Proof.
  intro O. change (lit "/lib/maike2/recipes") with ("/"%char :: lit "lib/maike2/recipes"). rewrite place_below; [reflexivity|exact O|].
  vm_compute pieces. repeat constructor; apply ordinary_literal; reflexivity.
Qed.
