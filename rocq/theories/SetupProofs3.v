(** Proofs about installing, continued: the script as a whole, and the search for recipes. *)

From Coq Require Import Ascii String Bool ZArith Lia.
From Coq Require Import List.
From Verif Require Import Str Path PathProofs DbModel LoadModel LoadSpec LoadProofs CfgProofs SetupModel SetupSpec SetupProofs SetupProofs2.
Import ListNotations.

(** ** Names of directories *)

Lemma leads_fold d ns to : leads d ns to -> Forall ordinary d -> forall b,
  rev (fst (fold_left (normal_step true) ns (rev d, b))) = to.
Proof.
  induction 1 as [d | d c ns to C H IH | d c ns to H IH | ns to H IH | d c ns to O H IH]; intros F b; cbn [fold_left].
  - cbn [fst]. apply rev_involutive.
  - assert (E : normal_step true (rev d, b) c = (rev d, true)) by (destruct C as [-> | ->]; reflexivity). rewrite E. now apply IH.
  - rewrite rev_app_distr. cbn [rev app]. apply Forall_app in F as (F & Fc). inversion Fc as [|? ? (_ & _ & N & _) _]; subst.
    assert (E : normal_step true (c :: rev d, b) dotdot = (rev d, true)).
    { unfold normal_step. cbn [is_nil orb]. change (str_eqb dotdot dot) with false. change (str_eqb dotdot dotdot) with true. cbn [orb].
      now rewrite (str_eqb_neq _ _ N). }
    rewrite E. now apply IH.
  - assert (E : normal_step true (rev [], b) dotdot = (rev [], true)) by reflexivity. rewrite E. now apply IH.
  - rewrite normal_step_ordinary by exact O. replace (c :: rev d) with (rev (d ++ [c])) by (rewrite rev_app_distr; reflexivity).
    apply IH. apply Forall_app. split; [exact F|now constructor].
Qed.

Lemma leads_ordinary d ns to : leads d ns to -> Forall ordinary d -> Forall ordinary to.
Proof.
  induction 1; intro F; auto.
  - apply IHleads. now apply Forall_app in F as (F & _).
  - apply IHleads. apply Forall_app. auto.
Qed.

Lemma fold_filter ns : forall out b b', fst (fold_left (normal_step true) (filter (fun c => negb (is_nil c)) ns) (out, b)) =
  fst (fold_left (normal_step true) ns (out, b')).
Proof.
  induction ns as [|c ns IH]; intros out b b'; [reflexivity|]. cbn [filter]. destruct c as [|a c].
  - cbn [is_nil negb fold_left]. change (normal_step true (out, b') []) with (out, true). apply IH.
  - cbn [is_nil negb fold_left]. assert (E : exists o x y, normal_step true (out, b) (a :: c) = (o, x) /\ normal_step true (out, b') (a :: c) = (o, y)).
    { unfold normal_step. destruct (is_nil (a :: c) || str_eqb (a :: c) dot); [eauto|]. destruct (str_eqb (a :: c) dotdot); [|eauto].
      destruct out as [|d out]; [eauto|]. destruct (str_eqb d dotdot); eauto. }
    destruct E as (o & x & y & -> & ->). apply IH.
Qed.

Lemma named_place here dir d : Forall ordinary here -> names_directory here dir d -> base_place here dir = d /\ Forall ordinary d.
Proof.
  intros O (ns & N & F & -> & L).
  assert (Os : Forall ordinary (match ns with [] :: _ => [] | _ => here end)) by (destruct ns as [|[|] ns]; [exact O|constructor|exact O]).
  split; [|exact (leads_ordinary _ _ _ L Os)].
  rewrite <- (leads_fold _ _ _ L Os false). unfold base_place. rewrite place_steps by exact O. f_equal.
  assert (P : pieces (join_slash ns ++ ["/"%char]) = filter (fun c => negb (is_nil c)) ns).
  { unfold pieces. rewrite split_slash_app, split_join by assumption. rewrite filter_app. cbn. now rewrite app_nil_r. }
  unfold steps_of. rewrite P.
  assert (S : match join_slash ns ++ ["/"%char] with "/"%char :: _ => [] | _ => here end = match ns with [] :: _ => [] | _ => here end).
  { destruct ns as [|c ns]; [contradiction|]. inversion F as [|? ? Fc _]; subst. destruct c as [|a c].
    - destruct ns; reflexivity.
    - assert (Na : a <> "/"%char) by (intros ->; apply Fc; now left).
      assert (K : exists l, join_slash ((a :: c) :: ns) ++ ["/"%char] = a :: l) by (destruct ns; eexists; reflexivity).
      destruct K as (l & ->). destruct a as [[] [] [] [] [] [] [] []]; try reflexivity. now destruct Na. }
  rewrite S, fold_left_app. clear S L. set (st := match ns with [] :: _ => [] | _ => here end) in *.
  rewrite (surjective_pairing (fold_left (normal_step true) st ([], false))).
  rewrite (fold_ordinary st [] false Os), app_nil_r. apply fold_filter.
Qed.

(** ** The script *)

Lemma visible_spec n : ~ hidden n -> visible n = true.
Proof.
  intro H. destruct n as [|c n]; [reflexivity|]. destruct c as [[] [] [] [] [] [] [] []]; try reflexivity. destruct H. now exists n.
Qed.

Lemma matches_in t d n u : lookup t (d ++ [n]) = Some u -> ~ hidden n -> In n (matches t d).
Proof.
  intros L H. rewrite lookup_app in L. unfold matches. destruct (lookup t d) as [[|r x es]|]; [discriminate| |discriminate].
  cbn [lookup] in L. destruct (get n es) as [v|] eqn:G; [|discriminate]. apply filter_In.
  split; [now apply get_name in G|now apply visible_spec].
Qed.

Lemma file_unique t p c c' : file_at t p c -> file_at t p c' -> c = c'.
Proof. intros (r & x & L) (r' & x' & L'). congruence. Qed.

Section Script.
  Variables mask_r mask_x : bool.
  Variable fails : nat -> bool.
  Variables here d : list str.
  Variables dir : option str.
  Variables t t' : tree.
  Hypothesis Here : Forall ordinary here.
  Hypothesis Named : names_directory here (argument dir) d.
  Hypothesis Done : install mask_r mask_x fails here dir t = Some t'.

  Let program : list str := here ++ [lit "__targets"; lit "core"; lit "bin"; lit "maike2"].
  Let R : list str := here ++ [lit "recipes"].

  (** The states in between *)
  Lemma stages : exists t1 t2 t3 t4 t5 c r x,
    mkdir_p mask_r mask_x (d ++ [lit "bin"]) (Some t) = Some t1 /\
    mkdir_p mask_r mask_x (recipes_in d) (Some t1) = Some t2 /\
    lookup t2 program = Some (FileNode c r x) /\
    alter (copy mask_r mask_x (FileNode c r x)) (program_in d) (Some t2) = Some t3 /\
    alter chmod (program_in d) (Some t3) = Some t4 /\
    each (copy_one mask_r mask_x R (recipes_in d)) (matches t4 R) t4 = Some t5 /\
    each (fun t name => alter chmod (recipes_in d ++ [name]) (Some t)) (matches t5 (recipes_in d)) t5 = Some t'.
  Proof.
    destruct (named_place _ _ _ Here Named) as (B & _).
    pose proof (bin_place here (argument dir) Here) as Hb. pose proof (recipes_place here (argument dir) Here) as Hr.
    rewrite B in Hb, Hr. unfold install in Done. fold (argument dir) in Done. fold program R in Done. cbv zeta in Done.
    rewrite Hb, Hr in Done. fold (recipes_in d) in Done. rewrite <- (app_assoc d [lit "bin"] [lit "maike2"]) in Done.
    change (d ++ [lit "bin"] ++ [lit "maike2"]) with (program_in d) in Done.
    destruct (match argument dir with "-"%char :: _ => true | _ => false end); [discriminate|].
    unfold step, SetupModel.and_then in Done.
    destruct (fails 1); [discriminate|].
    destruct (mkdir_p mask_r mask_x (d ++ [lit "bin"]) (Some t)) as [t1|] eqn:E1; [|discriminate].
    destruct (fails 2); [discriminate|].
    destruct (mkdir_p mask_r mask_x (recipes_in d) (Some t1)) as [t2|] eqn:E2; [|discriminate].
    destruct (fails 3); [discriminate|].
    destruct (lookup t2 program) as [[c r x|]|] eqn:E3; [|discriminate|discriminate].
    destruct (is_prefix program (program_in d)); [discriminate|].
    destruct (alter (copy mask_r mask_x (FileNode c r x)) (program_in d) (Some t2)) as [t3|] eqn:E4; [|discriminate].
    destruct (fails 4); [discriminate|].
    destruct (alter chmod (program_in d) (Some t3)) as [t4|] eqn:E5; [|discriminate].
    destruct (fails 5); [discriminate|].
    destruct (matches t4 R) as [|n names] eqn:Em; [discriminate|].
    destruct (each (copy_one mask_r mask_x R (recipes_in d)) (n :: names) t4) as [t5|] eqn:E6; [|discriminate].
    destruct (fails 6); [discriminate|].
    exists t1, t2, t3, t4, t5, c, r, x. rewrite Em. repeat (split; [first [reflexivity | assumption]|]). exact Done.
  Qed.

  Lemma bin_lib : apart (program_in d) (recipes_in d).
  Proof. unfold program_in, recipes_in. split; intros (s & E); rewrite <- app_assoc in E; apply app_inv_head in E; discriminate. Qed.

  Lemma program_installed : exists c, file_at t program c /\ lookup t' (program_in d) = Some (FileNode c true true).
  Proof.
    destruct stages as (t1 & t2 & t3 & t4 & t5 & c & r & x & E1 & E2 & E3 & E4 & E5 & E6 & E7).
    exists c. split.
    - pose proof (mkdir_lookup _ _ _ _ _ program E2) as H2. pose proof (mkdir_lookup _ _ _ _ _ program E1) as H1. rewrite E3 in H2.
      exists r, x. destruct (lookup t1 program) as [[|]|].
      + injection H2 as -> -> ->. destruct (lookup t program) as [[|]|].
        * exact (eq_sym H1).
        * destruct H1 as (es' & H1 & _). discriminate.
        * destruct H1 as [H1 | (_ & es & H1)]; discriminate.
      + destruct H2 as (es' & H2 & _). discriminate.
      + destruct H2 as [H2 | (_ & es & H2)]; discriminate.
    - destruct (alter_same _ _ _ _ E4) as (n3 & C3 & L3). destruct (copy_file _ _ _ _ _ _ _ C3) as (r3 & x3 & ->).
      destruct (alter_same _ _ _ _ E5) as (n4 & C4 & L4). rewrite L3 in C4. injection C4 as <-.
      pose proof (each_chmod_lookup _ _ _ _ (program_in d) E7) as H7.
      rewrite (copies_apart _ _ _ _ _ _ _ (program_in d) E6) in H7
        by (intros n _; apply apart_sym; apply apart_longer; apply bin_lib).
      rewrite L4 in H7. destruct H7 as (r7 & x7 & L7 & R7 & X7 & _). rewrite L7, R7, X7 by reflexivity. reflexivity.
  Qed.

  Lemma elsewhere : outside mask_r mask_x (d ++ [lit "bin"]) (recipes_in d) t t'.
  Proof.
    destruct stages as (t1 & t2 & t3 & t4 & t5 & c & r & x & E1 & E2 & E3 & E4 & E5 & E6 & E7).
    assert (Ip : inner (d ++ [lit "bin"]) (recipes_in d) (program_in d)).
    { left. unfold program_in. rewrite <- app_assoc. apply under_refl. }
    eapply outside_trans; [apply (outside_mkdir _ _ _ _ _ _ _ E1); now left|].
    eapply outside_trans; [apply (outside_mkdir _ _ _ _ _ _ _ E2); now right|].
    eapply outside_trans; [apply (outside_alter _ _ _ _ _ _ _ _ E4 Ip)|].
    eapply outside_trans; [apply (outside_alter _ _ _ _ _ _ _ _ E5 Ip)|].
    apply (outside_trans _ _ _ _ _ t5).
    - revert E6. apply outside_each. intros a n b H.
      destruct (copy_one_alter _ _ _ _ _ _ _ H) as (s & _ & A). apply (outside_alter _ _ _ _ _ _ _ _ A). right. now exists n, [].
    - revert E7. apply outside_each. intros a n b H. apply (outside_alter _ _ _ _ _ _ _ _ H). right. now exists n, [].
  Qed.

  Section Separate.
    Hypothesis Separate : separate here d.

    Lemma recipes_kept q : under R q -> exists t4 t5,
      lookup t4 q = lookup t q /\ each (copy_one mask_r mask_x R (recipes_in d)) (matches t4 R) t4 = Some t5 /\
      each (fun t name => alter chmod (recipes_in d ++ [name]) (Some t)) (matches t5 (recipes_in d)) t5 = Some t'.
    Proof.
      intro U. destruct stages as (t1 & t2 & t3 & t4 & t5 & c & r & x & E1 & E2 & E3 & E4 & E5 & E6 & E7).
      exists t4, t5. split; [|auto]. destruct Separate as (S1 & S2).
      destruct (apart_below _ _ q S1 U) as (N1 & N2). destruct (apart_below _ _ q S2 U) as (N3 & N4).
      rewrite (alter_other _ _ _ _ q E5 N1 N2), (alter_other _ _ _ _ q E4 N1 N2), (mkdir_apart _ _ _ _ _ q E2 N4).
      apply (mkdir_apart _ _ _ _ _ q E1). intros V. apply N2. eapply under_trans; [exact V|]. exists [lit "maike2"].
      unfold program_in. now rewrite <- app_assoc.
    Qed.

    Lemma recipe_installed n rest c s : ~ hidden n -> lookup t (R ++ [n]) = Some s -> proper s -> file_at s rest c ->
      file_at t' (recipes_in d ++ n :: rest) c /\
      (rest = [] -> lookup t' (recipes_in d ++ [n]) = Some (FileNode c true true)).
    Proof.
      intros Hn L P F. destruct (recipes_kept (R ++ [n])) as (t4 & t5 & K & E6 & E7); [now exists [n]|]. rewrite L in K.
      pose proof (copies_made _ _ _ _ (proj2 Separate) _ _ _ n rest c s E6 (matches_in _ _ _ _ K Hn) K P F) as (r5 & x5 & L5).
      pose proof (each_chmod_lookup _ _ _ _ (recipes_in d ++ n :: rest) E7) as H7. rewrite L5 in H7.
      destruct H7 as (r7 & x7 & L7 & _ & _ & H7). split; [now exists r7, x7|]. intros ->.
      destruct (H7 n eq_refl (matches_in _ _ _ _ L5 Hn)) as (-> & ->). exact L7.
    Qed.
  End Separate.

  (** Directories on the way that others may search *)
  Lemma way_open p rest : mask_x = true -> open_so_far t (d ++ [lit "bin"]) -> open_so_far t (recipes_in d) ->
    ~ inner (d ++ [lit "bin"]) (recipes_in d) p -> rest <> [] ->
    outer (d ++ [lit "bin"]) (recipes_in d) p -> (exists u, lookup t' (p ++ rest) = Some u) ->
    match lookup t' p with Some (DirNode _ x _) => x = true | _ => False end.
  Proof.
    intros Mx O1 O2 N Nr Out (u & L). destruct (some_prefix _ _ _ _ L Nr) as (r & x & es & Lp). rewrite Lp.
    pose proof (elsewhere p N) as H. destruct (lookup t p) as [[|r0 x0 es0]|] eqn:Lt.
    - congruence.
    - destruct H as (es' & H). rewrite Lp in H. injection H as -> -> ->.
      destruct Out as [(s & E) | (s & E)]; [exact (O1 _ _ _ _ _ E Lt)|exact (O2 _ _ _ _ _ E Lt)].
    - destruct H as [H | (_ & es' & H)]; [congruence|]. rewrite Lp in H. injection H as -> -> ->. exact Mx.
  Qed.

  Lemma program_usable : mask_x = true -> open_so_far t (d ++ [lit "bin"]) -> open_so_far t (recipes_in d) -> usable t' (program_in d).
  Proof.
    intros Mx O1 O2. destruct program_installed as (c & _ & L). split; [|rewrite L; auto].
    intros p rest E Nr. apply (way_open p rest Mx O1 O2); [|exact Nr| |exists (FileNode c true true); now rewrite <- E].
    - intros [(s & I) | (n & s & I)].
      + assert (K : length (program_in d) = length p + length rest) by (rewrite E; apply app_length).
        rewrite I, !app_length in K. unfold program_in in K. rewrite app_length in K. cbn [length] in K. destruct rest; [contradiction|]. cbn [length] in K. lia.
      + subst p. destruct bin_lib as (_ & B). apply B. exists (n :: s ++ rest). rewrite E. now rewrite <- app_assoc.
    - left. destruct rest as [|z rest] using rev_ind; [contradiction|]. exists rest.
      unfold program_in in E. change [lit "bin"; lit "maike2"] with ([lit "bin"] ++ [lit "maike2"]) in E. rewrite !app_assoc in E. now apply app_inj_tail in E.
  Qed.

  Lemma recipe_usable n c : mask_x = true -> open_so_far t (d ++ [lit "bin"]) -> open_so_far t (recipes_in d) ->
    lookup t' (recipes_in d ++ [n]) = Some (FileNode c true true) -> usable t' (recipes_in d ++ [n]).
  Proof.
    intros Mx O1 O2 L. split; [|rewrite L; auto].
    intros p rest E Nr. apply (way_open p rest Mx O1 O2); [|exact Nr| |exists (FileNode c true true); now rewrite <- E].
    - intros [U | (m & s & I)].
      + apply (under_trans _ _ (recipes_in d ++ [n])) in U; [|now exists rest].
        destruct (apart_below (recipes_in d) (program_in d) (recipes_in d ++ [n])) as (N & _).
        * apply apart_sym. apply bin_lib.
        * now exists [n].
        * apply N. rewrite <- app_assoc in U. exact U.
      + assert (K : length (recipes_in d ++ [n]) = length p + length rest) by (rewrite E; apply app_length).
        rewrite I, !app_length in K. cbn [length] in K. destruct rest; [contradiction|]. cbn [length] in K. lia.
    - right. destruct rest as [|z rest] using rev_ind; [contradiction|]. exists rest. rewrite app_assoc in E. now apply app_inj_tail in E.
  Qed.
End Script.

(** ** The search *)

Lemma system_place d : Forall ordinary d -> system_recipes (mk_path true (program_in d)) = mk_path true (recipes_in d).
Proof.
  intro O. unfold system_recipes, exec_prefix, program_in, parent_path. cbn [absolute comps].
  change [lit "bin"; lit "maike2"] with ([lit "bin"] ++ [lit "maike2"]). rewrite app_assoc, removelast_last, removelast_last.
  assert (K : forall l c, Forall ordinary l -> ordinary c -> append (mk_path true l) (mk_path false [c]) = mk_path true (l ++ [c]) /\ Forall ordinary (l ++ [c])).
  { intros l c Ol Oc. unfold append. cbn [absolute comps]. rewrite (last_ordinary l Ol). split; [reflexivity|].
    apply Forall_app. auto. }
  destruct (K d (lit "lib") O) as (-> & O1); [apply ordinary_literal; reflexivity|].
  destruct (K _ (lit "maike2") O1) as (-> & O2); [apply ordinary_literal; reflexivity|].
  destruct (K _ (lit "recipes") O2) as (-> & O3); [apply ordinary_literal; reflexivity|].
  unfold recipes_in. now rewrite <- !app_assoc.
Qed.

Lemma normal_ordinary l : Forall ordinary l -> lexically_normal (mk_path true l) = mk_path true l.
Proof.
  intro O. unfold lexically_normal. cbn [absolute comps].
  pose proof (fold_ordinary l [] false O) as F.
  assert (S : snd (fold_left (normal_step true) l ([], false)) = false).
  { destruct l as [|c l] using rev_ind; [reflexivity|]. rewrite fold_left_app. cbn [fold_left]. apply Forall_app in O as (_ & O).
    inversion O; subst. destruct (fold_left _ l _) as [o b]. now rewrite normal_step_ordinary. }
  destruct (fold_left (normal_step true) l ([], false)) as [out b]. cbn [fst snd] in *. subst b. rewrite app_nil_r in F. subst out.
  destruct (rev l) as [|a m] eqn:E.
  - apply (f_equal (@rev _)) in E. rewrite rev_involutive in E. now subst.
  - cbn [andb]. rewrite app_nil_r, <- E, rev_involutive. reflexivity.
Qed.

Lemma found_at t' d cwd project n rest c : Forall ordinary d -> Forall ordinary (n :: rest) ->
  file_at t' (recipes_in d ++ n :: rest) c -> regular_file t' cwd (append project (mk_path false (n :: rest))) = false ->
  find_recipe t' (program_in d) cwd project (mk_path false (n :: rest)) = Some (mk_path true (recipes_in d ++ n :: rest), System).
Proof.
  intros O Or (r & x & L) Np. unfold find_recipe, find_command. rewrite Np, system_place by exact O.
  assert (Oo : Forall ordinary (recipes_in d)).
  { unfold recipes_in. apply Forall_app. split; [exact O|]. repeat constructor; apply ordinary_literal; reflexivity. }
  assert (A : append (mk_path true (recipes_in d)) (mk_path false (n :: rest)) = mk_path true (recipes_in d ++ n :: rest)).
  { unfold append. cbn [absolute comps]. now rewrite (last_ordinary _ Oo). }
  assert (Of : Forall ordinary (recipes_in d ++ n :: rest)) by (apply Forall_app; split; assumption).
  rewrite A, (normal_ordinary _ Of). unfold regular_file. unfold append. cbn [absolute]. rewrite (normal_ordinary _ Of). cbn [comps].
  rewrite ordinary_filter by exact Of. now rewrite L.
Qed.
