(** Proofs about the help text. *)

From Coq Require Import Ascii String Bool ZArith.
From Coq Require Import List Permutation Sorted.
From Verif Require Import Str Path PathProofs CmdModel CmdSpec CmdProofs MainModel MainSpec MainProofs JobModel JobSpec JobProofs.
From Verif Require Import ShowModel ShowSpec HelpModel HelpSpec.
Import ListNotations.

(** * Sorting *)

Section Sorting.
  Context {T : Type}.
  Variable less : T -> T -> bool.
  Hypothesis less_asym : forall x y, less x y = true -> less y x = false.
  Hypothesis less_split : forall x y z, less x z = true -> less x y = true \/ less y z = true.

  Definition not_below (x y : T) : Prop := less x y = false.
  Definition not_above (x y : T) : Prop := less y x = false.

  Lemma place_perm x : forall l, Permutation (place_left less x l) (x :: l).
  Proof.
    induction l as [|y l IH]; [reflexivity|]. cbn. destruct (less x y); [|reflexivity]. rewrite IH. apply perm_swap.
  Qed.

  Lemma place_sorted x : forall l, StronglySorted not_below l -> StronglySorted not_below (place_left less x l).
  Proof.
    induction l as [|y l IH]; intro S; [repeat constructor|]. cbn. apply StronglySorted_inv in S. destruct S as [S F].
    destruct (less x y) eqn:E.
    - constructor; [now apply IH|]. rewrite Forall_forall in *. intros z I. apply (Permutation_in _ (place_perm x l)) in I.
      destruct I as [<- | I]; [now apply less_asym|now apply F].
    - constructor; [now constructor|]. constructor; [exact E|]. rewrite Forall_forall in *. intros z I. specialize (F z I).
      unfold not_below in *. destruct (less x z) eqn:Q; [|reflexivity]. destruct (less_split x y z Q); congruence.
  Qed.

  Lemma sorted_reverse l : StronglySorted not_below l -> StronglySorted not_above (rev l).
  Proof.
    induction 1 as [|x l S IH F]; [constructor|]. cbn.
    assert (forall a, StronglySorted not_above a -> Forall (fun y => not_above y x) a -> StronglySorted not_above (a ++ [x])) as H.
    { induction a as [|y a IHa]; intros SA FA; cbn; [repeat constructor|].
      apply StronglySorted_inv in SA. destruct SA as [SA FY]. inversion FA as [|? ? Y FA']; subst.
      constructor; [now apply IHa|]. apply Forall_app. split; [exact FY|]. repeat constructor. exact Y. }
    apply H; [exact IH|]. apply Forall_rev. exact F.
  Qed.

  Lemma insertion_sorted l : StronglySorted not_above (insertion_sort less l) /\ Permutation (insertion_sort less l) l.
  Proof.
    unfold insertion_sort.
    assert (forall l acc, StronglySorted not_below acc ->
      StronglySorted not_below (fold_left (fun sorted x => place_left less x sorted) l acc) /\
      Permutation (fold_left (fun sorted x => place_left less x sorted) l acc) (l ++ acc)) as H.
    { clear l. induction l as [|x l IH]; intros acc S; [split; [exact S|reflexivity]|]. cbn [fold_left app].
      destruct (IH (place_left less x acc) (place_sorted x acc S)) as [A B]. split; [exact A|].
      rewrite B, place_perm. apply Permutation_sym, Permutation_middle. }
    destruct (H l [] (SSorted_nil _)) as [A B]. split; [now apply sorted_reverse|]. rewrite <- Permutation_rev, B, app_nil_r. reflexivity.
  Qed.
End Sorting.

Lemma str_lt_asym a b : str_compare a b = Lt -> str_compare b a = Gt.
Proof. intro H. rewrite (ord_opp _ str_order), H. reflexivity. Qed.

Lemma str_lt_split a b c : str_compare a c = Lt -> str_compare a b = Lt \/ str_compare b c = Lt.
Proof.
  intro H. destruct (str_compare a b) eqn:E; [right|now left|right].
  - apply (ord_eq _ str_order) in E. now subst b.
  - assert (str_compare b a = Lt) as L by (rewrite (ord_opp _ str_order), E; reflexivity). exact (ord_trans _ str_order _ _ _ L H).
Qed.

Lemma info_less_iff a b : info_less a b = true <->
  str_compare (info_category a) (info_category b) = Lt \/
  (info_category a = info_category b /\ str_compare (info_name a) (info_name b) = Lt).
Proof.
  unfold info_less, is_lt. destruct (str_compare (info_category a) (info_category b)) eqn:E.
  - apply (ord_eq _ str_order) in E. destruct (str_compare (info_name a) (info_name b)); intuition congruence.
  - intuition.
  - split; [discriminate|]. intros [H | [H _]]; [discriminate|]. apply (ord_eq _ str_order) in H. congruence.
Qed.

Lemma info_less_asym x y : info_less x y = true -> info_less y x = false.
Proof.
  intro H. apply not_true_iff_false. rewrite info_less_iff in *. intro K.
  destruct H as [H | [E H]], K as [K | [E' K]]; try (apply str_lt_asym in H; congruence).
  - rewrite E', str_compare_refl in H. discriminate.
  - rewrite E, str_compare_refl in K. discriminate.
Qed.

Lemma info_less_split x y z : info_less x z = true -> info_less x y = true \/ info_less y z = true.
Proof.
  rewrite !info_less_iff. intros [H | [E H]].
  - destruct (str_lt_split _ (info_category y) _ H); auto.
  - destruct (str_compare (info_category x) (info_category y)) eqn:Q; [|now left; left|].
    + apply (ord_eq _ str_order) in Q. destruct (str_lt_split _ (info_name y) _ H); [left|right]; right; (split; [congruence|assumption]).
    + right. left. rewrite <- E. rewrite (ord_opp _ str_order), Q. reflexivity.
Qed.

Lemma type_less_asym x y : type_less x y = true -> type_less y x = false.
Proof.
  unfold type_less, is_lt. destruct (str_compare (fst x) (fst y)) eqn:E; try discriminate. intros _. now rewrite (str_lt_asym _ _ E).
Qed.

Lemma type_less_split x y z : type_less x z = true -> type_less x y = true \/ type_less y z = true.
Proof.
  unfold type_less, is_lt. destruct (str_compare (fst x) (fst z)) eqn:E; try discriminate. intros _.
  destruct (str_lt_split _ (fst y) _ E) as [-> | ->]; auto.
Qed.

(** * Sections *)

Definition add_group (x : opt_info) (gs : list (str * list opt_info)) : list (str * list opt_info) :=
  match gs with
  | (c, xs) :: gs' => if str_eqb (info_category x) c then (c, x :: xs) :: gs' else (info_category x, [x]) :: gs
  | [] => [(info_category x, [x])]
  end.

Definition groups (l : list opt_info) : list (str * list opt_info) := fold_right add_group [] l.

Definition to_section (g : str * list opt_info) : help_section := mk_help_section (fst g) (map entry_of (snd g)).

Lemma entry_same x : option_entry x = entry_text (entry_of x).
Proof.
  unfold option_entry, entry_text, entry_of, usage_text, blank_line. cbn [entry_name entry_usage entry_summary].
  destruct (info_type x) as [[t d]|]; [destruct (info_required x)|]; rewrite <- ?app_assoc; reflexivity.
Qed.

Definition begin_with (c : str) (gs : list (str * list opt_info)) : str :=
  match gs with
  | (d, xs) :: gs' =>
      if str_eqb c d then flat_map (fun x => entry_text (entry_of x)) xs ++ flat_map (fun g => section_text (to_section g)) gs'
      else flat_map (fun g => section_text (to_section g)) gs
  | [] => []
  end.

Lemma section_head c xs : section_text (to_section (c, xs)) =
  line_end ++ lit "## " ++ c ++ line_end ++ line_end ++ flat_map (fun x => entry_text (entry_of x)) xs.
Proof.
  unfold section_text, to_section, blank_line. cbn [section_title section_entries fst snd].
  rewrite flat_map_concat_map, map_map, <- flat_map_concat_map. rewrite <- ?app_assoc. reflexivity.
Qed.

Lemma entries_groups : forall l, option_entries None l = flat_map (fun g => section_text (to_section g)) (groups l) /\
  forall c, option_entries (Some c) l = begin_with c (groups l).
Proof.
  induction l as [|x l [_ IH]]; [split; reflexivity|].
  assert (forall rest, rest = option_entries (Some (info_category x)) l ->
    option_entry x ++ rest = begin_with (info_category x) (add_group x (groups l))) as K.
  { intros rest ->. rewrite IH, entry_same. unfold add_group. destruct (groups l) as [|[c xs] gs].
    - cbn [begin_with]. rewrite str_eqb_refl. cbn [flat_map app]. now rewrite ?app_nil_r.
    - cbn [begin_with]. destruct (str_eqb (info_category x) c) eqn:E; cbn [begin_with].
      + rewrite E. cbn [flat_map]. now rewrite <- app_assoc.
      + rewrite str_eqb_refl. cbn [flat_map]. now rewrite app_nil_r. }
  specialize (K _ eq_refl).
  assert (exists xs gs, add_group x (groups l) = (info_category x, xs) :: gs) as (xs & gs & G).
  { unfold add_group. destruct (groups l) as [|[c xs] gs]; [eauto|]. destruct (str_eqb (info_category x) c) eqn:E; [|eauto].
    apply str_eqb_eq in E. subst c. eauto. }
  cbn [groups fold_right]. change (fold_right add_group [] l) with (groups l). rewrite G in *.
  cbn [begin_with] in K. rewrite str_eqb_refl in K. split.
  - cbn [option_entries flat_map]. rewrite section_head, K. now rewrite <- !app_assoc.
  - intro c. cbn [option_entries begin_with]. destruct (str_eqb c (info_category x)); [exact K|].
    cbn [flat_map]. rewrite section_head, K. now rewrite <- !app_assoc.
Qed.

Lemma groups_all : forall l, flat_map snd (groups l) = l.
Proof.
  induction l as [|x l IH]; [reflexivity|]. cbn [groups fold_right]. change (fold_right add_group [] l) with (groups l).
  unfold add_group. destruct (groups l) as [|[c xs] gs]; [cbn in *; now subst l|].
  destruct (str_eqb (info_category x) c); cbn [flat_map snd app] in *; now rewrite IH.
Qed.

Lemma groups_category : forall l c xs, In (c, xs) (groups l) -> xs <> [] /\ Forall (fun x => info_category x = c) xs.
Proof.
  induction l as [|x l IH]; intros c xs I; [destruct I|]. cbn [groups fold_right] in I. change (fold_right add_group [] l) with (groups l) in I.
  unfold add_group in I. destruct (groups l) as [|[d ys] gs].
  - destruct I as [I | []]. injection I as <- <-. split; [discriminate|]. repeat constructor.
  - destruct (str_eqb (info_category x) d) eqn:E.
    + apply str_eqb_eq in E. destruct I as [I | I]; [|apply IH; now right]. injection I as <- <-. split; [discriminate|].
      constructor; [exact E|]. apply (IH d ys). now left.
    + destruct I as [I | I]; [|now apply IH]. injection I as <- <-. split; [discriminate|]. repeat constructor.
Qed.

Definition info_lt (x y : opt_info) : Prop := info_less x y = true.

Lemma groups_sorted : forall l, StronglySorted info_lt l ->
  StronglySorted before (map fst (groups l)) /\ Forall (fun g => StronglySorted before (map info_name (snd g))) (groups l).
Proof.
  induction l as [|x l IH]; intro S; [split; constructor|]. apply StronglySorted_inv in S. destruct S as [S F].
  destruct (IH S) as [A B]. cbn [groups fold_right]. change (fold_right add_group [] l) with (groups l).
  assert (forall c xs, In (c, xs) (groups l) -> info_category x = c \/ before (info_category x) c) as C.
  { intros c xs I. destruct (groups_category l c xs I) as [NE Fc]. destruct xs as [|y xs]; [congruence|].
    assert (In y l) as Iy by (rewrite <- (groups_all l); apply in_flat_map; exists (c, y :: xs); split; [exact I|now left]).
    rewrite Forall_forall in F. specialize (F y Iy). inversion Fc as [|? ? Ey _]; subst. unfold info_lt in F. rewrite info_less_iff in F.
    destruct F as [F | [F _]]; [right; now apply str_lt_before|now left]. }
  pose proof (groups_category l) as Gc. pose proof (groups_all l) as Ga.
  unfold add_group. destruct (groups l) as [|[c xs] gs]; [split; repeat constructor|].
  destruct (str_eqb (info_category x) c) eqn:E.
  - apply str_eqb_eq in E. split; [exact A|]. apply Forall_cons_iff in B. destruct B as [B1 B2]. constructor; [|exact B2].
    cbn [snd map] in *. constructor; [exact B1|]. apply Forall_forall. intros n I. apply in_map_iff in I. destruct I as (y & <- & I).
    assert (In y l) as Iy by (rewrite <- Ga; cbn [flat_map]; apply in_or_app; now left).
    rewrite Forall_forall in F. specialize (F y Iy). unfold info_lt in F. rewrite info_less_iff in F.
    destruct (Gc c xs (or_introl eq_refl)) as [_ Fc]. rewrite Forall_forall in Fc. specialize (Fc y I).
    apply str_lt_before. destruct F as [F | [_ F]]; [|exact F]. rewrite Fc, E, str_compare_refl in F. discriminate.
  - split; [|constructor; [repeat constructor|exact B]]. cbn [map fst] in *. constructor; [exact A|].
    apply str_eqb_neq in E. assert (before (info_category x) c) as Bc by (destruct (C c xs (or_introl eq_refl)); [congruence|assumption]).
    constructor; [exact Bc|]. apply StronglySorted_inv in A. destruct A as [_ A]. rewrite Forall_forall in *. intros d I. specialize (A d I).
    apply str_lt_before in Bc, A. apply str_lt_before. exact (ord_trans _ str_order _ _ _ Bc A).
Qed.

(** * Types *)

Lemma unique_cons x l : unique_types (x :: l) = x :: skip_same x l.
Proof. reflexivity. Qed.

Lemma skip_in : forall l p x, In x (skip_same p l) -> In x l.
Proof.
  induction l as [|y l IH]; intros p x I; [destruct I|]. cbn [skip_same] in I. destruct (str_eqb (fst p) (fst y)).
  - right. exact (IH y x I).
  - destruct I as [<- | I]; [now left|right; exact (IH y x I)].
Qed.

Lemma skip_names : forall l p n, In n (map fst (p :: l)) -> In n (map fst (p :: skip_same p l)).
Proof.
  induction l as [|y l IH]; intros p n I; [exact I|]. cbn [skip_same].
  destruct I as [<- | I]; [now left|]. specialize (IH y n I). cbn [map In] in IH |- *.
  destruct (str_eqb (fst p) (fst y)) eqn:E; [apply str_eqb_eq in E; rewrite E; exact IH|]. cbn [map In]. tauto.
Qed.

Lemma skip_sorted : forall l p, StronglySorted (not_above type_less) (p :: l) -> StronglySorted before (map fst (p :: skip_same p l)).
Proof.
  induction l as [|y l IH]; intros p S; [repeat constructor|]. cbn [skip_same].
  apply StronglySorted_inv in S. destruct S as [S F]. pose proof (IH y S) as K. inversion F as [|? ? Fy _]; subst.
  destruct (str_eqb (fst p) (fst y)) eqn:E; [apply str_eqb_eq in E; cbn [map] in *; now rewrite E|].
  cbn [map] in *. constructor; [exact K|]. assert (before (fst p) (fst y)) as B.
  { apply str_lt_before. unfold not_above, type_less, is_lt in Fy. destruct (str_compare (fst p) (fst y)) eqn:Q; [|reflexivity|].
    - apply (ord_eq _ str_order) in Q. apply str_eqb_neq in E. congruence.
    - rewrite (ord_opp _ str_order), Q in Fy. discriminate. }
  constructor; [exact B|]. apply StronglySorted_inv in K. destruct K as [_ K]. rewrite Forall_forall in *. intros n I. specialize (K n I).
  apply str_lt_before in B, K. apply str_lt_before. exact (ord_trans _ str_order _ _ _ B K).
Qed.

Definition all_types (table : list opt_info) : list (str * str) :=
  flat_map (fun x => match info_type x with Some t => [t] | None => [] end) table.

Lemma all_types_in table t : In t (all_types table) <-> exists x, In x table /\ info_type x = Some t.
Proof.
  unfold all_types. rewrite in_flat_map. split.
  - intros (x & I & T). exists x. split; [exact I|]. destruct (info_type x); [destruct T as [-> | []]; reflexivity|destruct T].
  - intros (x & I & T). exists x. split; [exact I|]. rewrite T. now left.
Qed.

Lemma types_used table : StronglySorted before (map fst (used_types table)) /\
  (forall t, In t (used_types table) -> exists x, In x table /\ info_type x = Some t) /\
  (forall x n d, In x table -> info_type x = Some (n, d) -> In n (map fst (used_types table))).
Proof.
  unfold used_types. destruct (insertion_sorted type_less type_less_asym type_less_split (all_types table)) as [S P].
  change (flat_map _ table) with (all_types table). destruct (insertion_sort type_less (all_types table)) as [|p l].
  - split; [constructor|]. split; [intros t []|]. intros x n d I T.
    assert (In (n, d) (all_types table)) as J by (apply all_types_in; eauto). apply (Permutation_in _ (Permutation_sym P)) in J. destruct J.
  - rewrite unique_cons. split; [now apply skip_sorted|]. split.
    + intros t I. apply all_types_in. apply (Permutation_in _ P). destruct I as [<- | I]; [now left|right; exact (skip_in l p t I)].
    + intros x n d I T. apply skip_names. assert (In (n, d) (p :: l)) as J.
      { apply (Permutation_in _ (Permutation_sym P)). apply all_types_in. eauto. }
      now apply (in_map fst) in J.
Qed.

(** * The text *)

Lemma sorted_strict l : NoDup (map info_name l) -> StronglySorted (not_above info_less) l -> StronglySorted info_lt l.
Proof.
  intros N S. induction S as [|x l S IH F]; [constructor|]. cbn [map] in N. inversion N as [|? ? N1 N2]; subst.
  constructor; [now apply IH|]. rewrite Forall_forall in *. intros y I. specialize (F y I). unfold not_above, info_lt in *.
  apply info_less_iff. destruct (str_compare (info_category x) (info_category y)) eqn:E; [|now left|].
  - apply (ord_eq _ str_order) in E. right. split; [exact E|].
    destruct (str_compare (info_name x) (info_name y)) eqn:Q; [|reflexivity|].
    + apply (ord_eq _ str_order) in Q. destruct N1. rewrite Q. now apply in_map.
    + exfalso. apply not_true_iff_false in F. apply F, info_less_iff. right. split; [now symmetry|].
      rewrite (ord_opp _ str_order), Q. reflexivity.
  - exfalso. apply not_true_iff_false in F. apply F, info_less_iff. left. rewrite (ord_opp _ str_order), E. reflexivity.
Qed.

Theorem help_structure table : NoDup (map info_name table) ->
  exists sections types, help_form (help_text table) sections types /\
    StronglySorted before (map section_title sections) /\
    (forall s, In s sections -> section_entries s <> [] /\ StronglySorted before (map entry_name (section_entries s))) /\
    Permutation (flat_map (fun s => map (fun e => (section_title s, e)) (section_entries s)) sections)
                (map (fun x => (info_category x, entry_of x)) table) /\
    StronglySorted before (map fst types) /\
    (forall t, In t types -> exists x, In x table /\ info_type x = Some t) /\
    (forall x n d, In x table -> info_type x = Some (n, d) -> In n (map fst types)).
Proof.
  intro N. destruct (insertion_sorted info_less info_less_asym info_less_split table) as [S P].
  assert (StronglySorted info_lt (insertion_sort info_less table)) as S'.
  { apply sorted_strict; [|exact S]. apply (Permutation_NoDup (Permutation_map info_name (Permutation_sym P)) N). }
  destruct (groups_sorted _ S') as [A B]. destruct (types_used table) as (T1 & T2 & T3).
  exists (map to_section (groups (insertion_sort info_less table))), (used_types table).
  split; [|split; [|split; [|split; [|now split]]]].
  - unfold help_form, help_text. rewrite (proj1 (entries_groups _)). unfold blank_line.
    rewrite (flat_map_concat_map section_text), map_map, <- flat_map_concat_map. reflexivity.
  - rewrite map_map. exact A.
  - intros s I. apply in_map_iff in I. destruct I as ([c xs] & <- & I). cbn [to_section section_entries snd fst].
    destruct (groups_category _ c xs I) as [NE _]. split; [now destruct xs|]. rewrite map_map. rewrite Forall_forall in B. exact (B _ I).
  - rewrite flat_map_concat_map, map_map, <- flat_map_concat_map.
    transitivity (map (fun x => (info_category x, entry_of x)) (insertion_sort info_less table)); [|now apply Permutation_map].
    rewrite <- (groups_all (insertion_sort info_less table)) at 2. 
    assert (forall gs, (forall c xs, In (c, xs) gs -> Forall (fun x => info_category x = c) xs) ->
      flat_map (fun g => map (fun e => (section_title (to_section g), e)) (section_entries (to_section g))) gs =
      map (fun x => (info_category x, entry_of x)) (flat_map snd gs)) as K.
    { induction gs as [|[c xs] gs IH]; intro H; [reflexivity|]. cbn [flat_map snd]. rewrite map_app, IH by (intros; apply H; now right).
      f_equal. cbn [to_section section_title section_entries fst snd]. rewrite map_map. apply map_ext_in. intros x I.
      specialize (H c xs (or_introl eq_refl)). rewrite Forall_forall in H. now rewrite (H x I). }
    rewrite K; [reflexivity|]. intros c xs I. now apply (groups_category _ c xs I).
Qed.

(** * The program *)

Lemma entry_info summary explain o : In (mk_opt_info (option_category o) (option_name o) (option_map (fun t => (t, explain t)) (option_type o))
  (summary o) (option_value_required o)) (help_table summary explain).
Proof. unfold help_table. apply in_map_iff. exists o. split; [reflexivity|]. destruct o; cbn; tauto. Qed.

Theorem rejected_takes env argv1 arg argv2 o text : gives arg (option_name o) text -> (forall v, ~ takes (job_item o) text v) ->
  main env job_accepts (argv1 ++ arg :: argv2) = ([], 255%Z).
Proof.
  intros G K. apply main_rejected. apply (not_taken (option_item job_accepts) (fun _ => eq_refl) argv1 arg argv2 o text G).
  intros v T. destruct (proj1 (accepts_takes o text) (ex_intro _ v T)) as (u & U). exact (K u U).
Qed.

Theorem help_usage summary explain : exists sections types,
  help_form (help_text (help_table summary explain)) sections types /\
  forall o, exists s e, In s sections /\ In e (section_entries s) /\ entry_name e = option_name o /\ entry_summary e = summary o /\
    forall arg text, gives arg (option_name o) text ->
    match entry_usage e with
    | Alone =>
        (text = [] -> forall around, exists j, make_job around [arg] = JobReady j) /\
        (text <> [] -> forall env argv1 argv2, main env job_accepts (argv1 ++ arg :: argv2) = ([], 255%Z))
    | WithValue t => In (t, explain t) types /\
        (text = [] -> forall env argv1 argv2, main env job_accepts (argv1 ++ arg :: argv2) = ([], 255%Z)) /\
        (exists value, forall around, exists j, make_job around [option_name o ++ "="%char :: value] = JobReady j)
    | MaybeWithValue t => In (t, explain t) types /\ forall around, exists j, make_job around [arg] = JobReady j
    end.
Proof.
  destruct (help_structure (help_table summary explain)) as (sections & types & F & _ & _ & P & _ & T2 & T3).
  { unfold help_table. rewrite map_map. cbn [info_name]. exact (proj1 (mk_proper job_item (fun _ => eq_refl))). }
  exists sections, types. split; [exact F|]. intro o. pose proof (entry_info summary explain o) as I.
  set (x := mk_opt_info _ _ _ _ _) in I.
  assert (In (info_category x, entry_of x) (flat_map (fun s => map (fun e => (section_title s, e)) (section_entries s)) sections)) as J.
  { apply (Permutation_in _ (Permutation_sym P)). now apply (in_map (fun x => (info_category x, entry_of x))). }
  apply in_flat_map in J. destruct J as (s & Is & J). apply in_map_iff in J. destruct J as (e & E & Ie). injection E as _ ->.
  exists s, (entry_of x). split; [exact Is|]. split; [exact Ie|]. split; [reflexivity|]. split; [reflexivity|].
  intros arg text G.
  assert (forall t, option_type o = Some t -> In (t, explain t) types) as Ty.
  { intros t Q. assert (info_type x = Some (t, explain t)) as Q' by (unfold x; cbn [info_type]; now rewrite Q).
    pose proof (T3 x t (explain t) I Q') as M. apply in_map_iff in M. destruct M as ([t' d] & <- & M). cbn [fst].
    destruct (T2 _ M) as (y & Iy & Qy). unfold help_table in Iy. apply in_map_iff in Iy. destruct Iy as (o' & <- & _).
    cbn [info_type] in Qy. destruct (option_type o') as [t2|]; [|discriminate]. cbn [option_map] in Qy. injection Qy as <- <-. exact M. }
  unfold entry_of. cbn [entry_usage]. unfold x at 1. cbn [info_type]. destruct (option_type o) as [t|] eqn:Q; cbn [option_map].
  - specialize (Ty t eq_refl). destruct (info_required x) eqn:R; unfold x in R; cbn [info_required] in R.
    + split; [exact Ty|]. split.
      * intros ->. intros env argv1 argv2. apply (rejected_takes env argv1 arg argv2 o [] G).
        intros v [[H | H] _]; [now apply H|]. cbn [job_item value_required] in H. congruence.
      * destruct o; try discriminate Q; try discriminate R;
          [exists (lit "a")|exists (lit "a")|exists (lit "a")|exists (lit "a")|exists (lit "0")|exists (lit "1")|exists (lit "1")
          |exists (lit "errors")|exists (lit "ansi_term")]; intro around; eexists; reflexivity.
    + split; [exact Ty|]. intro around.
      assert (takes (job_item o) text (PathGiven (parse_path text))) as K.
      { split; [right; exact R|]. destruct o; try discriminate Q; try discriminate R; reflexivity. }
      assert (command_line job_table [arg] = Some [(option_name o, PathGiven (parse_path text))]) as C.
      { destruct (mk_proper job_item (fun _ => eq_refl)) as [ND NP]. rewrite Forall_forall in NP.
        destruct (NP (job_item o) (mk_in job_item o)) as [NN NE].
        apply (collect_single job_table arg (option_name o) text (job_item o) _ ND G NE); [|exact (exact_selected _ _ ND (mk_in job_item o))|exact K].
        destruct G as [[-> _] | ->]; [exact NN|]. now destruct (option_name o). }
      unfold make_job. rewrite C. destruct o; try discriminate Q; try discriminate R; eexists; reflexivity.
  - split.
    { intros ->. intro around. destruct o; cbn in Q; try discriminate Q; destruct G as [[-> _] | ->]; eexists; reflexivity. }
    intros NE env argv1 argv2. apply (rejected_takes env argv1 arg argv2 o text G). intros v [_ H].
    cbn [job_item opt_convert] in H. destruct o; cbn in Q; try discriminate Q; cbn [job_convert] in H; now destruct text.
Qed.
