(** Proofs about the command line. *)

From Coq Require Import Ascii String NArith Bool Arith Lia Sorting Permutation.
From Coq Require Import List.
From Verif Require Import Str Path PathProofs CmdModel CmdSpec.
Import ListNotations.

(** ** Lists *)

Lemma quoted_comma text s : quoted text s -> forall rest acc,
  next_array_token (text ++ ","%char :: rest) TokNormal acc = (acc ++ s, rest).
Proof.
  induction 1 as [|c text s N1 N2 _ IH|c text s _ IH]; intros rest acc; cbn.
  - now rewrite app_nil_r.
  - destruct (Ascii.eqb_spec c ","); [contradiction|]. destruct (Ascii.eqb_spec c "\"); [contradiction|].
    rewrite IH, <- app_assoc. reflexivity.
  - rewrite IH, <- app_assoc. reflexivity.
Qed.

Lemma quoted_end text s : quoted text s -> forall acc,
  next_array_token text TokNormal acc = (acc ++ s, []).
Proof.
  induction 1 as [|c text s N1 N2 _ IH|c text s _ IH]; intros acc; cbn.
  - now rewrite app_nil_r.
  - destruct (Ascii.eqb_spec c ","); [contradiction|]. destruct (Ascii.eqb_spec c "\"); [contradiction|].
    rewrite IH, <- app_assoc. reflexivity.
  - rewrite IH, <- app_assoc. reflexivity.
Qed.

Lemma quoted_dangling text s : quoted text s -> forall acc,
  next_array_token (text ++ ["\"%char]) TokNormal acc = (acc ++ s, []).
Proof.
  induction 1 as [|c text s N1 N2 _ IH|c text s _ IH]; intros acc; cbn.
  - now rewrite app_nil_r.
  - destruct (Ascii.eqb_spec c ","); [contradiction|]. destruct (Ascii.eqb_spec c "\"); [contradiction|].
    rewrite IH, <- app_assoc. reflexivity.
  - rewrite IH, <- app_assoc. reflexivity.
Qed.

Lemma next_token_inv n : forall s acc t rest, length s <= n ->
  next_array_token s TokNormal acc = (t, rest) ->
  exists text tok, t = acc ++ tok /\ quoted text tok /\
    (s = text ++ ","%char :: rest \/ (rest = [] /\ (s = text \/ s = text ++ ["\"%char]))).
Proof.
  induction n as [|n IH]; intros s acc t rest L H.
  - destruct s; [|cbn in L; lia]. cbn in H. injection H as <- <-.
    exists [], []. rewrite app_nil_r. split; [reflexivity|]. split; [constructor|]. right. tauto.
  - destruct s as [|c s]; cbn in H.
    + injection H as <- <-. exists [], []. rewrite app_nil_r. split; [reflexivity|]. split; [constructor|]. right. tauto.
    + cbn in L. destruct (Ascii.eqb_spec c ",") as [-> | N1].
      * injection H as <- <-. exists [], []. rewrite app_nil_r. split; [reflexivity|]. split; [constructor|]. now left.
      * destruct (Ascii.eqb_spec c "\") as [-> | N2].
        -- destruct s as [|d s].
           ++ cbn in H. injection H as <- <-. exists [], []. rewrite app_nil_r.
              split; [reflexivity|]. split; [constructor|]. right. split; [reflexivity|]. now right.
           ++ cbn in H. cbn in L. destruct (IH s _ _ _ ltac:(lia) H) as (text & tok & -> & Q & C).
              exists ("\"%char :: d :: text), (d :: tok). rewrite <- app_assoc. split; [reflexivity|].
              split; [now constructor|]. destruct C as [-> | [-> [-> | ->]]]; [now left|right; tauto..].
        -- destruct (IH s _ _ _ ltac:(lia) H) as (text & tok & -> & Q & C).
           exists (c :: text), (c :: tok). rewrite <- app_assoc. split; [reflexivity|].
           split; [now constructor|]. destruct C as [-> | [-> [-> | ->]]]; [now left|right; tauto..].
Qed.

(** What [split_list] accepts. *)
Inductive reads : str -> list str -> Prop :=
| reads_one text s : quoted text s -> reads text [s]
| reads_dangling text s : quoted text s -> reads (text ++ ["\"%char]) [s]
| reads_comma text s : quoted text s -> reads (text ++ [","%char]) [s]
| reads_cons text s texts l : quoted text s -> texts <> [] -> reads texts l ->
    reads (text ++ ","%char :: texts) (s :: l).

Lemma split_loop_reads fuel : forall s ret, length s < fuel ->
  exists l, split_list_loop fuel s ret = Some (ret ++ l) /\ reads s l.
Proof.
  induction fuel as [|fuel IH]; intros s ret L; [lia|]. cbn [split_list_loop].
  destruct (next_array_token s TokNormal []) as [t rest] eqn:E.
  destruct (next_token_inv (length s) s [] t rest (le_n _) E) as (text & tok & -> & Q & C).
  cbn [app]. destruct rest as [|r rest].
  - exists [tok]. split; [reflexivity|].
    destruct C as [-> | [_ [-> | ->]]]; [now apply reads_comma|now apply reads_one|now apply reads_dangling].
  - destruct C as [-> | [C _]]; [|discriminate].
    destruct (IH (r :: rest) (ret ++ [tok])) as (l & E2 & R).
    { rewrite app_length in L. cbn in L. cbn. lia. }
    exists (tok :: l). split; [transitivity (Some ((ret ++ [tok]) ++ l)); [exact E2|now rewrite <- app_assoc]|].
    apply reads_cons; [exact Q|discriminate|exact R].
Qed.

Lemma split_list_reads s : exists l, split_list s = Some l /\ reads s l.
Proof.
  destruct (split_loop_reads (S (length s)) s [] (le_n _)) as (l & E & R). exists l. split; [exact E|exact R].
Qed.

Lemma reads_split_loop fuel : forall s l ret, length s < fuel -> reads s l -> split_list_loop fuel s ret = Some (ret ++ l).
Proof.
  induction fuel as [|fuel IH]; intros s l ret L R; [lia|]. cbn [split_list_loop].
  destruct R as [text t Q|text t Q|text t Q|text t texts l Q NE R].
  - now rewrite (quoted_end _ _ Q).
  - now rewrite (quoted_dangling _ _ Q).
  - now rewrite (quoted_comma _ _ Q).
  - rewrite (quoted_comma _ _ Q). destruct texts as [|c texts]; [contradiction|].
    rewrite (IH _ l); [|rewrite app_length in L; cbn in *; lia|exact R].
    rewrite <- app_assoc. reflexivity.
Qed.

Lemma split_list_iff s l : split_list s = Some l <-> reads s l.
Proof.
  split.
  - destruct (split_list_reads s) as (l' & E & R). rewrite E. intro H. injection H as <-. exact R.
  - intro R. unfold split_list. apply (reads_split_loop _ s l []); [apply le_n|exact R].
Qed.

Lemma reads_quoted s l : reads s l ->
  quoted_list s l \/ exists t, quoted_list t l /\ (s = t ++ ["\"%char] \/ s = t ++ [","%char]).
Proof.
  induction 1 as [text t Q|text t Q|text t Q|text t texts l Q NE _ IH].
  - left. now constructor.
  - right. exists text. split; [now constructor|now left].
  - right. exists text. split; [now constructor|now right].
  - destruct IH as [IH | (u & IH & C)].
    + left. now constructor.
    + right. exists (text ++ ","%char :: u). split; [now constructor|].
      destruct C as [-> | ->]; [left|right]; now rewrite <- app_assoc.
Qed.

Lemma quoted_nonempty text s : quoted text s -> text = [] <-> s = [].
Proof. intros []; split; (reflexivity || discriminate). Qed.

Lemma quoted_list_nonempty text l : quoted_list text l -> last l [] <> [] -> text <> [].
Proof.
  intros [t s Q|t s ts l' Q R] H E.
  - cbn in H. apply H. now apply (quoted_nonempty _ _ Q).
  - apply app_eq_nil in E. destruct E as [_ E]. discriminate E.
Qed.

Lemma quoted_list_some text l : quoted_list text l -> l <> [].
Proof. intros []; discriminate. Qed.

Lemma quoted_list_reads text l : quoted_list text l -> last l [] <> [] \/ l = [[]] -> reads text l.
Proof.
  induction 1 as [t s Q|t s ts l Q R IH]; intros C.
  - now constructor.
  - destruct C as [C | C].
    + assert (L : last l [] <> []).
      { pose proof (quoted_list_some _ _ R). destruct l; [congruence|exact C]. }
      apply reads_cons; [exact Q|exact (quoted_list_nonempty _ _ R L)|]. apply IH. now left.
    + injection C as _ C. destruct (quoted_list_some _ _ R C).
Qed.

Lemma quoted_list_dangling text l : quoted_list text l -> reads (text ++ ["\"%char]) l.
Proof.
  induction 1 as [t s Q|t s ts l Q R IH]; [now constructor|].
  rewrite <- app_assoc. cbn [app]. apply reads_cons; [exact Q|now destruct ts|exact IH].
Qed.

Lemma quoted_list_comma text l : quoted_list text l -> reads (text ++ [","%char]) l.
Proof.
  induction 1 as [t s Q|t s ts l Q R IH]; [now constructor|].
  rewrite <- app_assoc. cbn [app]. apply reads_cons; [exact Q|now destruct ts|exact IH].
Qed.

Lemma fold_none {T} (f : str -> option T) tokens :
  fold_left (fun acc t => match acc, f t with Some l, Some x => Some (l ++ [x]) | _, _ => None end) tokens None = None.
Proof. induction tokens; [reflexivity|assumption]. Qed.

Lemma fold_convert {T} (f : str -> option T) tokens xs : Forall2 (fun t x => f t = Some x) tokens xs -> forall l,
  fold_left (fun acc t => match acc, f t with Some l, Some x => Some (l ++ [x]) | _, _ => None end) tokens (Some l) = Some (l ++ xs).
Proof.
  induction 1 as [|t x tokens xs E _ IH]; intro l; cbn [fold_left]; [now rewrite app_nil_r|].
  rewrite E, IH, <- app_assoc. reflexivity.
Qed.

Lemma fold_convert_inv {T} (f : str -> option T) tokens : forall l r,
  fold_left (fun acc t => match acc, f t with Some l, Some x => Some (l ++ [x]) | _, _ => None end) tokens (Some l) = Some r ->
  exists xs, r = l ++ xs /\ Forall2 (fun t x => f t = Some x) tokens xs.
Proof.
  induction tokens as [|t tokens IH]; intros l r H; cbn [fold_left] in H.
  - injection H as <-. exists []. split; [now rewrite app_nil_r|constructor].
  - destruct (f t) as [x|] eqn:E; [|rewrite fold_none in H; discriminate].
    destruct (IH _ _ H) as (xs & -> & F). exists (x :: xs). rewrite <- app_assoc. split; [reflexivity|]. now constructor.
Qed.

Lemma list_of_string_iff {T} (f : str -> option T) s l xs : split_list s = Some l ->
  list_of_string f s = Some xs <-> Forall2 (fun t x => f t = Some x) l xs.
Proof.
  intro H. unfold list_of_string. rewrite H. split.
  - intro E. destruct (fold_convert_inv f l [] xs E) as (xs' & -> & F). exact F.
  - intro F. exact (fold_convert f l xs F []).
Qed.

(** ** Comparison of strings *)

Lemma str_lt_firstn n : forall a b, str_compare a b = Lt -> str_compare (firstn n a) (firstn n b) <> Gt.
Proof.
  induction n as [|n IH]; intros a b; [discriminate|].
  destruct a as [|x a], b as [|y b]; cbn; try discriminate.
  destruct (char_compare x y); [|discriminate|discriminate]. apply IH.
Qed.

Lemma str_lt_before a b : str_compare a b = Lt <-> before a b.
Proof.
  split.
  - revert b. induction a as [|x a IH]; intros [|y b]; cbn; try discriminate; [constructor|].
    destruct (char_compare x y) eqn:E; [|intros _|discriminate].
    + apply (ord_eq _ char_order) in E. subst. intro H. apply before_later. now apply IH.
    + apply before_here. unfold char_compare in E. apply N.compare_lt_iff in E. unfold nat_of_ascii.
      apply Nat.compare_lt_iff. rewrite <- N2Nat.inj_compare. now apply N.compare_lt_iff.
  - induction 1 as [c s|x y a b L|x a b _ IH]; cbn; [reflexivity| |].
    + unfold char_compare. unfold nat_of_ascii in L.
      apply Nat.compare_lt_iff in L. rewrite <- N2Nat.inj_compare in L. now rewrite L.
    + rewrite (proj2 (ord_eq _ char_order x x) eq_refl). exact IH.
Qed.

Lemma str_compare_refl a : str_compare a a = Eq.
Proof. now apply (ord_eq _ str_order). Qed.

Lemma prefix_compare p q : q <> [] -> str_compare p (p ++ q) = Lt.
Proof.
  intro N. induction p as [|c p IH]; cbn.
  - destruct q; [contradiction|reflexivity].
  - now rewrite (proj2 (ord_eq _ char_order c c) eq_refl).
Qed.

(** ** Sorting *)

Section Options.
  Context {V : Type}.
  Notation item := (opt_item V).

  Definition item_lt (a b : item) : Prop := str_compare (opt_name a) (opt_name b) = Lt.
  Definition item_gt (a b : item) : Prop := item_lt b a.

  Lemma insert_left_in (x : item) l y : In y (insert_left x l) <-> y = x \/ In y l.
  Proof.
    induction l as [|z l IH]; cbn; [intuition|].
    destruct (is_lt (str_compare (opt_name x) (opt_name z))); cbn; [rewrite IH|]; intuition.
  Qed.

  Lemma insert_left_perm (x : item) l : Permutation (insert_left x l) (x :: l).
  Proof.
    induction l as [|z l IH]; cbn; [reflexivity|].
    destruct (is_lt (str_compare (opt_name x) (opt_name z))); [|reflexivity].
    rewrite IH. apply perm_swap.
  Qed.

  Lemma insert_left_sorted (x : item) l : ~ In (opt_name x) (map opt_name l) -> StronglySorted item_gt l ->
    StronglySorted item_gt (insert_left x l).
  Proof.
    induction l as [|z l IH]; intros N S; cbn.
    - constructor; constructor.
    - apply StronglySorted_inv in S. destruct S as [S F]. cbn in N.
      destruct (str_compare (opt_name x) (opt_name z)) eqn:E; cbn [is_lt].
      + apply (ord_eq _ str_order) in E. exfalso. apply N. left. congruence.
      + constructor; [apply IH; [tauto|exact S]|].
        apply Forall_forall. intros y Y. apply insert_left_in in Y. destruct Y as [-> | Y]; [exact E|].
        rewrite Forall_forall in F. now apply F.
      + assert (G : item_gt x z).
        { unfold item_gt, item_lt. rewrite (ord_opp _ str_order). rewrite E. reflexivity. }
        constructor; [now constructor|]. constructor; [exact G|].
        apply Forall_forall. intros y Y. rewrite Forall_forall in F. specialize (F y Y).
        unfold item_gt, item_lt in *. now apply (ord_trans _ str_order _ (opt_name z)).
  Qed.

  Lemma sort_fold (l : list item) : forall acc, NoDup (map opt_name (l ++ acc)) -> StronglySorted item_gt acc ->
    StronglySorted item_gt (fold_left (fun sorted x => insert_left x sorted) l acc) /\
    Permutation (fold_left (fun sorted x => insert_left x sorted) l acc) (l ++ acc).
  Proof.
    induction l as [|x l IH]; intros acc N S; cbn [fold_left].
    - split; [exact S|reflexivity].
    - cbn [app map] in N. inversion N as [|? ? N1 N2]; subst.
      assert (P : Permutation (l ++ insert_left x acc) (x :: l ++ acc)).
      { rewrite insert_left_perm. rewrite <- Permutation_middle. reflexivity. }
      destruct (IH (insert_left x acc)) as [A B].
      + apply (Permutation_NoDup (l := map opt_name (x :: l ++ acc))); [|exact N].
        apply Permutation_map. now symmetry.
      + apply insert_left_sorted; [|exact S]. intro I. apply N1. rewrite map_app. apply in_or_app. now right.
      + split; [exact A|]. rewrite B. exact P.
  Qed.

  Lemma sorted_rev l : StronglySorted item_gt l -> StronglySorted item_lt (rev l).
  Proof.
    induction 1 as [|x l S IH F]; [constructor|]. cbn.
    assert (H : forall a, StronglySorted item_lt a -> Forall (fun y => item_lt y x) a -> StronglySorted item_lt (a ++ [x])).
    { induction a as [|y a IHa]; intros SA FA; cbn; [constructor; constructor|].
      apply StronglySorted_inv in SA. destruct SA as [SA FY]. inversion FA as [|? ? Y FA']; subst.
      constructor; [now apply IHa|]. apply Forall_app. split; [exact FY|]. constructor; [exact Y|constructor]. }
    apply H; [exact IH|]. apply Forall_rev. exact F.
  Qed.

  Lemma sort_sorted (l : list item) : NoDup (map opt_name l) ->
    StronglySorted item_lt (sort_options l) /\ Permutation (sort_options l) l.
  Proof.
    intro N. destruct (sort_fold l []) as [A B].
    - rewrite app_nil_r. exact N.
    - constructor.
    - unfold sort_options. split; [now apply sorted_rev|]. rewrite <- Permutation_rev, B, app_nil_r. reflexivity.
  Qed.

  (** ** Searching *)

  Lemma lower_bound_correct (l : list item) less :
    (forall i j x y, i <= j -> nth_error l i = Some x -> nth_error l j = Some y -> less y = true -> less x = true) ->
    forall fuel first len, len < fuel -> first + len <= length l ->
    (forall i x, i < first -> nth_error l i = Some x -> less x = true) ->
    (forall i x, first + len <= i -> nth_error l i = Some x -> less x = false) ->
    let k := lower_bound_loop fuel l less first len in
    (forall i x, i < k -> nth_error l i = Some x -> less x = true) /\
    (forall i x, k <= i -> nth_error l i = Some x -> less x = false).
  Proof.
    intro M. induction fuel as [|fuel IH]; intros first len L B A C; [lia|]. cbn [lower_bound_loop].
    destruct len as [|len].
    - cbv zeta. split; [exact A|]. rewrite Nat.add_0_r in C. exact C.
    - set (half := Nat.div2 (S len)).
      assert (Hh : half < S len) by (apply Nat.lt_div2; lia).
      destruct (nth_error l (first + half)) as [middle|] eqn:E.
      + destruct (less middle) eqn:LM.
        * apply IH; [lia|lia| |].
          -- intros i x I X. apply (M i (first + half) x middle); [lia|assumption..].
          -- intros i x I X. apply (C i x); [lia|exact X].
        * apply IH; [lia|lia|exact A|].
          intros i x I X. destruct (less x) eqn:LX; [|reflexivity].
          rewrite (M (first + half) i middle x) in LM; [discriminate|lia|assumption..].
      + apply nth_error_None in E. lia.
  Qed.

  Lemma sorted_nth l : StronglySorted item_lt l -> forall i j x y, i < j ->
    nth_error l i = Some x -> nth_error l j = Some y -> item_lt x y.
  Proof.
    induction 1 as [|z l S IH F]; intros i j x y L X Y; [destruct i; discriminate|].
    destruct j as [|j]; [lia|]. destruct i as [|i]; cbn in X, Y.
    - injection X as <-. rewrite Forall_forall in F. apply F. now apply (nth_error_In _ j).
    - apply (IH i j); [lia|assumption..].
  Qed.

  Lemma find_option_correct (l : list item) arg n : StronglySorted item_lt l ->
    match find_option l arg n with
    | Some x =>
        exists i, nth_error l i = Some x /\ firstn n (opt_name x) = firstn n arg /\
          forall j y, j < i -> nth_error l j = Some y -> firstn n (opt_name y) <> firstn n arg
    | None => forall x, In x l -> firstn n (opt_name x) <> firstn n arg
    end.
  Proof.
    intro S. unfold find_option. set (less := fun x : item => is_lt (strncmp (opt_name x) arg n)).
    assert (M : forall i j x y, i <= j -> nth_error l i = Some x -> nth_error l j = Some y -> less y = true -> less x = true).
    { intros i j x y L X Y. unfold less, strncmp.
      destruct (Nat.eq_dec i j) as [-> | NE]; [congruence|].
      pose proof (sorted_nth l S i j x y ltac:(lia) X Y) as XY. unfold item_lt in XY.
      pose proof (str_lt_firstn n _ _ XY) as XYn.
      destruct (str_compare (firstn n (opt_name y)) (firstn n arg)) eqn:E; try discriminate. intros _.
      destruct (str_compare (firstn n (opt_name x)) (firstn n (opt_name y))) eqn:E2; [| |contradiction].
      - apply (ord_eq _ str_order) in E2. rewrite E2, E. reflexivity.
      - rewrite (ord_trans _ str_order _ _ _ E2 E). reflexivity. }
    destruct (lower_bound_correct l less M (Datatypes.S (length l)) 0 (length l)) as [A B]; [lia|lia|intros i x I; lia| |].
    { intros i x I X. assert (nth_error l i <> None) by congruence. apply nth_error_Some in H. lia. }
    fold (lower_bound l less) in A, B.
    destruct (nth_error l (lower_bound l less)) as [x|] eqn:E.
    - pose proof (B _ x (le_n _) E) as LX. unfold less in LX.
      destruct (str_compare (firstn n (opt_name x)) (firstn n arg)) eqn:C; unfold strncmp in *; rewrite C in LX; try discriminate.
      + apply (ord_eq _ str_order) in C.
        rewrite <- C, str_compare_refl. cbn [is_lt].
        exists (lower_bound l less). split; [exact E|]. split; [reflexivity|].
        intros j y J Y EQ. pose proof (A j y J Y) as LY. unfold less, strncmp in LY. rewrite EQ, <- C, str_compare_refl in LY. discriminate.
      + rewrite (ord_opp _ str_order), C. cbn [CompOpp is_lt].
        intros y Y EQ. apply In_nth_error in Y. destruct Y as (j & Y).
        assert (LY : less y = false).
        { unfold less, strncmp. rewrite EQ, str_compare_refl. reflexivity. }
        destruct (Nat.lt_ge_cases j (lower_bound l less)) as [J | J].
        * rewrite (A j y J Y) in LY. discriminate.
        * destruct (Nat.eq_dec (lower_bound l less) j) as [EJ | NE].
          -- rewrite EJ, Y in E. injection E as ->. rewrite EQ, str_compare_refl in C. discriminate.
          -- pose proof (sorted_nth l S (lower_bound l less) j x y ltac:(lia) E Y) as XY. unfold item_lt in XY.
             apply (str_lt_firstn n) in XY. rewrite EQ, C in XY. now apply XY.
    - intros y Y EQ. apply In_nth_error in Y. destruct Y as (j & Y).
      assert (LY : less y = false).
      { unfold less, strncmp. rewrite EQ, str_compare_refl. reflexivity. }
      apply nth_error_None in E.
      rewrite (A j y) in LY; [discriminate| |exact Y].
      assert (nth_error l j <> None) by congruence. apply nth_error_Some in H. lia.
  Qed.

  (** ** Arguments *)

  Lemma split_point_spec arg : exists name v,
    gives arg name v /\ ~ In "="%char name /\ split_point arg = (length name, v) /\ firstn (length name) arg = name.
  Proof.
    induction arg as [|c arg (name & v & G & N & E & F)].
    - exists [], []. split; [left; tauto|]. split; [tauto|]. split; reflexivity.
    - cbn. destruct (Ascii.eqb_spec c "=") as [-> | NE].
      + exists [], arg. split; [now right|]. split; [tauto|]. split; reflexivity.
      + exists (c :: name), v. rewrite E. cbn. rewrite F. split; [|split; [|split; reflexivity]].
        * destruct G as [[-> ->] | ->]; [left; tauto|now right].
        * intros [H | H]; [congruence|contradiction].
  Qed.

  Lemma gives_unique arg : forall n1 v1 n2 v2, gives arg n1 v1 -> gives arg n2 v2 ->
    ~ In "="%char n1 -> ~ In "="%char n2 -> n1 = n2 /\ v1 = v2.
  Proof.
    induction arg as [|c arg IH]; intros n1 v1 n2 v2 G1 G2 N1 N2.
    - destruct G1 as [[<- ->] | E1]; [|now destruct n1]. destruct G2 as [[<- ->] | E2]; [|now destruct n2]. tauto.
    - destruct n1 as [|c1 n1], n2 as [|c2 n2].
      + destruct G1 as [[E1 _] | E1]; [discriminate|]. destruct G2 as [[E2 _] | E2]; [discriminate|].
        cbn in E1, E2. split; [reflexivity|]. congruence.
      + exfalso. destruct G1 as [[E1 _] | E1]; [discriminate|]. cbn in E1. injection E1 as -> _.
        destruct G2 as [[E2 _] | E2]; cbn in E2; injection E2 as <- _; apply N2; now left.
      + exfalso. destruct G2 as [[E2 _] | E2]; [discriminate|]. cbn in E2. injection E2 as -> _.
        destruct G1 as [[E1 _] | E1]; cbn in E1; injection E1 as <- _; apply N1; now left.
      + assert (G1' : gives arg n1 v1 /\ c = c1).
        { destruct G1 as [[E1 ->] | E1]; injection E1 as -> ->; split; try reflexivity; [left; tauto|now right]. }
        assert (G2' : gives arg n2 v2 /\ c = c2).
        { destruct G2 as [[E2 ->] | E2]; injection E2 as -> ->; split; try reflexivity; [left; tauto|now right]. }
        destruct G1' as [G1' <-], G2' as [G2' <-].
        destruct (IH n1 v1 n2 v2 G1' G2') as [-> ->]; [intro; apply N1; now right|intro; apply N2; now right|tauto].
  Qed.

  Lemma firstn_prefix (p s : str) : firstn (length p) s = p <-> prefix p s.
  Proof.
    split.
    - intro H. exists (skipn (length p) s). rewrite <- H at 1. symmetry. apply firstn_skipn.
    - intros (c & ->). rewrite firstn_app, Nat.sub_diag, firstn_all. cbn. apply app_nil_r.
  Qed.

  Lemma before_irrefl s : ~ before s s.
  Proof. rewrite <- str_lt_before, str_compare_refl. discriminate. Qed.

  Lemma before_asym a b : before a b -> ~ before b a.
  Proof.
    rewrite <- !str_lt_before. intros A B. pose proof (ord_trans _ str_order _ _ _ A B) as C.
    rewrite str_compare_refl in C. discriminate.
  Qed.

  Lemma find_option_selected (options : list item) name v arg : NoDup (map opt_name options) -> gives arg name v -> ~ In "="%char name ->
    forall x, find_option (sort_options options) arg (length name) = Some x <-> selected options name x.
  Proof.
    intros N G E. destruct (sort_sorted options N) as [S P].
    assert (F : firstn (length name) arg = name).
    { destruct G as [[-> _] | ->]; [apply firstn_all|].
      rewrite firstn_app, Nat.sub_diag, firstn_all. cbn. apply app_nil_r. }
    pose proof (find_option_correct (sort_options options) arg (length name) S) as C. rewrite F in C.
    assert (Sel : forall x, find_option (sort_options options) arg (length name) = Some x -> selected options name x).
    { intros x H. rewrite H in C. destruct C as (i & I & H1 & H2).
      split; [apply (Permutation_in _ P); now apply (nth_error_In _ i)|].
      split; [now apply firstn_prefix|].
      intros y Y PY. apply (Permutation_in _ (Permutation_sym P)) in Y. apply In_nth_error in Y. destruct Y as (j & Y).
      destruct (Nat.lt_trichotomy i j) as [L | [<- | L]].
      - right. apply str_lt_before. exact (sorted_nth _ S i j x y L I Y).
      - left. congruence.
      - exfalso. apply (H2 j y L Y). now apply firstn_prefix. }
    intro x. split; [apply Sel|]. intros (I & PX & M).
    destruct (find_option (sort_options options) arg (length name)) as [y|] eqn:FO.
    - destruct (Sel y eq_refl) as (IY & PY & MY). f_equal.
      destruct (M y IY PY) as [-> | B1]; [reflexivity|].
      destruct (MY x I PX) as [-> | B2]; [reflexivity|]. destruct (before_asym _ _ B1 B2).
    - exfalso. apply (C x); [now apply (Permutation_in _ (Permutation_sym P))|]. now apply firstn_prefix.
  Qed.

  Lemma find_option_unknown (options : list item) name v arg : NoDup (map opt_name options) -> gives arg name v -> ~ In "="%char name ->
    find_option (sort_options options) arg (length name) = None <->
    forall x, In x options -> ~ prefix name (opt_name x).
  Proof.
    intros N G E. destruct (sort_sorted options N) as [S P].
    assert (F : firstn (length name) arg = name).
    { destruct G as [[-> _] | ->]; [apply firstn_all|].
      rewrite firstn_app, Nat.sub_diag, firstn_all. cbn. apply app_nil_r. }
    pose proof (find_option_correct (sort_options options) arg (length name) S) as C. rewrite F in C. split.
    - intro H. rewrite H in C. intros x X PX. apply (C x); [now apply (Permutation_in _ (Permutation_sym P))|].
      now apply firstn_prefix.
    - intro H. destruct (find_option (sort_options options) arg (length name)) as [x|]; [|reflexivity].
      destruct C as (i & I & H1 & _). exfalso.
      apply (H x); [apply (Permutation_in _ P); now apply (nth_error_In _ i)|]. now apply firstn_prefix.
  Qed.

  Lemma unique_name (options : list item) x y : NoDup (map opt_name options) -> In x options -> In y options ->
    opt_name x = opt_name y -> x = y.
  Proof.
    induction options as [|z l IH]; intros N X Y E; [destruct X|]. cbn in N. inversion N as [|? ? N1 N2]; subst.
    destruct X as [<- | X], Y as [<- | Y]; [reflexivity| | |now apply IH].
    - exfalso. apply N1. rewrite E. now apply in_map.
    - exfalso. apply N1. rewrite <- E. now apply in_map.
  Qed.

  Lemma exact_selected (options : list item) x : NoDup (map opt_name options) -> In x options -> selected options (opt_name x) x.
  Proof.
    intros N X. split; [exact X|]. split; [exists []; now rewrite app_nil_r|].
    intros y Y (c & E). destruct c as [|c0 c].
    - left. rewrite app_nil_r in E. symmetry. apply (unique_name options); [assumption..|]. now symmetry.
    - right. apply str_lt_before. rewrite E. now apply prefix_compare.
  Qed.

  Lemma run_converter_takes (x : item) v value : run_converter x v = Some value <-> takes x v value.
  Proof.
    unfold run_converter, takes. destruct v as [|c v].
    - destruct (value_required x); split; intro H.
      + discriminate H.
      + destruct H as [[H | H] _]; congruence.
      + split; [now right|exact H].
      + apply H.
    - split; [intro H; split; [left; discriminate|exact H]|intros [_ H]; exact H].
  Qed.

  Lemma collect_step (options : list item) (arg : str) name v (argv : list str) s : NoDup (map opt_name options) ->
    arg <> [] -> gives arg name v -> ~ In "="%char name ->
    collect_options (sort_options options) (arg :: argv) s =
    match find_option (sort_options options) arg (length name) with
    | None => None
    | Some x => match run_converter x v with
                | None => None
                | Some value => collect_options (sort_options options) argv ((opt_name x, value) :: s)
                end
    end.
  Proof.
    intros N NE G E. destruct (split_point_spec arg) as (name' & v' & G' & E' & SP & _).
    destruct (gives_unique arg _ _ _ _ G G' E E') as [-> ->].
    destruct arg as [|c arg]; [contradiction|]. cbn [collect_options]. rewrite SP. reflexivity.
  Qed.

  Definition settings_of (choices : list (item * V)) (s : settings) : settings :=
    rev (map (fun c => (opt_name (fst c), snd c)) choices) ++ s.

  Lemma collect_exact (options : list item) argv choices : proper_options options -> Forall2 (selects options) argv choices ->
    forall s, collect_options (sort_options options) argv s = Some (settings_of choices s).
  Proof.
    intros [N NP]. induction 1 as [|arg [x value] argv choices S _ IH]; intro s; [reflexivity|].
    destruct S as (I & text & G & T). cbn [fst snd] in *.
    rewrite Forall_forall in NP. destruct (NP x I) as [NN NE].
    rewrite (collect_step options arg (opt_name x) text).
    - rewrite (proj2 (find_option_selected options (opt_name x) text arg N G NE x) (exact_selected options x N I)).
      rewrite (proj2 (run_converter_takes x text value) T). rewrite IH. unfold settings_of. cbn.
      rewrite <- app_assoc. reflexivity.
    - exact N.
    - destruct G as [[-> _] | ->]; [exact NN|]. now destruct (opt_name x).
    - exact G.
    - exact NE.
  Qed.

  Lemma setting_last (choices : list (item * V)) name value : setting (settings_of choices []) name = Some value <-> last_choice choices name value.
  Proof.
    unfold settings_of. rewrite app_nil_r. induction choices as [|[x v] choices IH] using rev_ind.
    - cbn. split; [discriminate|]. intros (a & y & b & E & _). now destruct a.
    - rewrite map_app, rev_app_distr. cbn.
      destruct (str_eqb (opt_name x) name) eqn:E.
      + apply str_eqb_eq in E. split.
        * intro H. injection H as <-. exists choices, x, []. split; [reflexivity|]. split; [exact E|constructor].
        * intros (a & y & b & EQ & NY & F). destruct b as [|c b] using rev_ind.
          -- apply app_inj_tail in EQ. destruct EQ as [_ EQ]. congruence.
          -- exfalso. clear IHb. rewrite app_comm_cons, app_assoc in EQ. apply app_inj_tail in EQ. destruct EQ as [_ <-].
             apply Forall_app in F. destruct F as [_ F]. inversion F. cbn in *. contradiction.
      + rewrite IH. apply str_eqb_neq in E. split.
        * intros (a & y & b & -> & NY & F). exists a, y, (b ++ [(x, v)]). rewrite <- app_assoc. split; [reflexivity|].
          split; [exact NY|]. apply Forall_app. split; [exact F|]. constructor; [exact E|constructor].
        * intros (a & y & b & EQ & NY & F). destruct b as [|c b] using rev_ind.
          -- apply app_inj_tail in EQ. destruct EQ as [_ EQ]. congruence.
          -- clear IHb. rewrite app_comm_cons, app_assoc in EQ. apply app_inj_tail in EQ. destruct EQ as [EQ _].
             apply Forall_app in F. destruct F as [F _]. exists a, y, b. tauto.
  Qed.

  Lemma collect_reject (options : list item) (argv1 : list str) : forall (arg : str) (argv2 : list str) name v s, NoDup (map opt_name options) ->
    gives arg name v -> ~ In "="%char name -> arg <> [] ->
    (forall x value, selected options name x -> ~ takes x v value) ->
    collect_options (sort_options options) (argv1 ++ arg :: argv2) s = None.
  Proof.
    induction argv1 as [|a argv1 IH]; intros arg argv2 name v s N G E NE H.
    - cbn [app]. rewrite (collect_step options arg name v argv2 s N NE G E).
      destruct (find_option (sort_options options) arg (length name)) as [x|] eqn:F; [|reflexivity].
      apply (find_option_selected options name v arg N G E) in F.
      destruct (run_converter x v) as [value|] eqn:R; [|reflexivity].
      apply run_converter_takes in R. destruct (H x value F R).
    - cbn [app]. destruct a as [|c a].
      + cbn [collect_options]. now apply (IH arg argv2 name v).
      + destruct (split_point_spec (c :: a)) as (n' & v' & G' & E' & _ & _).
        rewrite (collect_step options (c :: a) n' v' _ s N); [|discriminate|exact G'|exact E'].
        destruct (find_option _ _ _) as [x|]; [|reflexivity].
        destruct (run_converter x v') as [value|]; [|reflexivity].
        now apply (IH arg argv2 name v).
  Qed.

  Lemma collect_single (options : list item) arg name v x value : NoDup (map opt_name options) ->
    gives arg name v -> ~ In "="%char name -> arg <> [] ->
    selected options name x -> takes x v value ->
    command_line options [arg] = Some [(opt_name x, value)].
  Proof.
    intros N G E NE S T. unfold command_line.
    rewrite (collect_step options arg name v [] [] N NE G E).
    rewrite (proj2 (find_option_selected options name v arg N G E x) S).
    rewrite (proj2 (run_converter_takes x v value) T). reflexivity.
  Qed.

  Lemma selected_unique (options : list item) name x y : selected options name x -> selected options name y -> x = y.
  Proof.
    intros (IX & PX & MX) (IY & PY & MY). destruct (MX y IY PY) as [-> | B1]; [reflexivity|].
    destruct (MY x IX PX) as [-> | B2]; [reflexivity|]. destruct (before_asym _ _ B1 B2).
  Qed.

  Lemma picks_unique (options : list item) arg x t y u : picks options arg x t -> picks options arg y u -> x = y /\ t = u.
  Proof.
    intros (_ & n1 & G1 & E1 & S1) (_ & n2 & G2 & E2 & S2).
    destruct (gives_unique arg _ _ _ _ G1 G2 E1 E2) as [-> ->]. split; [|reflexivity].
    exact (selected_unique options n2 x y S1 S2).
  Qed.

  Lemma collect_cons (options : list item) (arg : str) (argv : list str) s r : NoDup (map opt_name options) -> arg <> [] ->
    collect_options (sort_options options) (arg :: argv) s = Some r <->
    exists x text value, picks options arg x text /\ takes x text value /\
      collect_options (sort_options options) argv ((opt_name x, value) :: s) = Some r.
  Proof.
    intros N NE. destruct (split_point_spec arg) as (name & v & G & E & _ & _).
    rewrite (collect_step options arg name v argv s N NE G E). split.
    - intro H. destruct (find_option (sort_options options) arg (length name)) as [x|] eqn:F; [|discriminate].
      destruct (run_converter x v) as [value|] eqn:R; [|discriminate].
      exists x, v, value. split; [|split; [now apply run_converter_takes|exact H]].
      split; [exact NE|]. exists name. split; [exact G|]. split; [exact E|].
      now apply (find_option_selected options name v arg N G E).
    - intros (x & text & value & P & T & C). destruct P as (_ & n2 & G2 & E2 & S2).
      destruct (gives_unique arg _ _ _ _ G G2 E E2) as [<- <-].
      rewrite (proj2 (find_option_selected options name v arg N G E x) S2).
      rewrite (proj2 (run_converter_takes x v value) T). exact C.
  Qed.

  Lemma collect_accepts (options : list item) : NoDup (map opt_name options) -> forall (argv : list str) s,
    (exists r, collect_options (sort_options options) argv s = Some r) <->
    forall arg : str, In arg argv -> arg = [] \/ exists x text value, picks options arg x text /\ takes x text value.
  Proof.
    intro N. induction argv as [|a argv IH]; intro s.
    - split; [intros _ arg []|]. intros _. exists s. reflexivity.
    - destruct a as [|c a].
      + cbn [collect_options]. rewrite IH. split; intros H arg.
        * intros [<- | I]; [now left|now apply H].
        * intro I. apply H. now right.
      + split.
        * intros (r & H). apply (collect_cons options (c :: a) argv s r N) in H; [|discriminate].
          destruct H as (x & text & value & P & T & C). intros arg [<- | I].
          -- right. exists x, text, value. split; assumption.
          -- apply (proj1 (IH ((opt_name x, value) :: s))); [exists r; exact C|exact I].
        * intro H. destruct (H (c :: a) (or_introl eq_refl)) as [D | (x & text & value & P & T)]; [discriminate|].
          destruct (proj2 (IH ((opt_name x, value) :: s)) (fun arg I => H arg (or_intror I))) as (r & C).
          exists r. apply (collect_cons options (c :: a) argv s r N); [discriminate|].
          exists x, text, value. repeat split; assumption || apply P || apply T.
  Qed.

  Definition last_given (options : list item) (argv : list str) (x : item) (value : V) : Prop :=
    exists (argv1 : list str) arg text argv2, argv = argv1 ++ arg :: argv2 /\ picks options arg x text /\ takes x text value /\
      forall a t, In a argv2 -> ~ picks options a x t.

  Lemma collect_values (options : list item) x : NoDup (map opt_name options) -> In x options -> forall (argv : list str) s r,
    collect_options (sort_options options) argv s = Some r ->
    forall value, setting r (opt_name x) = Some value <->
      last_given options argv x value \/
      ((forall a t, In a argv -> ~ picks options a x t) /\ setting s (opt_name x) = Some value).
  Proof.
    intros N IX. induction argv as [|a argv IH]; intros s r H value.
    - cbn in H. injection H as <-. split.
      + intro S. right. split; [intros ? ? []|exact S].
      + intros [(l1 & arg & text & l2 & E & _) | [_ S]]; [now destruct l1|exact S].
    - destruct a as [|c a].
      + cbn [collect_options] in H. rewrite (IH s r H value). split.
        * intros [(l1 & arg & text & l2 & -> & P & T & M) | [M S]].
          -- left. exists ([] :: l1), arg, text, l2. split; [reflexivity|]. repeat split; assumption || apply P || apply T.
          -- right. split; [|exact S]. intros b t [<- | I] P; [destruct P as [P _]; now apply P|now apply (M b t)].
        * intros [(l1 & arg & text & l2 & E & P & T & M) | [M S]].
          -- left. destruct l1 as [|b l1]; cbn in E; injection E as E1 E2.
             ++ exfalso. subst arg. destruct P as [P _]. now apply P.
             ++ exists l1, arg, text, l2. repeat split; assumption || apply P || apply T.
          -- right. split; [|exact S]. intros b t I. apply M. now right.
      + apply (collect_cons options (c :: a) argv s r N) in H; [|discriminate].
        destruct H as (y & text & v & P & T & C). rewrite (IH _ r C value). cbn [setting]. split.
        * intros [(l1 & arg & text' & l2 & -> & P' & T' & M) | [M S]].
          -- left. exists ((c :: a) :: l1), arg, text', l2. split; [reflexivity|]. repeat split; assumption || apply P' || apply T'.
          -- destruct (str_eqb (opt_name y) (opt_name x)) eqn:E.
             ++ apply str_eqb_eq in E. assert (y = x) as ->.
                { destruct P as (_ & n & _ & _ & (IY & _)). exact (unique_name options y x N IY IX E). }
                injection S as ->. left. exists [], (c :: a), text, argv. repeat split; assumption || apply P || apply T.
             ++ right. split; [|exact S]. intros b t [<- | I] Q; [|now apply (M b t)].
                destruct (picks_unique options (c :: a) x t y text Q P) as [<- _].
                rewrite str_eqb_refl in E. discriminate.
        * intros [(l1 & arg & text' & l2 & E & P' & T' & M) | [M S]].
          -- destruct l1 as [|b l1]; cbn in E; injection E as E1 E2.
             ++ subst arg l2. right. split; [exact M|].
                destruct (picks_unique options (c :: a) x text' y text P' P) as [<- <-]. rewrite str_eqb_refl.
                destruct T as [_ T]. destruct T' as [_ T']. congruence.
             ++ left. exists l1, arg, text', l2. repeat split; assumption || apply P' || apply T'.
          -- right. split; [intros b t I; apply M; now right|].
             destruct (str_eqb (opt_name y) (opt_name x)) eqn:E; [|exact S].
             apply str_eqb_eq in E. exfalso. apply (M (c :: a) text (or_introl eq_refl)).
             assert (y = x) as <-; [|exact P].
             destruct P as (_ & n & _ & _ & (IY & _)). exact (unique_name options y x N IY IX E).
  Qed.

  Theorem accepted_iff (options : list item) (argv : list str) : NoDup (map opt_name options) ->
    command_line options argv <> None <->
    forall arg : str, In arg argv -> arg = [] \/ exists x text value, picks options arg x text /\ takes x text value.
  Proof.
    intro N. rewrite <- (collect_accepts options N argv []). unfold command_line.
    destruct (collect_options (sort_options options) argv []) as [r|]; split.
    - intros _. now exists r.
    - discriminate.
    - intro H. now destruct H.
    - intros (r & H). discriminate.
  Qed.

  Theorem values_iff (options : list item) (argv : list str) s x : NoDup (map opt_name options) ->
    command_line options argv = Some s -> In x options ->
    forall value, setting s (opt_name x) = Some value <->
      exists (argv1 : list str) arg text argv2, argv = argv1 ++ arg :: argv2 /\ picks options arg x text /\ takes x text value /\
        forall a t, In a argv2 -> ~ picks options a x t.
  Proof.
    intros N C IX value. rewrite (collect_values options x N IX argv [] s C value). split.
    - intros [H | [_ H]]; [exact H|discriminate].
    - intro H. now left.
  Qed.
End Options.
