(** Proofs about the integration tests. *)

From Coq Require Import Ascii String Bool Arith Lia.
From Coq Require Import List.
From Verif Require Import Str PathProofs AboutModel IntegModel IntegSpec.
Import ListNotations.
Local Open Scope string_scope.
Local Open Scope list_scope.

Section Run.
Variable run : list event -> list str -> str -> nat * str.
Let ex := exec run.

Definition good (evs : list event) : Prop := forall e, In e evs -> looked_at e = true -> result e = 0.

Lemma good_app a b : good (a ++ b) <-> good a /\ good b.
Proof.
  unfold good. split.
  - intro H. split; intros e I L; apply (H e); auto; apply in_or_app; auto.
  - intros (H1 & H2) e I L. apply in_app_or in I as [I|I]; auto.
Qed.

Lemma good_one ws i n o b : good [mk_event ws i n o b] <-> (b = true -> n = 0).
Proof.
  unfold good. split.
  - intros H B. apply (H (mk_event ws i n o b)); [now left|exact B].
  - intros H e [<-|[]] L. cbn in *. auto.
Qed.

Lemma pipeline_good env pl : forall evs stdin evs' st out, run_pipeline run env evs pl stdin = (evs', st, out) ->
  exists l, evs' = evs ++ l /\ (good l <-> st = 0).
Proof.
  induction pl as [|ws [|ws' pl] IH]; intros evs stdin evs' st out H.
  - cbn in H. injection H as <- <- <-. exists []. split; [now rewrite app_nil_r|]. split; [reflexivity|intros _ e []].
  - cbn in H. unfold run_one in H. destruct (run evs (expand env ws) stdin) as [n o]. injection H as <- <- <-.
    eexists. split; [reflexivity|]. rewrite good_one. split; auto.
  - cbn [run_pipeline] in H. unfold run_one at 1 in H. destruct (run evs (expand env ws) stdin) as [n o].
    apply IH in H as (l & -> & E). rewrite <- app_assoc. eexists. split; [reflexivity|].
    rewrite good_app, good_one, E. split; [now intros []|]. intro Z. split; [discriminate|exact Z].
Qed.

(** What has been run stays. *)
Lemma exec_events s : forall sh sh' r, ex s sh = (sh', r) -> exists l, events sh' = events sh ++ l.
Proof.
  unfold ex. induction s as [|ws k IH|v pl k IH|v ws k IH|v x k IH|ws k IH|ws k IH|a b yes IHy no IHn k IH|n k IH|]; intros sh sh' r H; cbn [exec] in H.
  - injection H as <- <-. exists []. now rewrite app_nil_r.
  - unfold run_one in H. destruct (run _ _ _) as [n o]. destruct (Nat.eqb n 0).
    + apply IH in H as (l & ->). cbn [events]. rewrite <- app_assoc. eauto.
    + injection H as <- <-. cbn [events]. eauto.
  - destruct (run_pipeline _ _ _ _ _) as [[evs st] o] eqn:P. apply pipeline_good in P as (l0 & -> & _). destruct (Nat.eqb st 0).
    + apply IH in H as (l & ->). cbn [events]. rewrite <- app_assoc. eauto.
    + injection H as <- <-. cbn [events]. eauto.
  - unfold run_one in H. destruct (run _ _ _) as [n o]. apply IH in H as (l & ->). cbn [events]. rewrite <- app_assoc. eauto.
  - apply IH in H as (l & ->). cbn [events]. eauto.
  - unfold run_one in H. destruct (run _ _ _) as [n o]. apply IH in H as (l & ->). cbn [events]. rewrite <- app_assoc. eauto.
  - now apply IH in H.
  - destruct (exec run _ sh) as [sh1 [st|]] eqn:E.
    + injection H as <- <-. destruct (str_eqb _ _); eauto.
    + apply IH in H as (l & ->). assert (exists l1, events sh1 = events sh ++ l1) as (l1 & ->) by (destruct (str_eqb _ _); eauto).
      rewrite <- app_assoc. eauto.
  - injection H as <- <-. exists []. now rewrite app_nil_r.
  - injection H as <- <-. exists []. now rewrite app_nil_r.
Qed.

Lemma strict_good s : strict s -> forall sh sh' r, ex s sh = (sh', r) -> good (events sh) -> (r = None \/ r = Some 0) -> good (events sh').
Proof.
  unfold ex. induction s as [|ws k IH|v pl k IH|v ws k IH|v x k IH|ws k IH|ws k IH|a b yes IHy no IHn k IH|n k IH|]; cbn [strict]; intros S sh sh' r H G R; cbn [exec] in H.
  - now injection H as <- <-.
  - unfold run_one in H. destruct (run _ _ _) as [n o]. destruct (Nat.eqb_spec n 0) as [->|N].
    + apply (IH S) in H; [exact H| |exact R]. cbn [events]. apply good_app. split; [exact G|]. now apply good_one.
    + injection H as <- <-. destruct R as [R|R]; [discriminate|]. now injection R.
  - destruct (run_pipeline _ _ _ _ _) as [[evs st] o] eqn:P. apply pipeline_good in P as (l0 & -> & Z). destruct (Nat.eqb_spec st 0) as [->|N].
    + apply (IH S) in H; [exact H| |exact R]. cbn [events]. apply good_app. split; [exact G|]. now apply Z.
    + injection H as <- <-. destruct R as [R|R]; [discriminate|]. now injection R.
  - unfold run_one in H. destruct (run _ _ _) as [n o]. apply (IH S) in H; [exact H| |exact R]. cbn [events]. apply good_app. split; [exact G|]. now apply good_one.
  - apply (IH S) in H; [exact H|exact G|exact R].
  - destruct S.
  - apply (IH S) in H; [exact H|exact G|exact R].
  - destruct S as (Sy & Sn & Sk). destruct (exec run _ sh) as [sh1 [st|]] eqn:E.
    + injection H as <- <-. destruct (str_eqb _ _); [apply (IHy Sy) in E|apply (IHn Sn) in E]; auto.
    + apply (IH Sk) in H; auto. destruct (str_eqb _ _); [apply (IHy Sy) in E|apply (IHn Sn) in E]; auto.
  - now injection H as <- <-.
  - destruct S.
Qed.

Theorem strict_passed s env : strict s -> status_of (script_run run s env) = 0 -> passed (fst (script_run run s env)).
Proof.
  intros S. unfold script_run, status_of. destruct (exec run s _) as [sh r] eqn:E. cbn [fst snd]. intro H.
  apply (strict_good s S _ _ _ E); [intros e []|]. destruct r; [right; now rewrite H|now left].
Qed.

Lemma straight_good s : straight s -> forall sh sh' r, ex s sh = (sh', r) -> good (events sh') -> r = None.
Proof.
  unfold ex. induction s as [|ws k IH|v pl k IH|v ws k IH|v x k IH|ws k IH|ws k IH|a b yes IHy no IHn k IH|n k IH|]; cbn [straight]; intros S sh sh' r H G; cbn [exec] in H; try easy.
  - now injection H as <- <-.
  - unfold run_one in H. destruct (run _ _ _) as [n o]. destruct (Nat.eqb_spec n 0) as [->|N].
    + now apply (IH S) in H.
    + injection H as <- <-. cbn [events] in G. apply good_app in G as (_ & G). rewrite good_one in G. now specialize (G eq_refl).
  - destruct (run_pipeline _ _ _ _ _) as [[evs st] o] eqn:P. apply pipeline_good in P as (l0 & -> & Z). destruct (Nat.eqb_spec st 0) as [->|N].
    + now apply (IH S) in H.
    + injection H as <- <-. cbn [events] in G. apply good_app in G as (_ & G). now apply Z in G.
  - unfold run_one in H. destruct (run _ _ _) as [n o]. now apply (IH S) in H.
  - now apply (IH S) in H.
  - now apply (IH S) in H.
Qed.

Lemma straight_strict s : straight s -> strict s.
Proof. induction s; cbn; auto; tauto. Qed.

Theorem straight_passed s env : straight s -> (status_of (script_run run s env) = 0 <-> passed (fst (script_run run s env))).
Proof.
  intros S. split; [apply strict_passed, straight_strict, S|].
  unfold script_run, status_of. destruct (exec run s _) as [sh r] eqn:E. cbn [fst snd]. intro H.
  now rewrite (straight_good s S _ _ _ E H).
Qed.

(** ** Steps of scripts that end with status 0, or in which all commands succeed *)

Definition fine (r : option nat) : Prop := match r with Some n => n = 0 | None => True end.
Definition ok (sh' : shell) (r : option nat) : Prop := fine r \/ good (events sh').

Lemma not_ok env evs ws i n o st : n <> 0 -> ~ ok (mk_shell env (evs ++ [mk_event ws i n o true]) st) (Some n).
Proof.
  intros N [F|G]; [now cbn in F|]. cbn [events] in G. apply good_app in G as (_ & G). rewrite good_one in G. now apply N, G.
Qed.

Lemma step_cmd ws k sh sh' r : ex (Cmd ws k) sh = (sh', r) -> ok sh' r ->
  exists o, run (events sh) (expand (value_of sh) ws) [] = (0, o) /\
    ex k (mk_shell (value_of sh) (events sh ++ [mk_event (expand (value_of sh) ws) [] 0 o true]) (exit_status sh)) = (sh', r).
Proof.
  unfold ex. cbn [exec]. unfold run_one. destruct (run _ _ _) as [n o]. destruct (Nat.eqb_spec n 0) as [->|N]; [eauto|].
  intros [= <- <-] F. now apply not_ok in F.
Qed.

Lemma step_let1 v ws k sh sh' r : ex (Let v [ws] k) sh = (sh', r) -> ok sh' r ->
  exists o, run (events sh) (expand (value_of sh) ws) [] = (0, o) /\
    ex k (mk_shell (set_value (value_of sh) v (substituted o)) (events sh ++ [mk_event (expand (value_of sh) ws) [] 0 o true]) (exit_status sh)) = (sh', r).
Proof.
  unfold ex. cbn [exec run_pipeline]. unfold run_one. destruct (run _ _ _) as [n o]. destruct (Nat.eqb_spec n 0) as [->|N]; [eauto|].
  intros [= <- <-] F. now apply not_ok in F.
Qed.

Lemma step_ignored v ws k sh sh' r : ex (LetIgnored v ws k) sh = (sh', r) ->
  exists n o, run (events sh) (expand (value_of sh) ws) [] = (n, o) /\
    ex k (mk_shell (set_value (value_of sh) v (substituted o)) (events sh ++ [mk_event (expand (value_of sh) ws) [] n o false]) (exit_status sh)) = (sh', r).
Proof. unfold ex. cbn [exec]. unfold run_one. destruct (run _ _ _) as [n o]. eauto. Qed.

Lemma step_let4 v a b c d k sh sh' r : ex (Let v [a; b; c; d] k) sh = (sh', r) -> ok sh' r ->
  exists n1 o1 n2 o2 n3 o3 o4,
    run (events sh) (expand (value_of sh) a) [] = (n1, o1) /\
    (exists h, run h (expand (value_of sh) b) o1 = (n2, o2)) /\
    (exists h, run h (expand (value_of sh) c) o2 = (n3, o3)) /\
    (exists h, run h (expand (value_of sh) d) o3 = (0, o4)) /\
    ex k (mk_shell (set_value (value_of sh) v (substituted o4))
            (events sh ++ [mk_event (expand (value_of sh) a) [] n1 o1 false; mk_event (expand (value_of sh) b) o1 n2 o2 false;
                           mk_event (expand (value_of sh) c) o2 n3 o3 false; mk_event (expand (value_of sh) d) o3 0 o4 true]) (exit_status sh)) = (sh', r).
Proof.
  unfold ex. cbn [exec run_pipeline]. unfold run_one.
  destruct (run _ (expand _ a) _) as [n1 o1] eqn:R1. cbv zeta.
  destruct (run _ (expand _ b) _) as [n2 o2] eqn:R2. cbv zeta. rewrite <- app_assoc. cbn [app].
  destruct (run _ (expand _ c) _) as [n3 o3] eqn:R3. cbv zeta. rewrite <- app_assoc. cbn [app].
  destruct (run _ (expand _ d) _) as [n4 o4] eqn:R4. cbv zeta.
  destruct (Nat.eqb_spec n4 0) as [->|N].
  - rewrite <- app_assoc. cbn [app]. intros H _. exists n1, o1, n2, o2, n3, o3, o4. repeat split; eauto.
  - intros [= <- <-] F. now apply not_ok in F.
Qed.

End Run.

(** ** Words *)

Lemma bare_text d : forall acc, (forall c, In c d -> blank c = false) -> forall p,
  fold_left (fun r c => if blank c then flush r else add [c] r) d (acc, Some p) = (acc, Some (p ++ d)).
Proof.
  induction d as [|c d IH]; intros acc B p; cbn; [now rewrite app_nil_r|].
  rewrite (B c) by now left. cbn. rewrite IH by (intros; apply B; now right). now rewrite <- app_assoc.
Qed.

Lemma bare_start d acc : one_word d ->
  fold_left (fun r c => if blank c then flush r else add [c] r) d (acc, None) = (acc, Some d).
Proof.
  intros (N & B). destruct d as [|c d]; [now elim N|].
  assert (B' : forall x, In x (c :: d) -> blank x = false).
  { intros x I. destruct (B x I) as (A1 & A2 & A3). destruct x as [[] [] [] [] [] [] [] []]; try reflexivity; now elim A1 + elim A2 + elim A3. }
  cbn [fold_left]. rewrite (B' c) by now left. cbn [add]. rewrite bare_text; [reflexivity|intros; apply B'; now right].
Qed.

Lemma bare_word env v : one_word (env v) -> expand_word env [Bare v] = [env v].
Proof. intro O. unfold expand_word. cbn [fold_left expand_piece]. now rewrite bare_start. Qed.

Lemma bare_then env v s : one_word (env v) -> expand_word env [Bare v; Text s] = [env v ++ s].
Proof. intro O. unfold expand_word. cbn [fold_left expand_piece]. now rewrite bare_start. Qed.

Lemma then_bare env v s : one_word (env v) -> expand_word env [Text s; Bare v] = [s ++ env v].
Proof.
  intros (N & B). unfold expand_word. cbn [fold_left expand_piece add]. rewrite bare_text; [reflexivity|].
  intros x I. destruct (B x I) as (A1 & A2 & A3). destruct x as [[] [] [] [] [] [] [] []]; try reflexivity; now elim A1 + elim A2 + elim A3.
Qed.

(** ** Tools *)

Definition no_nl (x : str) : Prop := ~ In "010"%char x.

Lemma lines_from_line x : no_nl x -> forall line s, lines_from line (x ++ "010"%char :: s) = (line ++ x) :: lines_from [] s.
Proof.
  induction x as [|c x IH]; intros N line s; cbn [app].
  - cbn. now rewrite app_nil_r.
  - assert (C : c <> "010"%char) by (intros ->; apply N; now left).
    assert (N' : no_nl x) by (intro I; apply N; now right).
    transitivity (lines_from (line ++ [c]) (x ++ "010"%char :: s)).
    + destruct c as [[] [] [] [] [] [] [] []]; try reflexivity. now elim C.
    + rewrite IH by exact N'. now rewrite <- app_assoc.
Qed.

Lemma lines_unlines l : (forall x, In x l -> no_nl x) -> lines (unlines l) = l.
Proof.
  induction l as [|x l IH]; intro N; [reflexivity|].
  unfold unlines, lines. cbn [map concat]. rewrite <- app_assoc. cbn [app]. rewrite lines_from_line by (apply N; now left).
  cbn [app]. f_equal. apply IH. intros y I. apply N. now right.
Qed.

Lemma unlines_app a b : unlines (a ++ b) = unlines a ++ unlines b.
Proof. unfold unlines. now rewrite map_app, concat_app. Qed.

Lemma prefix_of_spec p : forall s, prefix_of p s = true <-> exists b, s = p ++ b.
Proof.
  induction p as [|a p IH]; intros s; cbn.
  - split; [eauto|reflexivity].
  - destruct s as [|b s]; [split; [discriminate|intros (x & E); discriminate]|].
    rewrite andb_true_iff, Ascii.eqb_eq, IH. split.
    + intros (-> & x & ->). eauto.
    + intros (x & E). injection E as -> ->. eauto.
Qed.

Lemma occurs_spec p : forall s, occurs p s = true <-> has p s.
Proof.
  unfold has. induction s as [|c s IH]; cbn [occurs]; rewrite orb_true_iff, prefix_of_spec.
  - split.
    + intros [(b & E)|E]; [|discriminate]. exists [], b. exact E.
    + intros (a & b & E). left. destruct a; [|discriminate]. eauto.
  - rewrite IH. split.
    + intros [(b & E)|(a & b & ->)]; [exists [], b; exact E|exists (c :: a), b; reflexivity].
    + intros ([|x a] & b & E); [left; eauto|]. cbn in E. injection E as -> ->. right. eauto.
Qed.

Lemma log_line_spec s : log_line s = true <-> id_line s.
Proof.
  unfold id_line. induction s as [|x s IH].
  - split; [discriminate|]. intros ([|] & c & b & E & _); discriminate.
  - destruct (ascii_dec x "#"%char) as [->|X].
    + destruct s as [|c s].
      * split; [discriminate|]. intros ([|y [|]] & c & b & E & _); discriminate.
      * change (log_line ("#"%char :: c :: s)) with ((space c && occurs (lit "Id:") s) || log_line (c :: s)).
        rewrite orb_true_iff, andb_true_iff, occurs_spec, IH. split.
        -- intros [(A & B)|(a & c' & b & E & A & B)]; [exists [], c, s; auto|exists ("#"%char :: a), c', b; rewrite E; auto].
        -- intros ([|y a] & c' & b & E & A & B); [left; now injection E as -> ->|]. right. injection E as _ E. exists a, c', b. auto.
    + transitivity (log_line s = true).
      * destruct x as [[] [] [] [] [] [] [] []]; try (split; intro H; exact H). now elim X.
      * rewrite IH. split.
        -- intros (a & c' & b & -> & A & B). exists (x :: a), c', b. auto.
        -- intros ([|y a] & c' & b & E & A & B); [injection E as -> _; now elim X|]. injection E as -> E. exists a, c', b. auto.
Qed.

Lemma grep_only f g text l : (forall s, g s = true <-> f s) -> only_line text f l -> grep g text = (0, unlines [l]).
Proof.
  intros G (before & after & -> & F & O & N). unfold grep. rewrite lines_unlines by exact N.
  rewrite filter_app. cbn [filter]. assert (g l = true) as -> by now apply G.
  assert (Z : forall xs, (forall x, In x xs -> ~ f x) -> filter g xs = []).
  { induction xs as [|x xs IHx]; intro Q; [reflexivity|]. cbn. destruct (g x) eqn:E.
    - apply G in E. now elim (Q x (or_introl eq_refl)).
    - apply IHx. intros y I. apply Q. now right. }
  rewrite !Z by (intros x I; apply O, in_or_app; auto). reflexivity.
Qed.

Lemma until_none sep s : ~ In sep s -> until sep s = s.
Proof.
  induction s as [|c s IH]; intro N; [reflexivity|]. cbn. destruct (Ascii.eqb_spec c sep) as [->|_]; [elim N; now left|].
  rewrite IH; [reflexivity|]. intro I. apply N. now right.
Qed.

Lemma second_after sep a b : ~ In sep a -> second_field sep (a ++ sep :: b) = until sep b.
Proof.
  induction a as [|c a IH]; intro N; cbn.
  - now rewrite Ascii.eqb_refl.
  - destruct (Ascii.eqb_spec c sep) as [->|_]; [elim N; now left|]. apply IH. intro I. apply N. now right.
Qed.

Lemma substituted_line s : s <> [] -> no_nl s -> substituted (unlines [s]) = s.
Proof.
  intros N L. unfold substituted, unlines. cbn [map concat]. rewrite app_nil_r, rev_app_distr. cbn [rev app].
  change (drop_nl ("010"%char :: rev s)) with (drop_nl (rev s)).
  destruct (rev s) as [|c r] eqn:E; [apply (f_equal (@rev ascii)) in E; rewrite rev_involutive in E; now elim N|].
  assert (C : c <> "010"%char) by (intros ->; apply L; apply in_rev; rewrite E; now left).
  assert (drop_nl (c :: r) = c :: r) as -> by (destruct c as [[] [] [] [] [] [] [] []]; try reflexivity; now elim C).
  rewrite <- E. apply rev_involutive.
Qed.

Lemma id_no_nl id : id_text id -> no_nl id.
Proof. intros (_ & H) I. now destruct (H _ I) as (_ & X & _). Qed.

Lemma id_colon id : id_text id -> ~ In ":"%char id.
Proof. intros (_ & H) I. now destruct (H _ I) as (X & _ & _). Qed.

Lemma id_skip id : id_text id -> skip_space (" "%char :: id) = id.
Proof.
  intros (N & H). destruct id as [|c id]; [now elim N|]. destruct (H c (or_introl eq_refl)) as (_ & _ & S).
  cbn. now rewrite S.
Qed.

(** grep, awk and sed, one after the other *)
Lemma id_taken f g text head id o : (forall s, g s = true <-> f s) -> id_text id -> ~ In ":"%char head ->
  only_line text f (head ++ ":"%char :: " "%char :: id) ->
  snd (sed (snd (awk ":"%char (snd (grep g text))))) = o -> substituted o = id.
Proof.
  intros G I C O <-. rewrite (grep_only f g text _ G O). cbn [snd].
  assert (N : no_nl (head ++ ":"%char :: " "%char :: id)) by (destruct O as (b & a & _ & _ & _ & N); apply N, in_or_app; right; now left).
  unfold awk, sed. cbn [snd]. rewrite (lines_unlines [_]) by (intros x [<-|[]]; exact N). cbn [map].
  rewrite second_after by exact C. rewrite until_none by (intros [E|E]; [discriminate|now apply (id_colon id)]).
  rewrite (lines_unlines [_]) by (intros x [<-|[]] [E|E]; [discriminate|now apply (id_no_nl id)]). cbn [map].
  rewrite id_skip by exact I. apply substituted_line; [apply I|now apply id_no_nl].
Qed.

(** echo "$text", if [text] has been assigned with $(...) *)
Lemma substituted_end u s : s <> [] -> no_nl s -> substituted (u ++ s ++ ["010"%char]) = u ++ s.
Proof.
  intros N L. unfold substituted. rewrite app_assoc, rev_app_distr. cbn [rev app].
  change (drop_nl ("010"%char :: rev (u ++ s))) with (drop_nl (rev (u ++ s))). rewrite rev_app_distr.
  destruct (rev s) as [|c r] eqn:E; [apply (f_equal (@rev ascii)) in E; rewrite rev_involutive in E; now elim N|].
  assert (C : c <> "010"%char) by (intros ->; apply L; apply in_rev; rewrite E; now left).
  assert (drop_nl ((c :: r) ++ rev u) = (c :: r) ++ rev u) as -> by (destruct c as [[] [] [] [] [] [] [] []]; try reflexivity; now elim C).
  rewrite <- E, <- rev_app_distr. apply rev_involutive.
Qed.

Lemma substituted_nl u : substituted (u ++ ["010"%char]) = substituted u.
Proof. unfold substituted. now rewrite rev_app_distr. Qed.

Lemma unlines_one x : unlines [x] = x ++ ["010"%char].
Proof. unfold unlines. cbn. apply app_nil_r. Qed.

Lemma echoed before l after : l <> [] -> (forall x, In x (before ++ l :: after) -> no_nl x) ->
  exists after', incl after' after /\ substituted (unlines (before ++ l :: after)) ++ ["010"%char] = unlines (before ++ l :: after').
Proof.
  intro L. induction after as [|x after IH] using rev_ind; intro N.
  - exists []. split; [intros y []|]. rewrite unlines_app, unlines_one, substituted_end; [now rewrite <- app_assoc|exact L|].
    apply N, in_or_app. right. now left.
  - assert (E : unlines (before ++ l :: after ++ [x]) = unlines (before ++ l :: after) ++ x ++ ["010"%char]).
    { now rewrite <- unlines_one, <- unlines_app, <- app_assoc. }
    destruct x as [|c x].
    + destruct IH as (after' & I & E'); [intros y Iy; apply N; apply in_app_or in Iy as [Iy|[->|Iy]]; apply in_or_app; [now left|right; now left|right; right; apply in_or_app; now left]|].
      exists after'. split; [intros y Iy; apply in_or_app; left; now apply I|]. rewrite E. cbn [app]. now rewrite substituted_nl.
    + exists (after ++ [c :: x]). split; [apply incl_refl|]. rewrite E, substituted_end; [now rewrite <- app_assoc|discriminate|].
      apply N, in_or_app. right. right. apply in_or_app. right. now left.
Qed.

Lemma only_echoed text f l : l <> [] -> only_line text f l -> only_line (substituted text ++ ["010"%char]) f l.
Proof.
  intros L (before & after & -> & F & O & N). destruct (echoed before l after L N) as (after' & I & E).
  exists before, after'. split; [exact E|]. split; [exact F|]. split.
  - intros x Ix. apply O. apply in_app_or in Ix as [Ix|Ix]; apply in_or_app; auto.
  - intros x Ix. apply N. apply in_app_or in Ix as [Ix|[->|Ix]]; apply in_or_app; [now left|right; now left|right; right; now apply I].
Qed.
