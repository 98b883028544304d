(** Proofs about references with steps upwards. *)

From Coq Require Import Ascii String Bool Arith Lia.
From Coq Require Import List.
From Verif Require Import Str Path PathProofs JsonModel DbModel LoadModel LoadSpec LocProofs StepSpec.
Import ListNotations.

Lemma step_proper c : step_name c -> proper c.
Proof. intros [H | [-> | ->]]; [apply ordinary_test; exact H|reflexivity..]. Qed.

Lemma steps_proper x : Forall step_name x -> Forall proper x.
Proof. intro H. eapply Forall_impl; [|exact H]. apply step_proper. Qed.

Lemma ordinary_proper x : Forall ordinary x -> Forall proper x.
Proof. intro H. eapply Forall_impl; [|exact H]. intros c C. apply ordinary_test. exact C. Qed.

Lemma follow_ordinary d x r : follow d x r -> Forall ordinary d -> Forall ordinary r.
Proof.
  induction 1 as [d|d x r F IH|d c x r F IH|d c x r C F IH]; intro D; auto.
  - apply IH. apply Forall_app in D. apply D.
  - apply IH. apply Forall_app. auto.
Qed.

Lemma fold_follow abs b d x r : follow d x r -> Forall ordinary d -> forall slash,
  exists slash', fold_left (normal_step abs) x (rev (b ++ d), slash) = (rev (b ++ r), slash').
Proof.
  induction 1 as [d|d x r F IH|d c x r F IH|d c x r C F IH]; intros D slash.
  - now exists slash.
  - cbn [fold_left]. apply (IH D true).
  - cbn [fold_left]. apply Forall_app in D. destruct D as [D C]. inversion C as [|? ? O _]; subst.
    replace (normal_step abs (rev (b ++ d ++ [c]), slash) dotdot) with (rev (b ++ d), true); [apply (IH D)|].
    rewrite app_assoc, (rev_app_distr (b ++ d) [c]). cbn [rev app normal_step is_nil dotdot].
    destruct (ordinary_test c O) as (_ & _ & E). change (lit "..") with dotdot. unfold normal_step.
    cbn [is_nil dotdot orb]. change (str_eqb dotdot dot) with false. change (str_eqb dotdot dotdot) with true.
    cbn [orb]. now rewrite E.
  - cbn [fold_left]. destruct (ordinary_test c C) as (E1 & E2 & E3).
    replace (normal_step abs (rev (b ++ d), slash) c) with (rev (b ++ d ++ [c]), false).
    + apply IH. apply Forall_app. auto.
    + unfold normal_step. rewrite E1, E2, E3. cbn [orb]. now rewrite app_assoc, rev_app_distr.
Qed.

Lemma follow_app d x y r : follow d (x ++ y) r -> exists m, follow d x m /\ follow m y r.
Proof.
  revert d. induction x as [|c x IH]; intros d F; [exists d; split; [constructor|exact F]|].
  cbn in F. inversion F as [|? ? ? G|? ? ? ? G|? ? ? ? O G]; subst; destruct (IH _ G) as (m & A & B);
    exists m; (split; [|exact B]); now constructor.
Qed.

Lemma follow_reference d x r : reference x -> follow d x r -> exists m c, r = m ++ [c] /\ ordinary c.
Proof.
  intros (_ & y & c & -> & C) F. apply follow_app in F. destruct F as (m & _ & F).
  inversion F as [|? ? ? G E|? ? ? ? G|? ? ? ? O G]; subst.
  - destruct C as (_ & C & _). congruence.
  - destruct C as (_ & _ & C & _). congruence.
  - inversion G; subst. eauto.
Qed.

(** The fold over a whole reference ends without a trailing separator. *)
Lemma fold_reference abs b d x r slash : reference x -> follow d x r -> Forall ordinary d ->
  fold_left (normal_step abs) x (rev (b ++ d), slash) = (rev (b ++ r), false).
Proof.
  intros (S & y & c & -> & C) F D.
  destruct (fold_follow abs b d (y ++ [c]) r F D slash) as (s' & E). rewrite E. f_equal.
  rewrite fold_left_app in E. cbn [fold_left] in E. destruct (fold_left (normal_step abs) y (rev (b ++ d), slash)) as [o sl].
  destruct (ordinary_test c C) as (E1 & E2 & E3). unfold normal_step in E. rewrite E1, E2, E3 in E. cbn [orb] in E.
  injection E as _ <-. reflexivity.
Qed.

Lemma normal_result abs cs b r : cs <> [] ->
  fold_left (normal_step abs) cs ([], false) = (rev (b ++ r), false) -> r <> [] ->
  lexically_normal (mk_path abs cs) = mk_path abs (b ++ r).
Proof.
  intros N E R. assert (Hr : exists d l, rev (b ++ r) = d :: l).
  { destruct (rev (b ++ r)) as [|d l] eqn:X; [|eauto]. apply (f_equal (@length _)) in X.
    rewrite rev_length, app_length in X. destruct r; [congruence|simpl in X; lia]. }
  destruct Hr as (d & l & Hr). unfold lexically_normal. cbn [absolute comps].
  destruct abs, cs as [|c cs]; try congruence; rewrite E, Hr; cbv iota; rewrite <- Hr, rev_involutive; simpl; now rewrite app_nil_r.
Qed.

Lemma normal_steps abs b d x r : normalised abs b -> Forall ordinary d -> reference x -> follow d x r ->
  lexically_normal (mk_path abs (b ++ d ++ x)) = mk_path abs (b ++ r).
Proof.
  intros B D X F. destruct (follow_reference d x r X F) as (m & c & E & _).
  apply normal_result; [|rewrite app_assoc, fold_left_app, fold_normalised by (now apply normalised_app); now apply fold_reference|].
  - destruct X as (_ & y & c' & -> & _). destruct b, d, y; discriminate.
  - rewrite E. destruct m; discriminate.
Qed.

Lemma reference_dot x : reference x -> reference (dot :: x).
Proof.
  intros (S & y & c & -> & C). split; [constructor; [right; now left|exact S]|]. exists (dot :: y), c. auto.
Qed.

Lemma reference_not_nil x : reference x -> x <> [].
Proof. intros (_ & y & c & -> & _). destruct y; discriminate. Qed.

Lemma append_fold_proper : forall a acc, Forall proper acc -> Forall proper a ->
    fold_left (fun acc c => append acc (mk_path false (if is_nil c then [] else [c]))) a (mk_path false acc) = mk_path false (acc ++ a).
Proof.
  induction a as [|c a IH]; intros acc Hacc Ha; cbn [fold_left].
  - rewrite app_nil_r. reflexivity.
  - inversion Ha as [|? ? E1 E2]; subst. unfold proper in E1. rewrite E1.
    rewrite append_names by (auto; discriminate). rewrite IH; auto; [rewrite <- app_assoc; reflexivity|].
    apply Forall_app. auto.
Qed.

(** What is left of a path after a prefix *)
Lemma relative_prefix abs b l : Forall proper l -> l <> [] ->
  lexically_relative (mk_path abs (b ++ l)) (mk_path abs b) = mk_path false l.
Proof.
  intros P N. unfold lexically_relative. cbn [absolute comps]. rewrite Bool.eqb_reflx. cbn [negb].
  rewrite mismatch_prefix. destruct l as [|c l]; [congruence|]. inversion P as [|? ? E1 E2]; subst. unfold proper in E1.
  cbn [count_up]. cbn [Nat.ltb Nat.leb Nat.eqb is_nil hd andb orb]. rewrite E1. cbn [Nat.sub repeat fold_left]. rewrite E1.
  change (append (mk_path false []) (mk_path false [c])) with (mk_path false [c]).
  apply (append_fold_proper l [c]); [constructor; [exact E1|constructor]|exact E2].
Qed.

Lemma relative_dot c l : ordinary c -> Forall proper l ->
  lexically_relative (mk_path false (c :: l)) (mk_path false [dot]) = mk_path false (c :: l).
Proof.
  intros C P. destruct (ordinary_test c C) as (E1 & E2 & E3).
  unfold lexically_relative. cbn [absolute comps Bool.eqb negb mismatch]. rewrite E2. cbn [count_up is_nil dot].
  change (is_nil dot || str_eqb dot dot) with true. cbv iota. cbn [Nat.ltb Nat.leb Nat.eqb is_nil hd andb orb Nat.sub repeat].
  rewrite E1. cbn [fold_left]. rewrite E1.
  change (append (mk_path false []) (mk_path false [c])) with (mk_path false [c]).
  apply (append_fold_proper l [c]); [constructor; [exact E1|constructor]|exact P].
Qed.

Section File.
Variables s t : path.
Variable d : list str.
Variable f : str.
Hypothesis Hs : directory_ok s.
Hypothesis Ht : directory_ok t.
Hypothesis Hd : Forall ordinary d.
Let src := append (inside s d) (mk_path false [f]).

Lemma inside_names base l : directory_ok base -> l <> [] ->
  inside base l = mk_path (absolute base) ((if path_eqb base (mk_path false [dot]) then [] else comps base) ++ l).
Proof.
  intros _ N. unfold inside. destruct (path_eqb base (mk_path false [dot])) eqn:E; [|reflexivity].
  apply path_eqb_eq in E. subst. destruct l; [congruence|reflexivity].
Qed.

(** The local part: from the directory of the file *)
Lemma normal_local base dir x r : directory_ok base -> Forall ordinary dir -> reference x -> follow dir x r ->
  lexically_normal (append (inside base dir) (mk_path false x)) = inside base r.
Proof.
  intros B D X F. destruct (follow_reference dir x r X F) as (m & c & E & _).
  assert (R : r <> []) by (rewrite E; destruct m; discriminate).
  rewrite (inside_names base r B R). destruct (path_eq_dec base (mk_path false [dot])) as [Eb|Nb].
  - subst base. rewrite (proj2 (path_eqb_eq _ _) eq_refl). cbn [absolute app]. rewrite inside_dot.
    destruct dir as [|c' dir'].
    + cbn [is_nil]. rewrite append_dot by now apply reference_not_nil.
      apply (normal_steps false [] [] (dot :: x) r); [now apply normalised_ordinary|constructor|now apply reference_dot|now constructor].
    + cbn [is_nil]. rewrite append_names; [|now apply ordinary_proper|now apply reference_not_nil].
      apply (normal_steps false [] (c' :: dir') x r); auto using normalised_ordinary.
  - destruct (inside_plain base dir B Nb) as [-> P]. rewrite (proj2 (path_eqb_neq _ _) Nb).
    rewrite append_names; [|eapply normalised_proper; now apply normalised_app; eauto|now apply reference_not_nil].
    rewrite <- app_assoc. now apply normal_steps.
Qed.

(** The same location relative to the directory, before it is normalised *)
Lemma relative_local base dir x : directory_ok base -> Forall ordinary dir -> reference x ->
  lexically_relative (append (inside base dir) (mk_path false x)) base = mk_path false (dir ++ x).
Proof.
  intros B D X. assert (N := reference_not_nil x X). assert (P : Forall proper x) by (apply steps_proper; apply X).
  assert (PD : Forall proper (dir ++ x)) by (apply Forall_app; split; [now apply ordinary_proper|exact P]).
  assert (ND : dir ++ x <> []) by (destruct dir; [exact N|discriminate]).
  destruct (path_eq_dec base (mk_path false [dot])) as [Eb|Nb].
  - subst base. rewrite inside_dot. destruct dir as [|c' dir'].
    + cbn [is_nil app]. rewrite append_dot by exact N. apply (relative_prefix false [dot] x P N).
    + cbn [is_nil]. rewrite append_names; [|now apply ordinary_proper|exact N].
      inversion D; subst. inversion PD; subst. now apply relative_dot.
  - destruct (inside_plain base dir B Nb) as [-> Pb]. destruct base as [abs b]. cbn [absolute comps] in *.
    rewrite append_names; [|eapply normalised_proper; now apply normalised_app; eauto|exact N].
    rewrite <- app_assoc. now apply relative_prefix.
Qed.

Lemma string_not_local_step x : reference x -> hd [] x <> dot ->
    match path_string (mk_path false x) with "."%char :: "/"%char :: _ => true | _ => false end = false.
Proof.
  intros X H. destruct x as [|c x]; [reflexivity|]. cbn [hd] in H. destruct X as (S & _). inversion S as [|? ? O _]; subst.
  destruct O as [O | [-> | ->]]; [|congruence|destruct x; reflexivity].
  clear H. destruct O as (H1 & H2 & _ & H4).
  assert (X : exists r, path_string (mk_path false (c :: x)) = c ++ r).
  { unfold path_string. simpl. destruct x; [exists []; rewrite app_nil_r; auto|eauto]. }
  destruct X as (r & ->). destruct c as [|a c]; [congruence|].
  destruct c as [|y c].
  - destruct (ascii_dec a ".") as [->|Hx]; [exfalso; apply H2; reflexivity|].
    simpl. destruct a as [b0 b1 b2 b3 b4 b5 b6 b7]. destruct b0, b1, b2, b3, b4, b5, b6, b7; try reflexivity. congruence.
  - simpl. assert (Hy : y <> "/"%char) by (intro; subst; apply H4; simpl; auto).
    destruct a as [b0 b1 b2 b3 b4 b5 b6 b7]. destruct b0, b1, b2, b3, b4, b5, b6, b7; try reflexivity.
    destruct y as [b0 b1 b2 b3 b4 b5 b6 b7]. destruct b0, b1, b2, b3, b4, b5, b6, b7; try reflexivity. congruence.
Qed.

Lemma inside_top base : directory_ok base -> inside base [] = base.
Proof.
  intros _. unfold inside. destruct (path_eqb base (mk_path false [dot])) eqn:E.
  - apply path_eqb_eq in E. now subst.
  - rewrite app_nil_r. now destruct base.
Qed.

Lemma local_steps x r : reference x -> follow d x r ->
  prepend_search_path src s t (mk_path false (dot :: x)) Project = inside s r /\
  make_target_name src s t (mk_path false x) = inside t r /\
  prepend_search_path src s t (mk_path false (dot :: x)) Generated = inside t r.
Proof.
  intros X F. assert (N := reference_not_nil x X).
  assert (R : r <> []) by (destruct (follow_reference d x r X F) as (m & c & -> & _); destruct m; discriminate).
  assert (O : Forall ordinary r) by exact (follow_ordinary d x r F Hd).
  assert (Q := normal_local s d (dot :: x) r Hs Hd (reference_dot x X) (follow_stay d x r F)).
  destruct (string_local x N) as [str' Hr].
  unfold prepend_search_path, make_target_name. unfold src. rewrite file_dir by assumption. rewrite Hr. cbv iota beta zeta.
  rewrite Q. rewrite inside_normal by assumption. split; [reflexivity|]. split.
  - rewrite (relative_local s d x Hs Hd X). destruct d as [|c0 d0] eqn:Ed.
    + cbn [app]. rewrite <- (inside_top t Ht) at 1. now apply normal_local.
    + rewrite <- Ed in *. assert (X' : reference (d ++ x)).
      { destruct X as (S & y & c & -> & C). split.
        - apply Forall_app. split; [|exact S]. eapply Forall_impl; [|exact Hd]. intros; now left.
        - exists (d ++ y), c. rewrite app_assoc. auto. }
      rewrite <- (inside_top t Ht) at 1. apply normal_local; [exact Ht|constructor|exact X'|].
      clear - Hd F. enough (G : forall l m, Forall ordinary l -> follow (m ++ l) x r -> follow m (l ++ x) r) by now apply (G d []).
      clear. induction l as [|c l IH]; intros m L F; [now rewrite app_nil_r in F|].
      inversion L; subst. cbn. apply follow_down; [assumption|]. apply IH; [assumption|]. now rewrite <- app_assoc.
  - rewrite (relative_inside s r Hs O R). now apply append_target.
Qed.

Lemma global_steps x r : reference x -> hd [] x <> dot -> follow [] x r ->
  prepend_search_path src s t (mk_path false x) Project = inside s r /\
  prepend_search_path src s t (mk_path false x) Generated = inside t r.
Proof.
  intros X H F. assert (N := reference_not_nil x X).
  unfold prepend_search_path. rewrite (string_not_local_step x X H). cbv iota beta zeta.
  pose proof (normal_local s [] x r Hs (Forall_nil _) X F) as Q. rewrite (inside_top s Hs) in Q.
  pose proof (relative_local s [] x Hs (Forall_nil _) X) as L. rewrite (inside_top s Hs) in L. cbn [app] in L.
  pose proof (normal_local t [] x r Ht (Forall_nil _) X F) as Qt. rewrite (inside_top t Ht) in Qt.
  split; [exact Q|]. now rewrite L.
Qed.
End File.

(** ** Targets of a file *)

Lemma map_all_in {X Y} (f : X -> option Y) l ys : map_all f l = Some ys ->
  forall y, In y ys -> exists x, In x l /\ f x = Some y.
Proof.
  revert ys. induction l as [|x l IH]; intros ys E y I; cbn [map_all] in E; [injection E as <-; contradiction|].
  destruct (f x) as [y0|] eqn:F; [|discriminate]. destruct (map_all f l) as [ys0|]; [|discriminate]. injection E as <-.
  destruct I as [<- | I]; [exists x; split; [now left|exact F]|]. destruct (IH ys0 eq_refl y I) as (x' & A & B).
  exists x'. split; [now right|exact B].
Qed.

Lemma target_declared src s t o ti : get_target src s t o = Some ti ->
  exists n, obj_get (lit "name") o = Some (JString n) /\ ti_name ti = make_target_name src s t (parse_path n).
Proof.
  unfold get_target. intro E. unfold get at 1 in E. destruct (obj_get (lit "name") o) as [j|]; [|discriminate].
  destruct j; try discriminate E. cbn [as_string] in E. exists s0. split; [reflexivity|].
  destruct (get_dependencies src s t "dependencies" System o); [|discriminate].
  destruct (get_if as_array (lit "pkgconfig_libs") o) as [libs|]; [|discriminate].
  destruct (map_all as_string _); [|discriminate]. now injection E as <-.
Qed.

Lemma targets_declared src s t tags ts : get_targets src s t tags = Some ts ->
  forall ti, In ti ts -> exists n, declares tags n /\ ti_name ti = make_target_name src s t (parse_path n).
Proof.
  unfold get_targets, get_if. intros E ti I.
  assert (A : forall (o : option compound) l1, map_all (get_target src s t) match o with Some t => [t] | None => [] end = Some l1 ->
            obj_get (lit "target") tags = option_map JObject o -> In ti l1 ->
            exists n, declares tags n /\ ti_name ti = make_target_name src s t (parse_path n)).
  { intros o l1 M G J. destruct (map_all_in _ _ _ M ti J) as (x & Ix & Ex). destruct o as [o|]; [|contradiction].
    destruct Ix as [<- | []]. destruct (target_declared _ _ _ _ _ Ex) as (n & N & T). exists n. split; [|exact T].
    exists o. split; [exact N|]. now left. }
  assert (B : forall (o : option (list json)) l2,
            map_all (fun item => match as_object item with Some x => get_target src s t x | None => None end)
              match o with Some l => l | None => [] end = Some l2 ->
            obj_get (lit "targets") tags = option_map JArray o -> In ti l2 ->
            exists n, declares tags n /\ ti_name ti = make_target_name src s t (parse_path n)).
  { intros o l2 M G J. destruct (map_all_in _ _ _ M ti J) as (x & Ix & Ex). destruct o as [l|]; [|contradiction].
    destruct x as [o| | | | | | |]; try discriminate Ex. cbn [as_object] in Ex.
    destruct (target_declared _ _ _ _ _ Ex) as (n & N & T). exists n. split; [|exact T].
    exists o. split; [exact N|]. right. now exists l. }
  destruct (obj_get (lit "target") tags) as [j1|] eqn:G1.
  - destruct j1 as [o1| | | | | | |]; try discriminate E. cbn [as_object option_map] in E.
    destruct (obj_get (lit "targets") tags) as [j2|] eqn:G2.
    + destruct j2 as [|l2'| | | | | |]; try discriminate E. cbn [as_array option_map] in E.
      match type of E with (match ?m with _ => _ end) = _ => destruct m as [x1|] eqn:M1; [|discriminate E] end.
      match type of E with (match ?m with _ => _ end) = _ => destruct m as [x2|] eqn:M2; [|discriminate E] end. injection E as <-. apply in_app_or in I.
      destruct I as [I | I]; [now apply (A (Some o1) x1)|now apply (B (Some l2') x2)].
    + match type of E with (match ?m with _ => _ end) = _ => destruct m as [x1|] eqn:M1; [|discriminate E] end. cbn [map_all] in E. injection E as <-.
      rewrite app_nil_r in I. now apply (A (Some o1) x1).
  - destruct (obj_get (lit "targets") tags) as [j2|] eqn:G2.
    + destruct j2 as [|l2'| | | | | |]; try discriminate E. cbn [as_array option_map] in E. cbn [map_all] in E.
      match type of E with (match ?m with _ => _ end) = _ => destruct m as [x2|] eqn:M2; [|discriminate E] end. injection E as <-. now apply (B (Some l2') x2).
    + cbn [map_all] in E. injection E as <-. contradiction.
Qed.

Lemma loaded_targets src s t parse resolve configure script_tags builtin l content info tags :
  load_source_file src s t parse resolve configure script_tags builtin l content = Some info ->
  parse (snd (filter_input l content)) = Some tags ->
  forall ti, In ti (targets info) -> exists n,
    (declares tags n \/ exists c st, script_tags c src = Some st /\ declares st n) /\
    ti_name ti = make_target_name src s t (parse_path n).
Proof.
  intros H P ti I. unfold load_source_file in H. destruct (filter_input l content) as [source tag_text].
  cbn [snd] in P. rewrite P in H.
  destruct (get_targets src s t tags) as [ts|] eqn:T; [|discriminate].
  destruct (get_use_deps src s t tags) eqn:U; [|discriminate].
  destruct (get_child_target_use_deps src s t tags) eqn:X; [|discriminate].
  destruct (get_if compiler_of_json (lit "compiler") tags) as [own|] eqn:C; [|discriminate].
  destruct (match own with None => Some None | Some c => option_map Some (resolve_recipe resolve configure c) end) as [own'|]; [|discriminate].
  set (c := match own' with Some c => c | None => loader_compiler l end) in H. cbv zeta in H.
  destruct (use_get_tags c).
  - destruct (script_tags c src) as [st|] eqn:S; [|discriminate].
    destruct (get_targets src s t st) as [ts'|] eqn:T'; [|discriminate].
    destruct (get_use_deps src s t st); [|discriminate].
    destruct (get_child_target_use_deps src s t st); [|discriminate].
    match type of H with (match ?m with _ => _ end) = _ => destruct m; [|discriminate] end.
    injection H as <-. cbn [targets] in I. apply in_app_or in I. destruct I as [I | I].
    + destruct (targets_declared _ _ _ _ _ T ti I) as (n & D & E). eauto.
    + destruct (targets_declared _ _ _ _ _ T' ti I) as (n & D & E). exists n. split; [right; eauto|exact E].
  - match type of H with (match ?m with _ => _ end) = _ => destruct m; [|discriminate] end.
    injection H as <-. cbn [targets] in I. rewrite app_nil_r in I.
    destruct (targets_declared _ _ _ _ _ T ti I) as (n & D & E). eauto.
Qed.

Lemma targets_inside s t d f parse resolve configure script_tags builtin l content info tags :
  directory_ok s -> directory_ok t -> Forall ordinary d ->
  let src := append (inside s d) (mk_path false [f]) in
  load_source_file src s t parse resolve configure script_tags builtin l content = Some info ->
  parse (snd (filter_input l content)) = Some tags ->
  (forall n, declares tags n \/ (exists c st, script_tags c src = Some st /\ declares st n) ->
     exists x r, parse_path n = mk_path false x /\ reference x /\ follow d x r) ->
  forall ti, In ti (targets info) ->
    exists r, r <> [] /\ Forall ordinary r /\ ti_name ti = inside t r.
Proof.
  intros Hs Ht Hd src H P N ti I. destruct (loaded_targets _ _ _ _ _ _ _ _ _ _ _ _ H P ti I) as (n & D & E).
  destruct (N n D) as (x & r & Ex & X & F). exists r. rewrite E, Ex.
  split; [destruct (follow_reference d x r X F) as (m & c & -> & _); destruct m; discriminate|].
  split; [exact (follow_ordinary d x r F Hd)|]. apply (local_steps s t d f Hs Ht Hd x r X F).
Qed.

Definition plain_loader : loader :=
  mk_loader (fun text => ([], text)) (fun _ => []) (mk_compiler empty_path None [] false) false.

Definition named (n : str) : compound := [(lit "target", JObject [(lit "name", JString n)])].

Lemma outside_case : exists s t d f resolve configure script_tags n info ti,
  directory_ok s /\ directory_ok t /\ Forall ordinary d /\
  let src := append (inside s d) (mk_path false [f]) in
  load_source_file src s t (fun _ => Some (named n)) resolve configure script_tags [] plain_loader [] = Some info /\
  In ti (targets info) /\ ti_name ti = lexically_normal src.
Proof.
  exists (mk_path false [dot]), (mk_path false [lit "__targets"]), [], (lit "a.cpp"),
    (fun p => Some (p, Project)), (fun _ c => Some c), (fun _ _ => None), (lit "../a.cpp").
  eexists. exists (mk_target_info (mk_path false [lit "a.cpp"]) []).
  split; [now left|]. split; [right; split; [|right; discriminate]|].
  - exists 0, [lit "__targets"]. split; [reflexivity|]. split; [|reflexivity].
    constructor; [|constructor]. repeat split; try discriminate. cbn. intro H. repeat (destruct H as [H|H]; [discriminate H|]). exact H.
  - split; [constructor|]. split; [reflexivity|]. split; [now left|reflexivity].
Qed.

Lemma absolute_case : exists s t d f n1 n2,
  directory_ok s /\ directory_ok t /\ Forall ordinary d /\ parse_path n1 <> parse_path n2 /\
  let src := append (inside s d) (mk_path false [f]) in
  make_target_name src s t (parse_path n1) = make_target_name src s t (parse_path n2).
Proof.
  exists (mk_path false [dot]), (mk_path false [lit "__targets"]), [], (lit "a.cpp"), (lit "/opt/a"), (lit "/opt/b").
  split; [now left|]. split; [right; split; [|right; discriminate]|].
  - exists 0, [lit "__targets"]. split; [reflexivity|]. split; [|reflexivity].
    constructor; [|constructor]. repeat split; try discriminate. cbn. intro H. repeat (destruct H as [H|H]; [discriminate H|]). exact H.
  - split; [constructor|]. split; [discriminate|reflexivity].
Qed.
