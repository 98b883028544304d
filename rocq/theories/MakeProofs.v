(** What recipes make. *)

From Coq Require Import Ascii String ZArith Bool Lia.
From Coq Require Import List.
From Verif Require Import Str PathProofs RecipeModel MakeModel MakeSpec.
Import ListNotations.

Lemma set_same : forall t c F, set_file t c F t = Some c.
Proof. intros t c F. unfold set_file. rewrite (proj2 (str_eqb_eq t t) eq_refl). reflexivity. Qed.

Lemma set_other : forall t c F q, q <> t -> set_file t c F q = F q.
Proof. intros t c F q H. unfold set_file. destruct (str_eqb q t) eqn:E; auto. apply str_eqb_eq in E. contradiction. Qed.

Lemma py_exit_zero : forall r, (forall n, r = Some n -> (-255 <= n <= 255)%Z) -> py_exit r = 0%Z -> r = Some 0%Z.
Proof.
  intros [n|] H E; cbn in E; [|discriminate]. specialize (H n eq_refl). f_equal.
  apply Z.mod_divide in E; [|lia]. destruct E as [k E]. lia.
Qed.

Section Make.
  Variable run : list str -> files -> files * option Z.
  Variable writable : str -> bool.

  Lemma copy_all_true : forall source targets F F', copy_all writable source targets F = (F', true) ->
      (forall t, In t targets -> F' t = F source) /\ (forall q, ~ In q targets -> F' q = F q) /\
      ~ In source targets /\ (targets <> [] -> F source <> None).
  Proof.
    intros source targets. induction targets as [|t ts IH]; intros F F' H.
    - injection H as <-. repeat split; auto. intros t [].
    - cbn [copy_all] in H. unfold copyfile in H.
      destruct (str_eqb source t) eqn:E; [discriminate|].
      destruct (F source) as [c|] eqn:Es; [|discriminate]. destruct (writable t); [|discriminate].
      assert (Hn : source <> t) by (intro X; rewrite (proj2 (str_eqb_eq _ _) X) in E; discriminate).
      destruct (IH _ _ H) as (H1 & H2 & H3 & H4). rewrite set_other in H1 by auto. rewrite Es in H1.
      split; [|split; [|split]].
      + intros q Hq. destruct (in_dec (list_eq_dec Ascii.ascii_dec) q ts) as [Hi|Hi]; [auto|].
        destruct Hq as [<-|Hq]; [|contradiction]. rewrite H2 by auto. apply set_same.
      + intros q Hq. rewrite H2 by (intro; apply Hq; right; auto). apply set_other. intros ->. apply Hq. left. reflexivity.
      + intros [X|X]; [congruence|auto].
      + discriminate.
  Qed.

  Theorem copied : forall source targets F F', copy_file writable source targets F = (F', 0%Z) ->
      (forall t, In t targets -> F' t = F source) /\ (forall q, ~ In q targets -> F' q = F q).
  Proof.
    intros source targets F F' H. unfold copy_file in H. destruct (copy_all writable source targets F) as [F1 []] eqn:E; [|discriminate].
    injection H as <-. destruct (copy_all_true _ _ _ _ E) as (H1 & H2 & _). auto.
  Qed.

  Lemma write_all_true : forall c targets F F', write_all writable c targets F = (F', true) ->
      (forall t, In t targets -> F' t = Some c) /\ (forall q, ~ In q targets -> F' q = F q).
  Proof.
    intros c targets. induction targets as [|t ts IH]; intros F F' H.
    - injection H as <-. split; auto. intros t [].
    - cbn [write_all] in H. destruct (writable t); [|discriminate]. destruct (IH _ _ H) as (H1 & H2). split.
      + intros q Hq. destruct (in_dec (list_eq_dec Ascii.ascii_dec) q ts) as [Hi|Hi]; [auto|].
        destruct Hq as [<-|Hq]; [|contradiction]. rewrite H2 by auto. apply set_same.
      + intros q Hq. rewrite H2 by (intro; apply Hq; right; auto). apply set_other. intros ->. apply Hq. left. reflexivity.
  Qed.

  Theorem converted : forall sass source targets F F', sass2css writable sass source targets F = (F', 0%Z) ->
      exists text css, F source = Some text /\ sass text = Some css /\
        (forall t, In t targets -> F' t = Some css) /\ (forall q, ~ In q targets -> F' q = F q).
  Proof.
    intros sass source targets F F' H. unfold sass2css in H. destruct targets as [|t ts]; [discriminate|].
    destruct (F source) as [text|] eqn:Es; [|discriminate]. destruct (sass text) as [css|] eqn:Ec; [|discriminate].
    destruct (write_all writable css (t :: ts) F) as [F1 []] eqn:E; [|discriminate]. injection H as <-.
    exists text, css. destruct (write_all_true _ _ _ _ E). auto.
  Qed.

  (** When copying succeeds *)
  Lemma copy_all_snd : forall source targets F, snd (copy_all writable source targets F) = true <->
      (targets <> [] -> F source <> None) /\ ~ In source targets /\ forall t, In t targets -> writable t = true.
  Proof.
    intros source targets. induction targets as [|t ts IH]; intro F.
    - cbn. split; [|reflexivity]. intros _. repeat split; auto.
    - cbn [copy_all]. unfold copyfile. destruct (str_eqb source t) eqn:E.
      + apply str_eqb_eq in E. subst t. cbn. split; [discriminate|]. intros (_ & H & _). exfalso. apply H. left. reflexivity.
      + assert (Hn : source <> t) by (intro X; rewrite (proj2 (str_eqb_eq _ _) X) in E; discriminate).
        destruct (F source) as [c|] eqn:Es; [|cbn; split; [discriminate|]; intros (H & _); exfalso; apply H; [discriminate|reflexivity]].
        destruct (writable t) eqn:Ew; [|cbn; split; [discriminate|]; intros (_ & _ & H); rewrite (H t) in Ew by (left; reflexivity); discriminate].
        rewrite IH. rewrite set_other by auto. rewrite Es. split.
        * intros (_ & H2 & H3). split; [discriminate|]. split; [intros [X|X]; [congruence|auto]|].
          intros q [<-|Hq]; auto.
        * intros (_ & H2 & H3). split; [discriminate|]. split; [intro X; apply H2; right; exact X|].
          intros q Hq. apply H3. right. exact Hq.
  Qed.

  Theorem copy_succeeds : forall source targets F, snd (copy_file writable source targets F) = 0%Z <->
      (targets <> [] -> F source <> None) /\ ~ In source targets /\ forall t, In t targets -> writable t = true.
  Proof.
    intros source targets F. rewrite <- copy_all_snd with (F := F). unfold copy_file.
    destruct (copy_all writable source targets F) as [F' []]; cbn; split; congruence.
  Qed.

  (** What a copy leaves behind, whether it succeeds or not *)
  Lemma copy_all_any : forall source targets F q, 
      fst (copy_all writable source targets F) q = F q \/
      (In q targets /\ F source <> None /\ fst (copy_all writable source targets F) q = F source).
  Proof.
    intros source targets. induction targets as [|t ts IH]; intros F q; [left; reflexivity|].
    cbn [copy_all]. unfold copyfile. destruct (str_eqb source t) eqn:E; [left; reflexivity|].
    assert (Hn : source <> t) by (intro X; rewrite (proj2 (str_eqb_eq _ _) X) in E; discriminate).
    destruct (F source) as [c|] eqn:Es; [|left; reflexivity]. destruct (writable t); [|left; reflexivity].
    destruct (IH (set_file t c F) q) as [H|(H1 & H2 & H3)].
    - rewrite H. unfold set_file. destruct (str_eqb q t) eqn:Eq; [|left; reflexivity]. apply str_eqb_eq in Eq. subst q.
      right. split; [left; reflexivity|]. split; [discriminate|reflexivity].
    - rewrite set_other, Es in H3 by auto. right. split; [right; exact H1|]. split; [discriminate|exact H3].
  Qed.

  Theorem copy_leaves : forall source targets F q,
      fst (copy_file writable source targets F) q = F q \/
      (In q targets /\ F source <> None /\ fst (copy_file writable source targets F) q = F source).
  Proof.
    intros source targets F q. pose proof (copy_all_any source targets F q) as H. unfold copy_file.
    destruct (copy_all writable source targets F) as [F' []]; exact H.
  Qed.

  Lemma write_all_snd : forall c targets F, snd (write_all writable c targets F) = true <-> forall t, In t targets -> writable t = true.
  Proof.
    intros c targets. induction targets as [|t ts IH]; intro F.
    - cbn. split; [intros _ t []|reflexivity].
    - cbn [write_all]. destruct (writable t) eqn:E.
      + rewrite IH. split; intros H q Hq; [destruct Hq as [<-|Hq]; auto|apply H; right; exact Hq].
      + cbn. split; [discriminate|]. intro H. rewrite (H t) in E by (left; reflexivity). discriminate.
  Qed.

  Theorem convert_succeeds : forall sass source targets F, snd (sass2css writable sass source targets F) = 0%Z <->
      targets <> [] /\ (exists text css, F source = Some text /\ sass text = Some css) /\ forall t, In t targets -> writable t = true.
  Proof.
    intros sass source targets F. unfold sass2css. destruct targets as [|t0 ts].
    - cbn. split; [discriminate|]. intros (H & _). contradiction.
    - destruct (F source) as [text|]; [|cbn; split; [discriminate|]; intros (_ & (x & y & H & _) & _); discriminate].
      destruct (sass text) as [css|] eqn:Ec; [|cbn; split; [discriminate|]; intros (_ & (x & y & H & H') & _); congruence].
      rewrite <- (write_all_snd css (t0 :: ts) F). destruct (write_all writable css (t0 :: ts) F) as [F' []]; cbn; split; try discriminate; intros.
      + split; [discriminate|]. split; [exists text, css; auto|reflexivity].
      + reflexivity.
      + destruct H as (_ & _ & H). discriminate.
  Qed.

  Definition tidy_args (source : str) (args : list str) : list str :=
    [lit "clang-tidy"; source; lit "--"; lit "-Wno-unknown-warning-option"] ++ args.

  Lemma checks_leave_alone : forall args source t ts link execute sanitize r F,
      leaves_alone run [t] ts -> leaves_alone run (tidy_args source args) ts ->
      forall q, In q ts -> fst (check_result run args source t link execute sanitize r F) q = F q.
  Proof.
    intros args source t ts link execute sanitize r F H1 H2 q Hq. unfold check_result.
    assert (X : exists F1 r1, (if execute && (r =? 0)%Z then if link then run [t] F else (F, None) else (F, Some r)) = (F1, r1) /\ F1 q = F q).
    { destruct (execute && _); [destruct link|].
      - exists (fst (run [t] F)), (snd (run [t] F)). split; [destruct (run [t] F); reflexivity|]. apply H1, Hq.
      - do 2 eexists. split; reflexivity.
      - do 2 eexists. split; reflexivity. }
    destruct X as (F1 & r1 & -> & <-). destruct r1 as [n|]; [|reflexivity].
    destruct (sanitize && _); [|reflexivity]. apply (H2 F1 q Hq).
  Qed.

  (** Everything but the checks succeeds, and so do the targets get made. *)
  Theorem compiled : forall args source t others link execute sanitize F F' code content,
      makes run args F t content ->
      leaves_alone run [t] (t :: others) -> leaves_alone run (tidy_args source args) (t :: others) ->
      cxx_compiler run writable false args source (t :: others) link execute sanitize F = (F', code) ->
      snd (copy_all writable t others (fst (run args F))) = true ->
      forall q, In q (t :: others) -> F' q = Some content.
  Proof.
    intros args source t others link execute sanitize F F' code content (M1 & M2 & M3) L1 L2 H Hc q Hq.
    unfold cxx_compiler in H. destruct (run args F) as [F1 r] eqn:E1. cbn [fst snd] in *. subst r.
    destruct (copy_all writable t others F1) as [F2 b] eqn:E2. cbn [snd] in Hc. subst b.
    destruct (copy_all_true _ _ _ _ E2) as (C1 & C2 & C3 & _).
    assert (HF : F2 q = Some content).
    { destruct (in_dec (list_eq_dec Ascii.ascii_dec) q others) as [Hi|Hi].
      - rewrite C1 by auto. exact M2.
      - destruct Hq as [<-|Hq]; [|contradiction]. rewrite C2 by auto. exact M2. }
    pose proof (checks_leave_alone args source t (t :: others) link execute sanitize 0%Z F2 L1 L2 q Hq) as X.
    destruct (check_result run args source t link execute sanitize 0 F2) as [F3 r3]. cbn [fst] in X.
    injection H as <- <-. congruence.
  Qed.

  Theorem compiled_all : forall header args source t others link execute sanitize F F' ,
      ordinary_codes run ->
      (forall F r, run args F = (r, Some 0%Z) -> exists content, makes run args F t content) ->
      leaves_alone run [t] (t :: others) -> leaves_alone run (tidy_args source args) (t :: others) ->
      cxx_compiler run writable header args source (t :: others) link execute sanitize F = (F', 0%Z) ->
      header = true \/ exists content, makes run args F t content /\ forall q, In q (t :: others) -> F' q = Some content.
  Proof.
    intros header args source t others link execute sanitize F F' Ho M L1 L2 H.
    destruct header; [left; reflexivity|right].
    assert (Hr : snd (run args F) = Some 0%Z /\ snd (copy_all writable t others (fst (run args F))) = true).
    { unfold cxx_compiler in H. pose proof (Ho args F) as Ho1. destruct (run args F) as [F1 [r|]] eqn:E1; [|discriminate].
      cbn [fst snd] in *. destruct (copy_all writable t others F1) as [F2 []]; [|discriminate]. split; [|reflexivity].
      destruct (check_result run args source t link execute sanitize r F2) as [F3 r3] eqn:E3.
      injection H as <- Hp. assert (r3 = Some 0%Z).
      { apply py_exit_zero; [|exact Hp]. intros n ->. unfold check_result in E3.
        destruct (execute && (r =? 0)%Z).
        - destruct link; [|discriminate]. pose proof (Ho [t] F2) as Ho2. destruct (run [t] F2) as [F4 [r4|]]; [|discriminate].
          destruct (sanitize && (r4 =? 0)%Z).
          + apply (Ho (tidy_args source args) F4). unfold tidy_args. rewrite E3. reflexivity.
          + injection E3 as _ ->. apply Ho2. reflexivity.
        - destruct (sanitize && (r =? 0)%Z).
          + apply (Ho (tidy_args source args) F2). unfold tidy_args. rewrite E3. reflexivity.
          + injection E3 as _ ->. apply Ho1. reflexivity. }
      subst r3. f_equal. unfold check_result in E3. destruct (r =? 0)%Z eqn:Ez; [apply Z.eqb_eq; exact Ez|].
      rewrite andb_false_r in E3. rewrite Ez, andb_false_r in E3. injection E3 as _ ->. reflexivity. }
    destruct Hr as [Hr Hc]. destruct (run args F) as [F1 r] eqn:E1. cbn in Hr. subst r.
    destruct (M F F1 E1) as [content Hm]. exists content. split; auto.
    rewrite <- E1 in *. eapply compiled; eauto.
  Qed.

  (** A check that fails *)
  Theorem check_failed : forall args source t others link execute sanitize F F' code content,
      makes run args F t content ->
      leaves_alone run [t] (t :: others) -> leaves_alone run (tidy_args source args) (t :: others) ->
      cxx_compiler run writable false args source (t :: others) link execute sanitize F = (F', code) ->
      snd (copy_all writable t others (fst (run args F))) = true ->
      code <> 0%Z -> (execute = true \/ sanitize = true) /\ forall q, In q (t :: others) -> F' q = Some content.
  Proof.
    intros args source t others link execute sanitize F F' code content M L1 L2 H Hc Hz.
    split; [|eapply compiled; eauto].
    destruct execute; [auto|]. destruct sanitize; [auto|]. exfalso. apply Hz.
    destruct M as (M1 & _). unfold cxx_compiler in H. destruct (run args F) as [F1 r]. cbn [fst snd] in *. subst r.
    destruct (copy_all writable t others F1) as [F2 b]. cbn [snd] in Hc. subst b. injection H as _ <-. reflexivity.
  Qed.

  (** When compiling succeeds *)
  Theorem compile_succeeds : forall args source t others link execute sanitize F, ordinary_codes run ->
      (snd (cxx_compiler run writable false args source (t :: others) link execute sanitize F) = 0%Z <->
       exists F1 F2 F3, run args F = (F1, Some 0%Z) /\
         copy_all writable t others F1 = (F2, true) /\
         (if execute then link = true /\ run [t] F2 = (F3, Some 0%Z) else F3 = F2) /\
         (sanitize = true -> snd (run (tidy_args source args) F3) = Some 0%Z)).
  Proof.
    intros args source t others link execute sanitize F Ho.
    unfold cxx_compiler. pose proof (Ho args F) as Ho1. destruct (run args F) as [F1 [r|]] eqn:E1; cbn [snd] in *.
    2:{ split; [discriminate|]. intros (? & ? & ? & H & _). discriminate. }
    specialize (Ho1 r eq_refl). destruct (copy_all writable t others F1) as [F2 b] eqn:E2.
    destruct b.
    2:{ cbn. split; [discriminate|]. intros (F1' & ? & ? & H & H' & _). injection H as <- ->. congruence. }
    destruct (Z.eqb_spec r 0) as [->|Hr].
    - unfold check_result. rewrite Z.eqb_refl, !andb_true_r.
      assert (Q : forall n, (-255 <= n <= 255)%Z -> (py_exit (Some n) = 0%Z <-> n = 0%Z)).
      { intros n Hn. split; [|intros ->; reflexivity]. intro H. apply py_exit_zero in H; [congruence|].
        intros m Hm. injection Hm as <-. exact Hn. }
      destruct execute.
      + destruct link; [|cbn; split; [discriminate|]; intros (? & ? & ? & _ & _ & (H & _) & _); discriminate].
        pose proof (Ho [t] F2) as Ho2. destruct (run [t] F2) as [F3 [r3|]] eqn:E3; cbn [snd] in *.
        2:{ split; [discriminate|]. intros (a1 & a2 & a3 & H & H' & (_ & H2) & _). injection H as <-. rewrite E2 in H'. injection H' as <-. congruence. }
        specialize (Ho2 r3 eq_refl). destruct (Z.eqb_spec r3 0) as [->|Hr3].
        * rewrite andb_true_r. destruct sanitize.
          -- fold (tidy_args source args). pose proof (Ho (tidy_args source args) F3) as Ho3.
             destruct (run (tidy_args source args) F3) as [F4 r4] eqn:E4. cbn [snd] in *. split.
             ++ intro H. apply py_exit_zero in H; [|intros; apply Ho3; auto]. exists F1, F2, F3. rewrite E4. auto.
             ++ intros (a1 & a2 & a3 & H & H' & (_ & H2) & H3). injection H as <-. rewrite E2 in H'. injection H' as <-.
                rewrite E3 in H2. injection H2 as <-. specialize (H3 eq_refl). rewrite E4 in H3. cbn in H3. subst r4. reflexivity.
          -- cbn [andb snd]. split; [|reflexivity]. intros _. exists F1, F2, F3. auto 6 using eq_refl. repeat split; auto. discriminate.
        * rewrite andb_false_r. cbn [snd]. rewrite Q by auto. split; [contradiction|].
          intros (a1 & a2 & a3 & H & H' & (_ & H2) & _). injection H as <-. rewrite E2 in H'. injection H' as <-. congruence.
      + cbn [andb]. rewrite Z.eqb_refl, andb_true_r. destruct sanitize.
        * fold (tidy_args source args). pose proof (Ho (tidy_args source args) F2) as Ho3.
          destruct (run (tidy_args source args) F2) as [F4 r4] eqn:E4. cbn [snd] in *. split.
          -- intro H. apply py_exit_zero in H; [|intros; apply Ho3; auto]. exists F1, F2, F2. rewrite E4. auto.
          -- intros (a1 & a2 & a3 & H & H' & H2 & H3). injection H as <-. rewrite E2 in H'. injection H' as <-. subst a3.
             specialize (H3 eq_refl). rewrite E4 in H3. cbn in H3. subst r4. reflexivity.
        * cbn [snd]. split; [|reflexivity]. intros _. exists F1, F2, F2. repeat split; auto. discriminate.
    - unfold check_result. rewrite (proj2 (Z.eqb_neq r 0) Hr), !andb_false_r. cbn [snd].
      rewrite (proj2 (Z.eqb_neq r 0) Hr), !andb_false_r. cbn [snd]. split.
      + intro H. apply py_exit_zero in H; [congruence|]. intros n Hn. injection Hn as <-. exact Ho1.
      + intros (? & ? & ? & H & _). congruence.
  Qed.

  Theorem compile_succeeds_copy : forall args source t others link execute sanitize F, ordinary_codes run ->
      (snd (cxx_compiler run writable false args source (t :: others) link execute sanitize F) = 0%Z <->
       exists F1 F2 F3, run args F = (F1, Some 0%Z) /\
         copy_file writable t others F1 = (F2, 0%Z) /\
         (if execute then link = true /\ run [t] F2 = (F3, Some 0%Z) else F3 = F2) /\
         (sanitize = true -> snd (run (tidy_args source args) F3) = Some 0%Z)).
  Proof.
    intros args source t others link execute sanitize F Ho. rewrite compile_succeeds by exact Ho.
    split; intros (F1 & F2 & F3 & H1 & H2 & H); exists F1, F2, F3; (split; [exact H1|]; split; [|exact H]).
    - unfold copy_file. rewrite H2. reflexivity.
    - unfold copy_file in H2. destruct (copy_all writable t others F1) as [G []]; congruence.
  Qed.

  Theorem tool_succeeds : forall args F, ordinary_codes run ->
      (snd (run_tool run args F) = 0%Z <-> exists a, args = Some a /\ snd (run a F) = Some 0%Z).
  Proof.
    intros [a|] F Ho; cbn [run_tool].
    - pose proof (Ho a F) as Ho1. destruct (run a F) as [F1 r] eqn:E. cbn [snd] in *. split.
      + intro H. apply py_exit_zero in H; [|exact Ho1]. exists a. rewrite E. auto.
      + intros (a' & Ha & H). injection Ha as <-. rewrite E in H. cbn in H. subst r. reflexivity.
    - cbn. split; [discriminate|]. intros (a & H & _). discriminate.
  Qed.

  Theorem tool_made : forall args F F', ordinary_codes run -> run_tool run (Some args) F = (F', 0%Z) ->
      run args F = (F', Some 0%Z).
  Proof.
    intros args F F' Ho H. unfold run_tool in H. pose proof (Ho args F) as Ho1. destruct (run args F) as [F1 r] eqn:E.
    injection H as <- Hp. f_equal. apply py_exit_zero; auto.
  Qed.
End Make.

(** Linking and archiving *)

Lemma linker_args_end : forall gl gd c ba args, linker_args gl gd c ba = Some args ->
    exists pre t ts, args = pre ++ [lit "-o"; t] /\ strings (member "targets" ba) = Some (t :: ts).
Proof.
  intros gl gd c ba args H. unfold linker_args in H. destruct (member "compiler_cfg" ba) as [[]|]; try discriminate.
  destruct (strings (member "cflags" _)) as [cf|]; [|discriminate]. destruct (color_flag ba) as [col|]; [|discriminate].
  destruct (objects (member "dependencies" ba)) as [ds|]; [|discriminate].
  destruct (strings (member "targets" ba)) as [[|t ts]|]; try discriminate.
  destruct (collect_deps gl gd ds) as [items|]; [|discriminate]. injection H as <-.
  exists ([c] ++ cf ++ [col] ++ filter_deps items), t, ts. split; [|reflexivity]. rewrite <- !app_assoc. reflexivity.
Qed.

Lemma archiver_args_begin : forall ar ba args, archiver_args ar ba = Some args ->
    exists t ts rest, args = [ar; lit "rcs"; t] ++ rest /\ strings (member "targets" ba) = Some (t :: ts).
Proof.
  intros ar ba args H. unfold archiver_args in H.
  destruct (strings (member "targets" ba)) as [[|t ts]|]; try discriminate.
  destruct (objects (member "dependencies" ba)) as [ds|]; [|discriminate].
  destruct (collect_lib_deps ds) as [items|]; [|discriminate]. injection H as <-.
  exists t, ts, (filter_deps items). auto.
Qed.

Theorem linked_one : forall run gl gd c ba t F F', ordinary_codes run ->
    (forall pre target F F1, run (pre ++ [lit "-o"; target]) F = (F1, Some 0%Z) -> F1 target <> None) ->
    strings (member "targets" ba) = Some [t] ->
    run_tool run (linker_args gl gd c ba) F = (F', 0%Z) -> F' t <> None.
Proof.
  intros run gl gd c ba t F F' Ho Hm Ht H. destruct (linker_args gl gd c ba) as [args|] eqn:E; [|discriminate].
  apply tool_made in H; auto. destruct (linker_args_end _ _ _ _ _ E) as (pre & t' & ts & -> & Ht').
  rewrite Ht in Ht'. injection Ht' as <- <-. eapply Hm; eauto.
Qed.

Theorem archived_one : forall run ar ba t F F', ordinary_codes run ->
    (forall target rest F F1, run ([ar; lit "rcs"; target] ++ rest) F = (F1, Some 0%Z) -> F1 target <> None) ->
    strings (member "targets" ba) = Some [t] ->
    run_tool run (archiver_args ar ba) F = (F', 0%Z) -> F' t <> None.
Proof.
  intros run ar ba t F F' Ho Hm Ht H. destruct (archiver_args ar ba) as [args|] eqn:E; [|discriminate].
  apply tool_made in H; auto. destruct (archiver_args_begin _ _ _ E) as (t' & ts & rest & -> & Ht').
  rewrite Ht in Ht'. injection Ht' as <- <-. eapply Hm; eauto.
Qed.

(** A tool that makes the file named by its last argument *)
Definition makes_last (args : list str) (F : files) : files * option Z := (set_file (last args []) (lit "x") F, Some 0%Z).

(** A tool that makes the file named by its third argument *)
Definition makes_third (args : list str) (F : files) : files * option Z := (set_file (nth 2 args []) (lit "x") F, Some 0%Z).

Lemma last_two : forall (pre : list str) a b d, last (pre ++ [a; b]) d = b.
Proof.
  intros pre a b d. replace (pre ++ [a; b]) with ((pre ++ [a]) ++ [b]) by (rewrite <- app_assoc; reflexivity). apply last_last.
Qed.

Lemma makes_last_output : forall pre target F F1, makes_last (pre ++ [lit "-o"; target]) F = (F1, Some 0%Z) -> F1 target <> None.
Proof. intros pre target F F1 H. injection H as <-. rewrite last_two, set_same. discriminate. Qed.

Lemma makes_third_output : forall ar target rest F F1, makes_third ([ar; lit "rcs"; target] ++ rest) F = (F1, Some 0%Z) -> F1 target <> None.
Proof. intros ar target rest F F1 H. injection H as <-. cbn [nth app]. rewrite set_same. discriminate. Qed.

Theorem second_not_linked : forall gl gd c ba args t u ts F, linker_args gl gd c ba = Some args ->
    strings (member "targets" ba) = Some (t :: u :: ts) -> u <> t -> F u = None ->
    exists F', run_tool makes_last (Some args) F = (F', 0%Z) /\ F' u = None.
Proof.
  intros gl gd c ba args t u ts F H Ht Hne Hu. eexists. split; [reflexivity|].
  destruct (linker_args_end _ _ _ _ _ H) as (pre & t' & ts' & -> & Ht'). rewrite Ht in Ht'. injection Ht' as <- <-.
  rewrite last_two, set_other by auto. exact Hu.
Qed.

Theorem second_not_archived : forall ar ba args t u ts F, archiver_args ar ba = Some args ->
    strings (member "targets" ba) = Some (t :: u :: ts) -> u <> t -> F u = None ->
    exists F', run_tool makes_third (Some args) F = (F', 0%Z) /\ F' u = None.
Proof.
  intros ar ba args t u ts F H Ht Hne Hu. eexists. split; [reflexivity|].
  destruct (archiver_args_begin _ _ _ H) as (t' & ts' & rest & -> & Ht'). rewrite Ht in Ht'. injection Ht' as <- <-.
  cbn [nth app]. rewrite set_other by auto. exact Hu.
Qed.
