(** Proofs about the options that are reported. *)

From Coq Require Import Ascii String NArith ZArith Bool Lia.
From Coq Require Import List.
From Verif Require Import Str Path PathProofs ValueModel ValueSpec ValueProofs TimeProofs CmdModel CmdSpec CmdProofs RecipeModel CfgModel CfgProofs.
From Verif Require Import MainModel MainSpec MainProofs JobModel JobSpec JobProofs ShowModel ShowSpec.
Import ListNotations.

(** * One more argument *)

Lemma collect_app {V} (l : list (opt_item V)) : forall argv1 argv2 s,
  collect_options l (argv1 ++ argv2) s = match collect_options l argv1 s with Some s' => collect_options l argv2 s' | None => None end.
Proof.
  induction argv1 as [|arg argv1 IH]; intros argv2 s; [reflexivity|]. cbn [app collect_options].
  destruct arg as [|c arg]; [apply IH|]. destruct (split_point (c :: arg)) as [n v].
  destruct (find_option l (c :: arg) n) as [x|]; [|reflexivity]. destruct (run_converter x v); [apply IH|reflexivity].
Qed.

Lemma one_more {V} (mk : cmd_option -> opt_item V) (N : forall o, opt_name (mk o) = option_name o) argv a o text v :
  command_line (map mk all_options) argv = Some a -> takes (mk o) text v ->
  command_line (map mk all_options) (argv ++ [option_name o ++ "="%char :: text]) = Some ((option_name o, v) :: a).
Proof.
  intros C T. unfold command_line in *. rewrite collect_app, C.
  destruct (mk_proper mk N) as [ND NP]. rewrite Forall_forall in NP. destruct (NP (mk o) (mk_in mk o)) as [NN NE].
  assert (gives (option_name o ++ "="%char :: text) (opt_name (mk o)) text) as G by (right; now rewrite N).
  rewrite (collect_step (map mk all_options) _ (opt_name (mk o)) text [] a ND); try assumption.
  - rewrite (proj2 (find_option_selected _ (opt_name (mk o)) text _ ND G NE (mk o)) (exact_selected _ (mk o) ND (mk_in mk o))).
    rewrite (proj2 (run_converter_takes (mk o) text v) T). cbn [collect_options]. now rewrite N.
  - intro E. symmetry in E. now apply app_cons_not_nil in E.
Qed.

Lemma setting_again {V} (a : list (str * V)) n v : setting a n = Some v -> forall m, setting ((n, v) :: a) m = setting a m.
Proof.
  intros H m. cbn [setting]. destruct (str_eqb n m) eqn:E; [|reflexivity]. apply str_eqb_eq in E. now subst m.
Qed.

(** * Only the values of options matter *)

Lemma set_up_ext around a a' : (forall o, job_option a o = job_option a' o) -> set_up around a = set_up around a'.
Proof.
  intro H. unfold set_up, job_start_time, job_threads, chosen_level, output_format, job_target_dir, job_source_dir, job_id.
  now rewrite !H.
Qed.

Lemma body_ext env a a' : (forall o, option_given a o = option_given a' o) -> main_body env a = main_body env a'.
Proof.
  intro H. assert (forall o, has_option a o = has_option a' o) as Ho by (intro o; unfold has_option; now rewrite H).
  assert (source_directory a = source_directory a') as Hs by (unfold source_directory; now rewrite H).
  assert (target_directory a = target_directory a') as Ht by (unfold target_directory; now rewrite H, Hs).
  assert (read_configuration env a = read_configuration env a') as Hr by (unfold read_configuration; now rewrite Ho, H, Hs).
  assert (load_tree env a = load_tree env a') as Hl by (unfold load_tree; now rewrite Hs, Ht).
  unfold main_body. now rewrite !Ho, Hr, Hs, Hl, Ht, H.
Qed.

(** * The value of an option as text *)

Lemma path_text_nonempty s : s <> [] -> path_string (parse_path s) <> [].
Proof.
  intros NE E. assert (parse_path s = parse_path []) as P by (rewrite <- E; symmetry; apply parse_print).
  destruct s as [|c s]; [congruence|]. destruct (Ascii.eqb c "/") eqn:Q.
  - apply (f_equal absolute) in P. cbn in P. congruence.
  - apply (f_equal comps) in P. unfold parse_path in P. cbn [comps split_slash] in P. rewrite Q in P.
    assert (forall t cur, cur <> [] -> exists x l, split_slash t cur = x :: l /\ x <> []) as K.
    { induction t as [|d t IH]; intros cur N; cbn [split_slash].
      - exists (rev cur), []. split; [reflexivity|]. intro R. apply N. now rewrite <- (rev_involutive cur), R.
      - destruct (Ascii.eqb d "/"); [|apply IH; discriminate]. exists (rev cur), (split_slash t []). split; [reflexivity|].
        intro R. apply N. now rewrite <- (rev_involutive cur), R. }
    destruct (K s [c]) as (x & l & X & Nx); [discriminate|]. rewrite X in P. cbn [filter] in P.
    destruct x as [|y x]; [congruence|]. cbn [is_nil negb] in P. match type of P with (if ?b then _ else _) = _ => now destruct b end.
Qed.

Lemma decimal_some z : decimal z <> [].
Proof.
  intro E. pose proof (decimal_integer z) as D. rewrite E in D. inversion D as [s n N| |]; subst.
  inversion N as [|? ? ? ? ? ? ? Q]. symmetry in Q. now apply app_cons_not_nil in Q.
Qed.

Lemma id_some b : ValueSpec.build_id b -> id_to_string b <> [].
Proof.
  intros [L _] E. destruct b; [discriminate L|discriminate E].
Qed.

Lemma takes_text o text v s : takes (job_item o) text v -> value_text v = Some s -> ~ In o [StartTime; Targets; ConfigFiles] ->
  takes (job_item o) s v.
Proof.
  intros [R K] E NS. unfold takes. cbn [job_item opt_convert value_required] in *.
  assert (v = PathGiven (parse_path text) -> (s <> [] \/ option_value_required o = false) /\ Some (PathGiven (parse_path s)) = Some v) as KP.
  { intros ->. cbn [value_text] in E. injection E as <-. rewrite parse_print. split; [|reflexivity].
    destruct R as [R | R]; [left; now apply path_text_nonempty|now right]. }
  destruct o; cbn [job_convert option_value_required] in *; try (exfalso; apply NS; cbn; tauto);
    try (injection K as <-; now apply KP).
  1, 4, 5: destruct text; [|discriminate K]; injection K as <-; cbn in E; injection E as <-; auto.
  - destruct (id_of_string text) as [b|] eqn:P; cbn in K; [|discriminate]. injection K as <-. cbn [value_text] in E. injection E as <-.
    pose proof (id_bytes text b P) as B. rewrite (id_round_trip b B). split; [left; now apply id_some|reflexivity].
  - destruct (thread_count_of_string text) as [n| |] eqn:P; cbn in K; try discriminate; injection K as <-; [|discriminate E].
    cbn [value_text] in E. injection E as <-. rewrite thread_count_round_trip.
    + split; [left|reflexivity]. unfold thread_count_to_string. destruct (n <? 0)%Z; [discriminate|apply decimal_some].
    + apply thread_count_accepted in P. destruct P as [[_ ->] | [P _]]; [now left|now right].
  - destruct (log_level_of_string text) as [x|] eqn:P; cbn in K; [|discriminate]. injection K as <-. cbn [value_text] in E. injection E as <-.
    rewrite (proj2 (log_level_names (log_level_to_string x) x) eq_refl). split; [left; now destruct x|reflexivity].
  - destruct (log_format_of_string text) as [x|] eqn:P; cbn in K; [|discriminate]. injection K as <-. cbn [value_text] in E. injection E as <-.
    rewrite (proj2 (log_format_names (log_format_to_string x) x) eq_refl). split; [left; now destruct x|reflexivity].
Qed.

(** The argument gives an option the value that it already has. *)
Lemma repeated argv a o text v : command_line job_table argv = Some a -> job_option a o = Some v -> takes (job_item o) text v ->
  forall around env, make_job around (argv ++ [option_name o ++ "="%char :: text]) = make_job around argv /\
    main env job_accepts (argv ++ [option_name o ++ "="%char :: text]) = main env job_accepts argv.
Proof.
  intros C J T around env. pose proof (one_more job_item (fun _ => eq_refl) argv a o text v C T) as C1. split.
  - unfold make_job. unfold job_table in C1 |- *. rewrite C1. unfold job_table in C. rewrite C.
    rewrite (set_up_ext around ((option_name o, v) :: a) a); [reflexivity|].
    intro o'. unfold job_option. now apply setting_again.
  - destruct (command_line (option_table job_accepts) argv) as [a'|] eqn:C'.
    2:{ exfalso. assert (command_line (option_table job_accepts) argv <> None) as K; [|congruence].
        apply accepted_valid. intros arg I.
        pose proof (accepted_iff job_table argv (proj1 (mk_proper job_item (fun _ => eq_refl)))) as A.
        rewrite C in A. destruct (proj1 A (fun H => ltac:(discriminate H)) arg I) as [-> | (x & t & u & P & Q)]; [now left|].
        right. destruct (in_mk job_item x) as (o' & ->); [destruct P as (_ & n & _ & _ & (P & _)); exact P|].
        exists o', t, (forget u). split; [|now apply takes_forget].
        apply (picks_first (option_item job_accepts) (fun _ => eq_refl)). now apply (picks_first job_item (fun _ => eq_refl)). }
    pose proof (one_more (option_item job_accepts) (fun _ => eq_refl) argv a' o text (forget v) C' (takes_forget o text v T)) as C1'.
    rewrite (main_accepted _ _ _ _ C'), (main_accepted env job_accepts _ _ C1').
    assert (main_body env ((option_name o, forget v) :: a') = main_body env a') as ->; [|reflexivity].
    apply body_ext. intro o'. unfold option_given. apply setting_again.
    pose proof (same_options argv a a' o C C') as S. rewrite J in S. exact S.
Qed.

(** * The report *)

Definition report_line (x : cmd_option * str) : str := option_name (fst x) ++ lit ": " ++ snd x ++ [newline].

Definition reported_value (a : list (str * job_value)) (o : cmd_option) : option (cmd_option * str) :=
  match job_option a o with
  | Some v => option_map (pair o) (value_text v)
  | None => None
  end.

Fixpoint reported (a : list (str * job_value)) (os : list cmd_option) : list (cmd_option * str) :=
  match os with
  | [] => []
  | o :: os' => match reported_value a o with Some x => x :: reported a os' | None => reported a os' end
  end.

Lemma report_reported a : forall os, (forall o v, In o os -> job_option a o = Some v -> value_text v <> None) ->
  report_options a os = Some (concat (map report_line (reported a os))).
Proof.
  induction os as [|o os IH]; intro H; [reflexivity|]. cbn [report_options reported].
  unfold report_option, reported_value. rewrite IH by (intros o' v' I' E'; exact (H o' v' (or_intror I') E')).
  destruct (job_option a o) as [v|] eqn:E; [|reflexivity].
  specialize (H o v (or_introl eq_refl) E). destruct (value_text v) as [s|]; [|congruence]. cbn [option_map map concat].
  unfold report_line at 2. reflexivity.
Qed.

Lemma reported_in a o s : forall os, In (o, s) (reported a os) <-> In o os /\ exists v, job_option a o = Some v /\ value_text v = Some s.
Proof.
  induction os as [|o' os IH]; [cbn; tauto|]. cbn [reported]. unfold reported_value.
  destruct (job_option a o') as [v|] eqn:E.
  - destruct (value_text v) as [t|] eqn:T; cbn [option_map In]; rewrite IH.
    + split.
      * intros [H | (H & X)]; [injection H as <- <-; split; [now left|exists v; now split]|split; [now right|exact X]].
      * intros ([<- | H] & w & X & Y); [left; congruence|right; split; [exact H|now exists w]].
    + split; [intros (H & X); split; [now right|exact X]|]. intros ([<- | H] & w & X & Y); [congruence|split; [exact H|now exists w]].
  - rewrite IH. cbn [In]. split; [intros (H & X); split; [now right|exact X]|].
    intros ([<- | H] & w & X & Y); [congruence|split; [exact H|now exists w]].
Qed.

Lemma reported_nodup a : forall os, NoDup os -> NoDup (map fst (reported a os)).
Proof.
  induction os as [|o os IH]; intro N; [constructor|]. inversion N as [|? ? N1 N2]; subst. cbn [reported]. unfold reported_value.
  destruct (job_option a o) as [v|]; [|now apply IH]. destruct (value_text v) as [t|]; cbn [option_map]; [|now apply IH].
  cbn [map fst]. constructor; [|now apply IH]. intro I. apply in_map_iff in I. destruct I as ([o' s] & E & I). cbn in E. subst o'.
  apply reported_in in I. now apply N1.
Qed.

Lemma all_options_once : NoDup (rev all_options).
Proof. apply NoDup_rev. unfold all_options. repeat constructor; cbn; intuition discriminate. Qed.

Lemma all_options_all o : In o (rev all_options).
Proof. apply in_rev. rewrite rev_involutive. destruct o; cbn; tauto. Qed.

Lemma job_given argv a o : command_line job_table argv = Some a -> given job_accepts argv o <-> job_option a o <> None.
Proof.
  intro C. destruct (command_line (option_table job_accepts) argv) as [a'|] eqn:C'.
  - rewrite <- (has_option_iff job_accepts argv a' o C'). unfold has_option. rewrite (same_options argv a a' o C C').
    now destruct (job_option a o); cbn; intuition.
  - exfalso. assert (command_line (option_table job_accepts) argv <> None) as K; [|congruence].
    apply accepted_valid. intros arg I.
    pose proof (accepted_iff job_table argv (proj1 (mk_proper job_item (fun _ => eq_refl)))) as A.
    rewrite C in A. destruct (proj1 A (fun H => ltac:(discriminate H)) arg I) as [-> | (x & t & u & P & Q)]; [now left|].
    right. destruct (in_mk job_item x) as (o' & ->); [destruct P as (_ & n & _ & _ & (P & _)); exact P|].
    exists o', t, (forget u). split; [|now apply takes_forget].
    apply (picks_first (option_item job_accepts) (fun _ => eq_refl)). now apply (picks_first job_item (fun _ => eq_refl)).
Qed.

Theorem report_complete around argv j : make_job around argv = JobReady j ->
  (forall o, In o [Help; Version; About; Targets; ConfigFiles] -> ~ given job_accepts argv o) ->
  exists text ls, report argv = Reported text /\ text = concat (map report_line ls) /\
    NoDup (map fst ls) /\ (forall o, In o (map fst ls) <-> given job_accepts argv o) /\
    (forall o s, In (o, s) ls -> o <> StartTime -> forall env around',
       make_job around' (argv ++ [option_name o ++ "="%char :: s]) = make_job around' argv /\
       main env job_accepts (argv ++ [option_name o ++ "="%char :: s]) = main env job_accepts argv) /\
    (forall s, In (StartTime, s) ls -> date_text s (start_time (job_info j))).
Proof.
  intros J N. unfold make_job in J. destruct (command_line job_table argv) as [a|] eqn:C; [|discriminate].
  destruct (set_up around a) as [j'|] eqn:S; [|discriminate]. injection J as <-.
  assert (forall o v, job_option a o = Some v -> exists text, takes (job_item o) text v) as Takes.
  { intros o v E. unfold job_option in E.
    apply (values_iff job_table argv a (job_item o) (proj1 (mk_proper job_item (fun _ => eq_refl))) C (mk_in job_item o)) in E.
    destruct E as (_ & _ & text & _ & _ & _ & T & _). now exists text. }
  assert (forall o, In o [Help; Version; About; Targets; ConfigFiles] -> job_option a o = None) as N'.
  { intros o I. destruct (job_option a o) eqn:E; [|reflexivity]. destruct (N o I). apply (job_given argv a o C). congruence. }
  assert (forall o v, job_option a o = Some v -> value_text v <> None) as Def.
  { intros o v E Z. destruct (Takes o v E) as (text & _ & K). cbn [job_item opt_convert] in K.
    destruct o; cbn [job_convert] in K; try (rewrite N' in E by (cbn; tauto); discriminate);
      try (injection K as <-; discriminate Z); try (destruct text; [injection K as <-; discriminate Z|discriminate K]).
    - destruct (id_of_string text); cbn in K; [injection K as <-; discriminate Z|discriminate].
    - destruct (time_stamp_of_string text) eqn:P; cbn in K; try discriminate; injection K as <-; [discriminate Z|].
      unfold set_up, job_start_time in S. rewrite E in S. discriminate.
    - destruct (thread_count_of_string text) eqn:P; cbn in K; try discriminate; injection K as <-; [discriminate Z|].
      unfold set_up, job_threads in S. rewrite E in S. destruct (job_start_time around a); discriminate.
    - destruct (log_level_of_string text); cbn in K; [injection K as <-; discriminate Z|discriminate].
    - destruct (log_format_of_string text); cbn in K; [injection K as <-; discriminate Z|discriminate]. }
  exists (concat (map report_line (reported a (rev all_options)))), (reported a (rev all_options)).
  split; [|split; [reflexivity|split; [apply reported_nodup, all_options_once|split; [|split]]]].
  - unfold report, is_given. rewrite C, !N' by (cbn; tauto). cbn [orb]. rewrite report_reported; [reflexivity|].
    intros o v _. apply Def.
  - intro o. rewrite (job_given argv a o C), in_map_iff. split.
    + intros ([o' s] & <- & I). apply reported_in in I. destruct I as (_ & v & E & _). cbn [fst]. congruence.
    + intro H. destruct (job_option a o) as [v|] eqn:E; [|congruence]. destruct (value_text v) as [s|] eqn:T; [|now destruct (Def o v E)].
      exists (o, s). split; [reflexivity|]. apply reported_in. split; [apply all_options_all|now exists v].
  - intros o s I NS env around'. apply reported_in in I. destruct I as (_ & v & E & T). destruct (Takes o v E) as (text & K).
    apply (repeated argv a o s v C E). apply (takes_text o text v s K T).
    intros [<- | [<- | [<- | []]]]; [now apply NS| |]; rewrite N' in E by (cbn; tauto); discriminate.
  - intros s I. apply reported_in in I. destruct I as (_ & v & E & T). destruct (Takes StartTime v E) as (text & _ & K).
    cbn [job_item opt_convert job_convert] in K. destruct (time_stamp_of_string text) as [ns| |] eqn:P; cbn in K; try discriminate; injection K as <-; [|discriminate T].
    cbn [value_text] in T. injection T as <-. destruct (parts around a j' S) as (St & _).
    unfold job_start_time in St. rewrite E in St. injection St as <-. apply format_time_text. now apply time_stamp_accepted in P.
Qed.

Theorem report_silent around argv o : make_job around argv <> JobRejected ->
  In o [Help; Version; About] -> given job_accepts argv o -> report argv = Reported [].
Proof.
  intros J I G. unfold make_job in J. unfold report. destruct (command_line job_table argv) as [a|] eqn:C; [|congruence].
  apply (job_given argv a o C) in G. unfold is_given.
  destruct I as [<- | [<- | [<- | []]]]; match type of G with ?m <> None => destruct m; [|congruence] end.
  - reflexivity.
  - now rewrite Bool.orb_true_r.
  - now rewrite Bool.orb_true_r.
Qed.
