(** Proofs about the parameters of a job. *)

From Coq Require Import Ascii String NArith ZArith Bool Lia.
From Coq Require Import List.
From Verif Require Import Str Path ValueModel ValueSpec PathProofs ValueProofs TimeProofs CmdModel CmdSpec CmdProofs RecipeModel MainModel MainSpec MainProofs.
From Verif Require Import JsonModel JsonProofs RecipeSpec RecipeProofs JobModel JobSpec.
Import ListNotations.

(** * Tables of options *)

Section Table.
Context {V : Type}.
Variable mk : cmd_option -> opt_item V.
Hypothesis mk_name : forall o, opt_name (mk o) = option_name o.
Let table := map mk all_options.

Lemma mk_in o : In (mk o) table.
Proof. apply in_map, all_options_complete. Qed.

Lemma in_mk x : In x table -> exists o, x = mk o.
Proof. intro I. apply in_map_iff in I. destruct I as (o & <- & _). now exists o. Qed.

Lemma mk_inj o o' : mk o = mk o' -> o = o'.
Proof. intro E. apply option_name_inj. rewrite <- !mk_name. now rewrite E. Qed.

Lemma mk_proper : proper_options table.
Proof.
  split.
  - unfold table. rewrite map_map. rewrite (map_ext _ option_name mk_name). cbn.
    repeat (constructor; [cbn; intuition discriminate|]). constructor.
  - apply Forall_forall. intros x I. apply in_mk in I. destruct I as (o & ->). rewrite mk_name.
    destruct o; (split; [discriminate|]); cbn; intuition discriminate.
Qed.

Definition first_option (name : str) (o : cmd_option) : Prop :=
  prefix name (option_name o) /\
  forall o', prefix name (option_name o') -> o' = o \/ before (option_name o) (option_name o').

Lemma picks_first arg o text : picks table arg (mk o) text <->
  arg <> [] /\ exists name, gives arg name text /\ ~ In "="%char name /\ first_option name o.
Proof.
  unfold picks, selected, first_option. split; intros (N & name & G & E & H); (split; [exact N|]); exists name; (split; [exact G|]); (split; [exact E|]).
  - destruct H as (_ & P & M). rewrite mk_name in P. split; [exact P|]. intros o' P'.
    destruct (M (mk o') (mk_in o')) as [Q | B]; [now rewrite mk_name|left; now apply mk_inj|right; now rewrite !mk_name in B].
  - destruct H as (P & M). split; [apply mk_in|]. rewrite mk_name. split; [exact P|]. intros y I P'.
    apply in_mk in I. destruct I as (o' & ->). rewrite mk_name in *. destruct (M o' P') as [-> | B]; [now left|now right].
Qed.

Lemma takes_dec (x : opt_item V) text : (exists v, takes x text v) \/ forall v, ~ takes x text v.
Proof.
  unfold takes. destruct (opt_convert x text) as [v|]; [|right; intros v (_ & E); discriminate E].
  destruct (value_required x); [|left; exists v; auto].
  destruct text as [|c t]; [right; intros u ([H | H] & _); [now apply H|discriminate]|].
  left. exists v. split; [left; discriminate|reflexivity].
Qed.

Lemma not_taken argv1 arg argv2 o text : gives arg (option_name o) text -> (forall v, ~ takes (mk o) text v) ->
  command_line table (argv1 ++ arg :: argv2) = None.
Proof.
  intros G T. destruct mk_proper as [N NP]. rewrite Forall_forall in NP. destruct (NP (mk o) (mk_in o)) as [NN NE].
  rewrite mk_name in NN, NE. apply (collect_reject table argv1 arg argv2 (option_name o) text [] N G NE).
  - destruct G as [[-> _] | ->]; [exact NN|now destruct (option_name o)].
  - intros y value S. rewrite <- mk_name in S. destruct (exact_selected table (mk o) N (mk_in o)) as (_ & P & M). destruct S as (IY & PY & MY).
    destruct (M y IY PY) as [-> | B1]; [apply T|].
    destruct (MY (mk o) (mk_in o) P) as [<- | B2]; [apply T|]. destruct (before_asym _ _ B1 B2).
Qed.
Lemma written_takes argv l a : written argv l -> command_line table argv = Some a ->
  forall o text, In (o, text) l -> exists v, takes (mk o) text v.
Proof.
  intros W C o text I. destruct (takes_dec (mk o) text) as [T | T]; [exact T|exfalso].
  assert (exists arg, In arg argv /\ gives arg (option_name o) text) as (arg & IA & G).
  { clear C. induction W as [|arg x argv l G _ IH]; [destruct I|]. destruct I as [-> | I].
    - exists arg. split; [now left|exact G].
    - destruct (IH I) as (b & IB & GB). exists b. split; [now right|exact GB]. }
  apply in_split in IA. destruct IA as (a1 & a2 & ->).
  rewrite (not_taken a1 arg a2 o text G T) in C. discriminate C.
Qed.

Lemma written_choices argv l : written argv l -> (forall o text, In (o, text) l -> exists v, takes (mk o) text v) ->
  exists choices, Forall2 (selects table) argv choices /\
    Forall2 (fun x c => fst c = mk (fst x) /\ takes (mk (fst x)) (snd x) (snd c)) l choices.
Proof.
  induction 1 as [|arg [o text] argv l G _ IH]; intro T; [exists []; split; constructor|].
  destruct IH as (ch & A & B); [intros o' t' I; apply T; now right|].
  destruct (T o text) as (v & Tv); [now left|]. exists ((mk o, v) :: ch). split.
  - constructor; [|exact A]. split; [apply mk_in|]. exists text. cbn [fst snd] in *. rewrite mk_name. split; [exact G|exact Tv].
  - constructor; [|exact B]. cbn [fst snd]. split; [reflexivity|exact Tv].
Qed.

Lemma choices_none choices : forall name, Forall (fun c : opt_item V * V => opt_name (fst c) <> name) choices ->
  setting (settings_of choices []) name = None.
Proof.
  intros name F. destruct (setting (settings_of choices []) name) as [v|] eqn:E; [|reflexivity].
  apply setting_last in E. destruct E as (e & x & la & -> & N & _). rewrite Forall_forall in F.
  destruct (F (x, v)); [apply in_elt|exact N].
Qed.

Lemma written_read argv l a : written argv l -> command_line table argv = Some a -> forall o,
  (forall text, last_text l o text -> exists v, setting a (option_name o) = Some v /\ takes (mk o) text v) /\
  (not_given l o -> setting a (option_name o) = None).
Proof.
  intros W C o. destruct (written_choices argv l W (written_takes argv l a W C)) as (ch & A & B).
  assert (a = settings_of ch []) as ->.
  { unfold command_line in C. rewrite (collect_exact table argv ch mk_proper A []) in C. now injection C as <-. }
  assert (forall l ch, Forall2 (fun x c => fst c = mk (fst x) /\ takes (mk (fst x)) (snd x) (snd c)) l ch ->
            Forall (fun x : cmd_option * str => fst x <> o) l -> Forall (fun c => opt_name (fst c) <> option_name o) ch) as NG.
  { clear - mk_name. induction 1 as [|x c l ch [E _] _ IH]; intro F; [constructor|]. inversion F as [|? ? F1 F2]; subst.
    constructor; [|exact (IH F2)]. rewrite E, mk_name. intro Q. apply F1. now apply option_name_inj. }
  split.
  - intros text (l1 & l2 & -> & F). apply Forall2_app_inv_l in B. destruct B as (c1 & c2 & _ & B & ->).
    inversion B as [|? [y v] ? c2' [E T] B' ]; subst. cbn [fst snd] in *. subst y. exists v. split; [|exact T].
    apply setting_last. exists c1, (mk o), c2'. split; [reflexivity|]. split; [apply mk_name|]. exact (NG _ _ B' F).
  - intro F. apply choices_none. exact (NG _ _ B F).
Qed.

Lemma written_accepted argv l : written argv l -> (forall o text, In (o, text) l -> exists v, takes (mk o) text v) ->
  command_line table argv <> None.
Proof.
  intros W T. destruct (written_choices argv l W T) as (ch & A & _).
  unfold command_line. rewrite (collect_exact table argv ch mk_proper A []). discriminate.
Qed.

End Table.

(** * What is accepted *)

Lemma thread_count_accepted_iff text : thread_count_of_string text <> Rejected <-> acceptable NumWorkers text.
Proof.
  cbn [acceptable]. unfold thread_count_of_string. destruct (str_eqb text (lit "auto")) eqn:A.
  - apply str_eqb_eq in A. split; [now left|discriminate].
  - split.
    + intro H. right. unfold atoi in H. destruct (strto 10 text) as [[z rest]|] eqn:E.
      * exists z. apply strto10_inv in E. destruct E as (ws & t & -> & W & S & F). split.
        -- exists ws, t, rest. repeat split; [exact W|exact S|now apply no_digit_first_iff].
        -- destruct ((int_min <=? z)%Z && (z <=? int_max)%Z) eqn:R.
           ++ destruct (Z.ltb_spec z 1); [congruence|]. now left.
           ++ apply andb_false_iff in R. rewrite !Z.leb_gt in R. unfold int_min, int_max in R. lia.
      * cbn in H. congruence.
    + intros [-> | (z & (ws & t & rest & -> & W & S & F) & R)]; [discriminate A|].
      assert (no_digit_first 10 rest) as F'.
      { destruct rest as [|c r]; [exact I|]. cbn [no_digit_first]. destruct (digit_in 10 c) as [d|] eqn:D; [|reflexivity].
        apply digit_in_spec in D; [|lia]. destruct D as [D L]. specialize (F _ D). lia. }
      unfold atoi. rewrite (strto10_some ws t rest z W S F').
      destruct ((int_min <=? z)%Z && (z <=? int_max)%Z) eqn:Q; [|discriminate].
      apply andb_prop in Q. rewrite !Z.leb_le in Q. unfold int_min, int_max in Q.
      destruct (Z.ltb_spec z 1); [lia|discriminate].
Qed.

Lemma time_stamp_accepted_iff text : text <> [] -> time_stamp_of_string text <> Rejected <-> acceptable StartTime text.
Proof.
  intro N. cbn [acceptable]. unfold time_stamp_of_string, is_integer. destruct (strto 0 text) as [[z rest]|] eqn:E.
  - destruct rest as [|c rest].
    + cbn [is_nil andb]. pose proof (proj1 (strto0_whole _ _) E) as (ws & t & T).
      destruct ((llong_min <=? z)%Z && (z <=? llong_max)%Z) eqn:R.
      * split; [intros _|destruct (from_time_t z); discriminate]. apply andb_prop in R. rewrite !Z.leb_le in R. unfold llong_min, llong_max in R.
        exists z. split; [|lia]. exists ws, t. exact T.
      * split; [congruence|]. intros (z' & (ws' & t' & T') & B).
        assert (strto 0 text = Some (z', [])) as E' by (apply strto0_whole; now exists ws', t').
        rewrite E in E'. injection E' as <-. apply andb_false_iff in R. rewrite !Z.leb_gt in R. unfold llong_min, llong_max in R. lia.
    + cbn [is_nil andb]. split; [congruence|]. intros (z' & (ws' & t' & T') & B).
      assert (strto 0 text = Some (z', [])) as E' by (apply strto0_whole; now exists ws', t'). congruence.
  - destruct text as [|c text]; [congruence|]. cbn [is_nil andb]. split; [congruence|].
    intros (z' & (ws' & t' & T') & B).
    assert (strto 0 (c :: text) = Some (z', [])) as E' by (apply strto0_whole; now exists ws', t'). congruence.
Qed.

Lemma level_name_iff text x : log_level_of_string text = Some x <-> In (text, x) level_names.
Proof.
  unfold log_level_of_string, level_names. cbn [In]. split.
  - destruct (str_eqb text (lit "errors")) eqn:A; [apply str_eqb_eq in A; intro H; injection H as <-; subst; auto|].
    destruct (str_eqb text (lit "source_file_info")) eqn:B; [apply str_eqb_eq in B; intro H; injection H as <-; subst; auto|].
    destruct (str_eqb text (lit "compilation_command")) eqn:D; [apply str_eqb_eq in D; intro H; injection H as <-; subst; auto|discriminate].
  - intros [E | [E | [E | []]]]; injection E as <- <-; reflexivity.
Qed.

Lemma format_name_iff text x : log_format_of_string text = Some x <-> In (text, x) format_names.
Proof.
  unfold log_format_of_string, format_names. cbn [In]. split.
  - destruct (str_eqb text (lit "plain_text")) eqn:A; [apply str_eqb_eq in A; intro H; injection H as <-; subst; auto|].
    destruct (str_eqb text (lit "ansi_term")) eqn:B; [apply str_eqb_eq in B; intro H; injection H as <-; subst; auto|discriminate].
  - intros [E | [E | []]]; injection E as <- <-; reflexivity.
Qed.

Lemma option_map_some {A B} (f : A -> B) x : (exists v, option_map f x = Some v) <-> exists u, x = Some u.
Proof. destruct x as [u|]; cbn; split; intros (v & E); try discriminate E; eauto. Qed.

Lemma named_iff {V} (parse : str -> option V) names : (forall t x, parse t = Some x <-> In (t, x) names) ->
  forall text, (exists x, parse text = Some x) <-> In text (map fst names).
Proof.
  intros H text. rewrite in_map_iff. split.
  - intros (x & E). apply H in E. now exists (text, x).
  - intros ([t x] & <- & I). exists x. now apply H.
Qed.

Lemma convert_acceptable o text : c_string text ->
  (exists v, takes (job_item o) text v) <-> acceptable o text.
Proof.
  intro CS. unfold takes, job_item. cbn [value_required opt_convert].
  assert (forall x : option job_value, (exists v, (text <> [] \/ true = false) /\ x = Some v) <-> text <> [] /\ exists v, x = Some v) as RQ.
  { intro x. split; [intros (v & [N | N] & E); [eauto|discriminate]|intros (N & v & E); eauto]. }
  assert (forall x : option job_value, (exists v, (text <> [] \/ false = false) /\ x = Some v) <-> exists v, x = Some v) as NR.
  { intro x. split; [intros (v & _ & E); eauto|intros (v & E); eauto]. }
  assert (forall l, (exists v : job_value, option_map PathsGiven l = Some v) <-> exists u, l = Some u) as LP by (intro; apply option_map_some).
  assert (exists u, list_of_string (fun t => Some (parse_path t)) text = Some u) as LS.
  { destruct (split_list_reads text) as (l & E & _). exists (map parse_path l). apply (list_of_string_iff _ text l _ E).
    clear. induction l; constructor; auto. }
  destruct o; cbn [option_value_required]; rewrite ?RQ, ?NR; cbn [job_convert acceptable];
    try (split; [intros _; exact I|intros _; eexists; reflexivity]).
  - rewrite LP. tauto.
  - rewrite LP. tauto.
  - destruct text; split; [reflexivity|eauto|intros (v & E); discriminate E|discriminate].
  - split; [intros (N & _); exact N|intro N; split; [exact N|eexists; reflexivity]].
  - split; [intros (N & _); exact N|intro N; split; [exact N|eexists; reflexivity]].
  - rewrite option_map_some. pose proof (id_rejected text CS) as R. destruct (id_of_string text) as [b|].
    + split; [intros (N & _)|intros (N & _); split; [exact N|eauto]]. split; [exact N|]. intros c IC.
      destruct (to_nibble c) eqn:T; [apply hexadecimal_nibble; congruence|]. exfalso.
      assert (Some b = None) as X; [|discriminate X]. apply R. exists c. split; [exact IC|]. intro HX. now apply hexadecimal_nibble in HX.
    + split; [intros (_ & u & E); discriminate E|]. intros (_ & H). destruct (proj1 R eq_refl) as (c & IC & NC). destruct (NC (H c IC)).
  - split.
    + intros (N & v & E). apply (time_stamp_accepted_iff text N). destruct (time_stamp_of_string text); discriminate.
    + intro A. assert (text <> []) as N.
      { intros ->. destruct A as (z & (ws & t & E & _ & S) & _). destruct ws; [|discriminate E]. destruct t; [|discriminate E].
        inversion S as [? ? X|? ? X|? ? X]. inversion X. }
      split; [exact N|]. apply (time_stamp_accepted_iff text N) in A.
      destruct (time_stamp_of_string text); [eexists; reflexivity|congruence|eexists; reflexivity].
  - change (text = lit "auto" \/ _) with (acceptable NumWorkers text). rewrite <- thread_count_accepted_iff. split.
    + intros (N & v & E). destruct (thread_count_of_string text); discriminate.
    + intro A. split; [intros ->; now apply A|]. destruct (thread_count_of_string text); [eexists; reflexivity|congruence|eexists; reflexivity].
  - destruct text; split; [reflexivity|eauto|intros (v & E); discriminate E|discriminate].
  - destruct text; split; [reflexivity|eauto|intros (v & E); discriminate E|discriminate].
  - rewrite option_map_some, (named_iff _ _ level_name_iff). split; [tauto|]. intro H. split; [|exact H].
    intros ->. cbn in H. intuition discriminate.
  - rewrite option_map_some, (named_iff _ _ format_name_iff). split; [tauto|]. intro H. split; [|exact H].
    intros ->. cbn in H. intuition discriminate.
Qed.

(** * The program *)

Lemma accepts_takes o text : (exists v, takes (option_item job_accepts o) text v) <-> exists v, takes (job_item o) text v.
Proof.
  unfold takes, option_item, job_item. cbn [value_required opt_convert].
  assert ((exists v, option_convert job_accepts o text = Some v) <-> exists v, job_convert o text = Some v) as H.
  { destruct o; cbn [option_convert job_convert]; unfold job_accepts; cbn [job_convert];
      try (split; intros _; eexists; reflexivity).
    1, 2: rewrite !option_map_some; reflexivity.
    all: try (destruct text; split; intros (v & E); try discriminate E; eexists; reflexivity).
    all: match goal with |- context [match ?x with Some _ => true | None => false end] => destruct x as [u|] end.
    all: split; intros (v & E); try discriminate E; eexists; reflexivity. }
  split; intros (v & R & E).
  - destruct (proj1 H (ex_intro _ v E)) as (u & U). eauto.
  - destruct (proj2 H (ex_intro _ v E)) as (u & U). eauto.
Qed.

Lemma rejected_program env argv1 arg argv2 o text : gives arg (option_name o) text -> c_string text -> ~ acceptable o text ->
  main env job_accepts (argv1 ++ arg :: argv2) = ([], 255%Z).
Proof.
  intros G CS N. unfold main. change (option_table job_accepts) with (map (option_item job_accepts) all_options).
  rewrite (not_taken (option_item job_accepts) (fun _ => eq_refl) argv1 arg argv2 o text G); [reflexivity|].
  intros v T. apply N, convert_acceptable; [exact CS|]. apply accepts_takes. now exists v.
Qed.

Lemma rejected_job around argv1 arg argv2 o text : gives arg (option_name o) text -> c_string text -> ~ acceptable o text ->
  make_job around (argv1 ++ arg :: argv2) = JobRejected.
Proof.
  intros G CS N. unfold make_job, job_table.
  rewrite (not_taken job_item (fun _ => eq_refl) argv1 arg argv2 o text G); [reflexivity|].
  intros v T. apply N, convert_acceptable; [exact CS|]. now exists v.
Qed.

Lemma accepted_job around argv l : written argv l -> (forall o text, In (o, text) l -> c_string text /\ acceptable o text) ->
  make_job around argv <> JobRejected.
Proof.
  intros W H. unfold make_job.
  pose proof (written_accepted job_item (fun _ => eq_refl) argv l W) as A. fold job_table in A.
  destruct (command_line job_table argv) as [a|]; [|exfalso; apply A; [|reflexivity]].
  - destruct (set_up around a); discriminate.
  - intros o text I. destruct (H o text I) as [C K]. now apply convert_acceptable.
Qed.

(** * The values *)

Lemma job_values around argv l j : written argv l -> make_job around argv = JobReady j ->
  exists a, set_up around a = Some j /\
  forall o, (forall text, last_text l o text -> exists v, job_option a o = Some v /\ job_convert o text = Some v) /\
            (not_given l o -> job_option a o = None).
Proof.
  intros W H. unfold make_job in H. destruct (command_line job_table argv) as [a|] eqn:C; [|discriminate].
  exists a. split; [destruct (set_up around a); [now injection H as ->|discriminate]|].
  intro o. destruct (written_read job_item (fun _ => eq_refl) argv l a W C o) as [A B]. split; [|exact B].
  intros text L. destruct (A text L) as (v & E & _ & T). exists v. split; [exact E|exact T].
Qed.

Lemma parts around a j : set_up around a = Some j ->
  job_start_time around a = Some (start_time (job_info j)) /\ job_threads around a = Some (job_workers j) /\
  RecipeModel.build_id (job_info j) = job_id around a /\ bi_source_dir (job_info j) = job_source_dir a /\
  bi_target_dir (job_info j) = job_target_dir a /\ build_host (job_info j) = host_name around /\
  job_level j = chosen_level a /\ job_format j = output_format around a.
Proof.
  unfold set_up. destruct (job_start_time around a) as [t|]; [|discriminate]. destruct (job_threads around a) as [n|]; [|discriminate].
  intro H. injection H as <-. cbn. repeat split.
Qed.

Lemma workers_used around argv l j : written argv l -> make_job around argv = JobReady j ->
  (forall text z, last_text l NumWorkers text -> starts_with_integer text z -> (1 <= z <= 2147483647)%Z -> job_workers j = z) /\
  (last_text l NumWorkers (lit "auto") \/ not_given l NumWorkers -> job_workers j = Z.max (nprocs around) 1).
Proof.
  intros W H. destruct (job_values around argv l j W H) as (a & S & V). destruct (parts around a j S) as (_ & T & _).
  destruct (V NumWorkers) as [V1 V2]. unfold job_threads in T. split.
  - intros text z L (ws & t & rest & -> & Hw & Hs & F) R. destruct (V1 _ L) as (v & E & K). rewrite E in T. cbn [job_convert] in K.
    assert (no_digit_first 10 rest) as F'.
    { destruct rest as [|c r]; [exact I|]. cbn [no_digit_first]. destruct (digit_in 10 c) as [d|] eqn:D; [|reflexivity].
      apply digit_in_spec in D; [|lia]. destruct D as [D LD]. specialize (F _ D). lia. }
    rewrite (thread_count_number ws t rest z Hw Hs F') in K by (unfold int_min, int_max; lia).
    destruct (Z.ltb_spec z 1); [lia|]. cbn [to_value] in K. injection K as <-. injection T as <-.
    unfold thread_count_value. destruct (Z.ltb_spec z 0); [lia|reflexivity].
  - intros [L | N].
    + destruct (V1 _ L) as (v & E & K). rewrite E in T. cbn in K. injection K as <-. now injection T as <-.
    + rewrite (V2 N) in T. now injection T as <-.
Qed.

Lemma start_used around argv l j : written argv l -> make_job around argv = JobReady j ->
  (forall text z, last_text l StartTime text -> is_integer text z -> (- 2 ^ 63 <= z * 1000000000 < 2 ^ 63)%Z ->
     start_time (job_info j) = z) /\
  (not_given l StartTime -> start_time (job_info j) = Z.quot (now around) 1000000000).
Proof.
  intros W H. destruct (job_values around argv l j W H) as (a & S & V). destruct (parts around a j S) as (T & _).
  destruct (V StartTime) as [V1 V2]. unfold job_start_time in T. split.
  - intros text z L (ws & t & E1 & E2 & E3) R. destruct (V1 _ L) as (v & E & K). rewrite E in T. cbn [job_convert] in K.
    assert (time_stamp_of_string text = Accepted (z * 1000000000)%Z) as A.
    { apply time_stamp_accepted. unfold llong_min, llong_max. split; [lia|]. right. exists z, ws, t. tauto. }
    rewrite A in K. cbn [to_value] in K. injection K as <-. injection T as <-. unfold to_time_t. apply Z.quot_mul. discriminate.
  - intro N. rewrite (V2 N) in T. injection T as <-. reflexivity.
Qed.

Lemma id_used around argv l j : written argv l -> make_job around argv = JobReady j ->
  (forall text rest b, last_text l BuildId (text ++ rest) -> ValueSpec.build_id b -> spells text b ->
     RecipeModel.build_id (job_info j) = id_to_string b) /\
  (not_given l BuildId -> RecipeModel.build_id (job_info j) = id_to_string (random_id around)).
Proof.
  intros W H. destruct (job_values around argv l j W H) as (a & S & V). destruct (parts around a j S) as (_ & _ & T & _).
  destruct (V BuildId) as [V1 V2]. unfold job_id in T. split.
  - intros text rest b L B Sp. destruct (V1 _ L) as (v & E & K). rewrite E in T. cbn [job_convert] in K.
    rewrite (id_of_spelling text b rest B Sp) in K. cbn in K. injection K as <-. exact T.
  - intro N. rewrite (V2 N) in T. exact T.
Qed.

Lemma log_used around argv l j : written argv l -> make_job around argv = JobReady j ->
  (forall text x, last_text l LogLevel text -> In (text, x) level_names -> job_level j = x) /\
  (not_given l LogLevel -> job_level j = LevelSourceFileInfo) /\
  (forall text x, last_text l LogOutputFormat text -> In (text, x) format_names -> job_format j = x) /\
  (not_given l LogOutputFormat -> job_format j = if stderr_is_tty around then AnsiTerm else PlainText).
Proof.
  intros W H. destruct (job_values around argv l j W H) as (a & S & V). destruct (parts around a j S) as (_ & _ & _ & _ & _ & _ & T1 & T2).
  destruct (V LogLevel) as [V1 V2]. destruct (V LogOutputFormat) as [V3 V4]. unfold chosen_level in T1. unfold output_format in T2.
  split; [|split; [|split]].
  - intros text x L N. destruct (V1 _ L) as (v & E & K). rewrite E in T1. cbn [job_convert] in K.
    rewrite (proj2 (level_name_iff text x) N) in K. cbn in K. injection K as <-. exact T1.
  - intro N. rewrite (V2 N) in T1. exact T1.
  - intros text x L N. destruct (V3 _ L) as (v & E & K). rewrite E in T2. cbn [job_convert] in K.
    rewrite (proj2 (format_name_iff text x) N) in K. cbn in K. injection K as <-. exact T2.
  - intro N. rewrite (V4 N) in T2. exact T2.
Qed.

(** * A job within a job *)

Lemma time_seconds ns : (- 2 ^ 63 <= ns < 2 ^ 63)%Z -> (llong_min <= Z.quot ns 1000000000 * 1000000000 <= llong_max)%Z.
Proof.
  intro R. unfold llong_min, llong_max. pose proof (Z.quot_rem' ns 1000000000) as E.
  destruct (Z.le_gt_cases 0 ns) as [P | P].
  - pose proof (Z.rem_bound_pos ns 1000000000 P ltac:(lia)). pose proof (Z.quot_pos ns 1000000000 P ltac:(lia)). lia.
  - pose proof (Z.rem_nonpos ns 1000000000 ltac:(lia) ltac:(lia)) as B. pose proof (Z.rem_bound_abs ns 1000000000 ltac:(lia)). lia.
Qed.

Lemma byte_lor a b : (a < 256)%N -> (b < 256)%N -> (N.lor a b < 256)%N.
Proof.
  intros A B. apply (N.div_small_iff _ 256 ltac:(discriminate)). change 256%N with (2 ^ 8)%N in *.
  rewrite <- N.shiftr_div_pow2, N.shiftr_lor, !N.shiftr_div_pow2, !N.div_small by assumption. reflexivity.
Qed.

Lemma set_byte_bytes b : forall k bytes, (b < 256)%N -> Forall (fun x => (x < 256)%N) bytes ->
  length (set_byte k b bytes) = length bytes /\ Forall (fun x => (x < 256)%N) (set_byte k b bytes).
Proof.
  induction k as [|k IH]; intros [|x bytes] B F; cbn [set_byte].
  - split; [reflexivity|exact F].
  - inversion F as [|? ? F1 F2]; subst. split; [reflexivity|now constructor].
  - split; [reflexivity|exact F].
  - inversion F as [|? ? F1 F2]; subst. destruct (IH bytes B F2) as [L M]. split; [cbn; now rewrite L|now constructor].
Qed.

Lemma id_loop_bytes s : forall k v b b', length b = 32 -> Forall (fun x => (x < 256)%N) b -> (v < 256)%N ->
  id_loop s k v b = Some b' -> ValueSpec.build_id b'.
Proof.
  induction s as [|c s IH]; intros k v b b' L F V H; cbn [id_loop] in H; [injection H as <-; split; assumption|].
  destruct (Ascii.eqb c "000" || Nat.eqb k (2 * id_size)); [injection H as <-; split; assumption|].
  destruct (to_nibble c) as [n|] eqn:T; [|discriminate]. apply nibble_digit in T. destruct T as [_ T].
  destruct (Nat.odd k).
  - assert ((N.lor v n < 256)%N) as V' by (apply byte_lor; lia).
    destruct (set_byte_bytes (N.lor v n) (Nat.div2 k) b V' F) as [L' F'].
    apply (IH (S k) (N.lor v n) (set_byte (Nat.div2 k) (N.lor v n) b) b'); [now rewrite L'|exact F'|exact V'|exact H].
  - apply (IH (S k) _ b b' L F) in H; [exact H|].
    rewrite (N.land_ones _ 8). apply N.mod_upper_bound. discriminate.
Qed.

Lemma id_bytes s b : id_of_string s = Some b -> ValueSpec.build_id b.
Proof.
  apply id_loop_bytes; [reflexivity| |reflexivity]. apply Forall_forall. intros x I. apply repeat_spec in I. now subst.
Qed.

Lemma start_range around argv j : proper_around around -> make_job around argv = JobReady j ->
  exists ns, start_time (job_info j) = Z.quot ns 1000000000 /\ (- 2 ^ 63 <= ns < 2 ^ 63)%Z.
Proof.
  intros [R _] H. unfold make_job in H. destruct (command_line job_table argv) as [a|] eqn:C; [|discriminate].
  destruct (set_up around a) as [j'|] eqn:S; [|discriminate]. injection H as <-. destruct (parts around a j' S) as (T & _).
  unfold job_start_time in T. destruct (job_option a StartTime) as [v|] eqn:E.
  - unfold job_option in E. apply (values_iff job_table argv a (job_item StartTime) (proj1 (mk_proper job_item (fun _ => eq_refl))) C (mk_in job_item StartTime)) in E.
    destruct E as (_ & _ & text & _ & _ & _ & (_ & K) & _). cbn [job_item opt_convert job_convert] in K.
    destruct (time_stamp_of_string text) as [ns| |] eqn:P; cbn in K; try discriminate; injection K as <-; [|discriminate].
    injection T as T. exists ns. split; [now symmetry|]. apply time_stamp_accepted in P. destruct P as [P _]. unfold llong_min, llong_max in P. lia.
  - injection T as T. exists (now around). split; [now symmetry|exact R].
Qed.

Lemma id_proper around argv j : proper_around around -> make_job around argv = JobReady j ->
  exists b, RecipeModel.build_id (job_info j) = id_to_string b /\ ValueSpec.build_id b.
Proof.
  intros [_ R] H. unfold make_job in H. destruct (command_line job_table argv) as [a|] eqn:C; [|discriminate].
  destruct (set_up around a) as [j'|] eqn:S; [|discriminate]. injection H as <-. destruct (parts around a j' S) as (_ & _ & T & _).
  unfold job_id in T. destruct (job_option a BuildId) as [v|] eqn:E; [|eauto].
  unfold job_option in E. apply (values_iff job_table argv a (job_item BuildId) (proj1 (mk_proper job_item (fun _ => eq_refl))) C (mk_in job_item BuildId)) in E.
  destruct E as (_ & _ & text & _ & _ & _ & (_ & K) & _). cbn [job_item opt_convert job_convert] in K.
  destruct (id_of_string text) as [b|] eqn:P; cbn in K; [|discriminate]. injection K as <-.
  exists b. split; [exact T|exact (id_bytes text b P)].
Qed.

Lemma passed_on around argv j around' argv' l' j' : proper_around around -> make_job around argv = JobReady j ->
  written argv' l' -> make_job around' argv' = JobReady j' ->
  (last_text l' StartTime (decimal (start_time (job_info j))) -> start_time (job_info j') = start_time (job_info j)) /\
  (last_text l' BuildId (RecipeModel.build_id (job_info j)) -> RecipeModel.build_id (job_info j') = RecipeModel.build_id (job_info j)).
Proof.
  intros P H W H'. split; intro L.
  - destruct (start_range around argv j P H) as (ns & E & R).
    apply (proj1 (start_used around' argv' l' j' W H') _ _ L).
    + exists [], (decimal (start_time (job_info j))). split; [reflexivity|]. split; [constructor|apply decimal_constant].
    + rewrite E. pose proof (time_seconds ns R) as B. unfold llong_min, llong_max in B. lia.
  - destruct (id_proper around argv j P H) as (b & E & B). rewrite E in L |- *.
    apply (proj1 (id_used around' argv' l' j' W H') (id_to_string b) [] b); [now rewrite app_nil_r|exact B|].
    apply id_to_string_spells, B.
Qed.

Lemma passed_on_accepted around argv j around' : proper_around around -> make_job around argv = JobReady j ->
  exists j', make_job around' [lit "--start-time=" ++ decimal (start_time (job_info j)); lit "--build-id=" ++ RecipeModel.build_id (job_info j)] = JobReady j'.
Proof.
  intros P H. destruct (start_range around argv j P H) as (ns & E & R). destruct (id_proper around argv j P H) as (b & Eb & B).
  set (args := [_; _]).
  set (l := [(StartTime, decimal (start_time (job_info j))); (BuildId, RecipeModel.build_id (job_info j))]).
  assert (written args l) as W by (repeat constructor; right; reflexivity).
  assert (time_stamp_of_string (decimal (start_time (job_info j))) = Accepted (start_time (job_info j) * 1000000000)%Z) as T.
  { apply time_stamp_accepted. rewrite E. split; [exact (time_seconds ns R)|]. right.
    eexists _, [], _. split; [reflexivity|]. split; [reflexivity|]. split; [constructor|apply decimal_constant]. }
  assert (forall o text, In (o, text) l -> exists v, takes (job_item o) text v) as TK.
  { intros o text [I | [I | []]]; injection I as <- <-.
    - eexists. split; [|cbn [job_item opt_convert job_convert]; rewrite T; reflexivity]. left.
      pose proof (decimal_constant (start_time (job_info j))) as D. intro X. rewrite X in D.
      inversion D as [? ? Y|? ? Y|? ? Y]. inversion Y.
    - rewrite Eb. eexists. split; [|cbn [job_item opt_convert job_convert]; rewrite (id_round_trip b B); reflexivity]. left.
      intro X. destruct (id_to_string_spells b (proj2 B)) as [LS _]. rewrite X in LS. rewrite (proj1 B) in LS. discriminate LS. }
  pose proof (written_accepted job_item (fun _ => eq_refl) args l W TK) as A. fold job_table in A.
  unfold make_job. destruct (command_line job_table args) as [a|] eqn:C; [|congruence].
  destruct (written_read job_item (fun _ => eq_refl) args l a W C StartTime) as [V _].
  destruct (written_read job_item (fun _ => eq_refl) args l a W C NumWorkers) as [_ V'].
  destruct (V (decimal (start_time (job_info j)))) as (v & Ev & _ & K).
  { exists [], [(BuildId, RecipeModel.build_id (job_info j))]. split; [reflexivity|]. repeat constructor. discriminate. }
  cbn [job_item opt_convert job_convert] in K. rewrite T in K. cbn in K. injection K as <-.
  unfold set_up, job_start_time, job_threads, job_option. rewrite Ev. rewrite V' by (repeat constructor; discriminate).
  eexists. reflexivity.
Qed.

(** * The directories are those of the program *)

Definition forget (v : job_value) : opt_value :=
  match v with
  | PathGiven p => PathValue p
  | PathsGiven l => PathsValue l
  | _ => OtherValue
  end.

Lemma takes_forget o text v : takes (job_item o) text v -> takes (option_item job_accepts o) text (forget v).
Proof.
  intros [R K]. split; [exact R|]. cbn [job_item option_item opt_convert] in *.
  assert (job_accepts o text = true) as A by (unfold job_accepts; now rewrite K).
  destruct o; cbn [option_convert job_convert] in *; rewrite ?A; try (injection K as <-; reflexivity).
  1, 2: destruct (list_of_string _ text); cbn in K |- *; [injection K as <-; reflexivity|discriminate].
  all: try (destruct text; [injection K as <-; reflexivity|discriminate K]).
  1: destruct (id_of_string text); cbn in K; [injection K as <-; reflexivity|discriminate].
  1: destruct (time_stamp_of_string text); cbn in K; try discriminate; injection K as <-; reflexivity.
  1: destruct (thread_count_of_string text); cbn in K; try discriminate; injection K as <-; reflexivity.
  1: destruct (log_level_of_string text); cbn in K; [injection K as <-; reflexivity|discriminate].
  1: destruct (log_format_of_string text); cbn in K; [injection K as <-; reflexivity|discriminate].
Qed.

Lemma same_options argv a a' o : command_line job_table argv = Some a -> command_line (option_table job_accepts) argv = Some a' ->
  option_given a' o = option_map forget (job_option a o).
Proof.
  intros C C'. unfold option_given, job_option.
  pose proof (values_iff job_table argv a (job_item o) (proj1 (mk_proper job_item (fun _ => eq_refl))) C (mk_in job_item o)) as V.
  pose proof (values_iff (map (option_item job_accepts) all_options) argv a' (option_item job_accepts o)
    (proj1 (mk_proper (option_item job_accepts) (fun _ => eq_refl))) C' (mk_in (option_item job_accepts) o)) as V'.
  cbn [job_item option_item opt_name] in V, V'. fold (job_item o) in V. fold (option_item job_accepts o) in V'.
  assert (forall arg text, picks job_table arg (job_item o) text <-> picks (map (option_item job_accepts) all_options) arg (option_item job_accepts o) text) as PP.
  { intros arg text. unfold job_table. rewrite (picks_first job_item (fun _ => eq_refl)), (picks_first (option_item job_accepts) (fun _ => eq_refl)). reflexivity. }
  destruct (setting a (option_name o)) as [v|] eqn:E; cbn [option_map].
  - apply V' . destruct (proj1 (V v) eq_refl) as (a1 & arg & text & a2 & S & P & T & N).
    exists a1, arg, text, a2. split; [exact S|]. split; [now apply PP|]. split; [now apply takes_forget|].
    intros x t I Q. apply (N x t I). now apply PP.
  - destruct (setting a' (option_name o)) as [v|] eqn:E'; [|reflexivity]. exfalso.
    destruct (proj1 (V' v) eq_refl) as (a1 & arg & text & a2 & S & P & T & N).
    destruct (proj1 (accepts_takes o text) (ex_intro _ v T)) as (u & U).
    assert (None = Some u) as X; [|discriminate X]. apply V. exists a1, arg, text, a2. split; [exact S|]. split; [now apply PP|]. split; [exact U|].
    intros x t I Q. apply (N x t I). now apply PP.
Qed.

Lemma same_directories env around argv j s t fs : make_job around argv = JobReady j ->
  In (Scanned s t fs) (fst (main env job_accepts argv)) ->
  s = bi_source_dir (job_info j) /\ t = bi_target_dir (job_info j).
Proof.
  intros H I. unfold make_job in H. destruct (command_line job_table argv) as [a|] eqn:C; [|discriminate].
  destruct (set_up around a) as [j'|] eqn:S; [|discriminate]. injection H as <-.
  destruct (parts around a j' S) as (_ & _ & _ & E1 & E2 & _). rewrite E1, E2.
  destruct (scanned_event env job_accepts argv s t fs I) as (a' & evs & C' & _ & -> & -> & _).
  assert (source_directory a' = job_source_dir a) as E.
  { unfold source_directory, job_source_dir. rewrite (same_options argv a a' SourceDir C C').
    destruct (job_option a SourceDir) as [[]|]; reflexivity. }
  split; [exact E|]. unfold target_directory, job_target_dir. rewrite E. rewrite (same_options argv a a' TargetDir C C').
  destruct (job_option a TargetDir) as [[]|]; reflexivity.
Qed.

(** * What recipes are told *)

Lemma id_text b : Forall (fun x => (x < 256)%N) b -> is_text (id_to_string b).
Proof.
  intro F. apply ascii_text, Forall_forall. intros c I. apply In_nth_error in I. destruct I as (n & E).
  destruct (id_to_string_spells b F) as [L SP].
  assert (n < 2 * length b) as B by (rewrite <- L; apply nth_error_Some; congruence).
  assert (exists d, digit c d) as (d & D).
  { destruct (nth_error b (Nat.div2 n)) as [x|] eqn:X.
    - destruct (SP _ _ X) as (c1 & c2 & h & lo & E1 & E2 & D1 & D2 & _).
      destruct (Nat.Even_or_Odd n) as [[k ->] | [k ->]].
      + rewrite Nat.div2_double in E1. exists h. congruence.
      + replace (2 * k + 1) with (S (2 * k)) in * by lia. rewrite Nat.div2_succ_double in E2.
        replace (2 * k + 1) with (S (2 * k)) in E2 by lia. exists lo. congruence.
    - apply nth_error_None in X. pose proof (Nat.div2_div n). pose proof (Nat.div_mod_eq n 2). pose proof (Nat.mod_upper_bound n 2 ltac:(lia)). lia. }
  assert (digit_value c <> None) as V by (rewrite (digit_digit_value c d D); discriminate).
  clear - V. destruct c as [[] [] [] [] [] [] [] []]; try reflexivity; exfalso; apply V; reflexivity.
Qed.

Lemma job_told around argv j : proper_around around -> is_text (host_name around) -> make_job around argv = JobReady j ->
  is_text (path_string (bi_source_dir (job_info j))) -> is_text (path_string (bi_target_dir (job_info j))) ->
  exists m, build_info_to_json (job_info j) = JObject m /\
    obj_get (lit "start_time") m = Some (JInteger (start_time (job_info j))) /\
    obj_get (lit "build_id") m = Some (JString (RecipeModel.build_id (job_info j))) /\
    obj_get (lit "source_dir") m = Some (JString (path_string (bi_source_dir (job_info j)))) /\
    obj_get (lit "target_dir") m = Some (JString (path_string (bi_target_dir (job_info j)))) /\
    obj_get (lit "build_host") m = Some (JString (host_name around)).
Proof.
  intros P T H T1 T2. destruct (id_proper around argv j P H) as (b & E & B).
  assert (build_host (job_info j) = host_name around) as EH.
  { unfold make_job in H. destruct (command_line job_table argv) as [a|]; [|discriminate].
    destruct (set_up around a) as [j'|] eqn:S; [|discriminate]. injection H as <-. now destruct (parts around a j' S) as (_ & _ & _ & _ & _ & Q & _). }
  unfold build_info_to_json. rewrite EH, E.
  rewrite (json_string_text _ T), (json_string_text _ T1), (json_string_text _ T2), (json_string_text _ (id_text b (proj2 B))).
  cbn [set_new]. eexists. split; [reflexivity|].
  repeat split; repeat (rewrite obj_get_set_other by discriminate); apply obj_get_set_same.
Qed.

Lemma id_prints b : ValueSpec.build_id b -> prints b (id_to_string b).
Proof.
  intros [L F]. split; [now apply id_to_string_spells|]. clear L. induction F as [|x b B F IH]; [constructor|].
  cbn [id_to_string flat_map app].
  assert ((N.shiftr (N.land x 240) 4 < 16)%N /\ (N.land x 15 < 16)%N) as [P Q].
  { split.
    - rewrite N.shiftr_div_pow2. apply N.div_lt_upper_bound; [discriminate|].
      apply (N.le_lt_trans _ 240); [|reflexivity]. rewrite N.land_comm. apply N.ldiff_le. apply N.bits_inj. intro i.
      rewrite N.ldiff_spec, N.land_spec, N.bits_0. now destruct (N.testbit 240 i), (N.testbit x i).
    - change 15%N with (N.ones 4). rewrite N.land_ones. now apply N.mod_lt. }
  constructor; [|constructor; [|exact IH]]; apply nth_In; (apply (Nat.lt_le_trans _ 16); [lia|apply le_n]).
Qed.

Lemma id_shown around argv l j : proper_around around -> written argv l -> make_job around argv = JobReady j ->
  (forall text rest b, last_text l BuildId (text ++ rest) -> ValueSpec.build_id b -> spells text b ->
     prints b (RecipeModel.build_id (job_info j))) /\
  (not_given l BuildId -> prints (random_id around) (RecipeModel.build_id (job_info j))).
Proof.
  intros [_ P] W H. destruct (id_used around argv l j W H) as [A B]. split.
  - intros text rest b L I S. rewrite (A text rest b L I S). now apply id_prints.
  - intro N. rewrite (B N). now apply id_prints.
Qed.
