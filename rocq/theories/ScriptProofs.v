(** Proofs about the output of a dry run. *)

From Coq Require Import Ascii String ZArith Bool.
From Coq Require Import List Permutation.
From Verif Require Import Str Path JsonModel ValueModel DbModel DepGraphModel DepGraphSpec FileListSpec BuildModel BuildSpec BuildProofs LogModel LogSpec LogProofs JobModel ShowModel.
From Verif Require ShowSpec ShowProofs RecipeProofs.
From Verif Require Import RecipeModel JobSpec.
From Verif Require Import SchedModel SchedSpec SchedProofs TaskListModel TaskListSpec TaskListProofs WriteModel WriteSpec WriteProofs.
From Verif Require Import ScriptModel ScriptSpec.
Import ListNotations.

(** * The reader *)

Lemma read_comment t cmd rest : no_newline t ->
  sh_read InComment cmd (t ++ newline :: rest) = end_command cmd (sh_read Before [] rest).
Proof.
  induction t as [|c t IH]; intro N; [reflexivity|]. cbn [app sh_read].
  assert (Ascii.eqb c "010" = false) as -> by (apply Ascii.eqb_neq; intros ->; apply N; now left).
  apply IH. intro I. apply N. now right.
Qed.

Lemma read_quotes w u cmd rest : ~ In quote w ->
  sh_read (InQuotes u) cmd (w ++ quote :: rest) = sh_read (InWord true (u ++ w)) cmd rest.
Proof.
  revert u. induction w as [|c w IH]; intros u N; [now rewrite app_nil_r|]. cbn [app sh_read].
  assert (Ascii.eqb c "'" = false) as -> by (apply Ascii.eqb_neq; intros ->; apply N; now left).
  rewrite IH by (intro I; apply N; now right). now rewrite <- app_assoc.
Qed.

Lemma read_word w cmd rest : no_special w ->
  sh_read Before cmd (shell_escape w ++ " "%char :: rest) = sh_read Before (cmd ++ [w]) rest.
Proof.
  intros [B Q]. unfold shell_escape. rewrite escape_same by assumption. cbn [app sh_read Ascii.eqb Bool.eqb orb].
  change (sh_read (InQuotes []) cmd ((w ++ [quote]) ++ " "%char :: rest) = sh_read Before (cmd ++ [w]) rest).
  rewrite <- app_assoc. cbn [app]. rewrite read_quotes by assumption. cbn [app sh_read].
  change (Ascii.eqb " " "010") with false. change (Ascii.eqb " " " " || Ascii.eqb " " "009") with true. cbn iota.
  unfold end_word. destruct cmd; reflexivity.
Qed.

Lemma read_words ws : forall w cmd rest, Forall no_special (w :: ws) ->
  sh_read Before cmd (print_words w ws ++ " "%char :: rest) = sh_read Before (cmd ++ w :: ws) rest.
Proof.
  induction ws as [|x ws IH]; intros w cmd rest F; inversion F as [|? ? F1 F2]; subst; cbn [print_words].
  - now apply read_word.
  - rewrite <- app_assoc. cbn [app]. rewrite read_word by assumption. rewrite IH by assumption. now rewrite <- app_assoc.
Qed.

(** A line that has been written for a task *)
Lemma read_line cmd comment rest : Forall no_special (words cmd) -> no_newline comment ->
  sh_read Before [] (command_to_string cmd ++ lit " #" ++ comment ++ newline :: rest) =
  option_map (cons (words cmd)) (sh_read Before [] rest).
Proof.
  intros F N. rewrite command_to_string_words. change (lit " #" ++ comment ++ newline :: rest) with (" "%char :: "#"%char :: comment ++ newline :: rest).
  rewrite read_words by exact F. cbn [app sh_read]. change (Ascii.eqb "#" "010") with false.
  change (Ascii.eqb "#" " " || Ascii.eqb "#" "009") with false. change (Ascii.eqb "#" "#") with true. cbn iota.
  rewrite read_comment by exact N. reflexivity.
Qed.

Lemma read_comments ls rest : Forall (fun l => ~ In newline l) ls -> Forall (fun l => ShowSpec.is_comment l = true) ls ->
  sh_read Before [] (concat (map (fun l => l ++ [newline]) ls) ++ rest) = sh_read Before [] rest.
Proof.
  induction ls as [|l ls IH]; intros F C; [reflexivity|]. inversion F as [|? ? F1 F2]; subst. inversion C as [|? ? C1 C2]; subst.
  cbn [map concat]. rewrite <- !app_assoc. destruct l as [|c l]; [discriminate|]. cbn in C1. apply Ascii.eqb_eq in C1. subst c.
  cbn [app sh_read]. change (Ascii.eqb "#" "010") with false.
  change (Ascii.eqb "#" " " || Ascii.eqb "#" "009") with false. change (Ascii.eqb "#" "#") with true. cbn iota.
  rewrite (read_comment l [] (concat (map (fun l => l ++ [newline]) ls) ++ rest)) by (intro I; apply F1; now right).
  cbn [end_command]. now apply IH.
Qed.

(** ** What is not read as it was meant *)

Lemma end_word_app cmd q w cmd' : end_word cmd q w = Some cmd' -> cmd' = cmd ++ [w].
Proof.
  unfold end_word. destruct cmd as [|x cmd]; [|intro H; injection H as <-; reflexivity].
  destruct (negb q && existsb (str_eqb w) reserved_words); [discriminate|]. intro H. injection H as <-. reflexivity.
Qed.

Lemma end_command_app cmd rest cs : cmd <> [] -> end_command cmd rest = Some cs -> exists r, cs = cmd :: r.
Proof.
  destruct cmd as [|x cmd]; [intro H; destruct (H eq_refl)|]. intros _ H. cbn in H.
  destruct rest as [r|]; [|discriminate]. injection H as <-. now exists r.
Qed.

Lemma app_one_nonempty {A} (l : list A) x : l ++ [x] <> [].
Proof. destruct l; discriminate. Qed.

(** What has been read stays. *)
Lemma read_keeps s : forall st cmd cs, sh_read st cmd s = Some cs ->
  match st with
  | InQuotes w | InWord _ w | AfterBackslash w => exists w' ws rest, cs = (cmd ++ (w ++ w') :: ws) :: rest
  | Before | InComment => cmd <> [] -> exists ws rest, cs = (cmd ++ ws) :: rest
  end.
Proof.
  induction s as [|c s IH]; intros st cmd cs H.
  - destruct st as [|q w|w|w|]; cbn [sh_read] in H; try discriminate.
    + intro N. destruct (end_command_app _ _ _ N H) as (r & ->). exists [], r. now rewrite app_nil_r.
    + destruct (end_word cmd q w) as [cmd'|] eqn:E; [|discriminate]. apply end_word_app in E. subst cmd'.
      destruct (end_command_app _ _ _ (app_one_nonempty _ _) H) as (r & ->). exists [], [], r. now rewrite app_nil_r.
    + intro N. destruct (end_command_app _ _ _ N H) as (r & ->). exists [], r. now rewrite app_nil_r.
  - destruct st as [|q w|w|w|]; cbn [sh_read] in H.
    + intro N.
      assert (K : forall w, (exists w' ws rest, cs = (cmd ++ (w ++ w') :: ws) :: rest) -> exists ws rest, cs = (cmd ++ ws) :: rest).
      { intros w (w' & ws & rest & ->). now exists ((w ++ w') :: ws), rest. }
      destruct (Ascii.eqb c "010"); [destruct (end_command_app _ _ _ N H) as (r & ->); exists [], r; now rewrite app_nil_r|].
      destruct (Ascii.eqb c " " || Ascii.eqb c "009"); [exact (IH _ _ _ H N)|].
      destruct (Ascii.eqb c "#"); [exact (IH _ _ _ H N)|].
      destruct (Ascii.eqb c "'"); [exact (K _ (IH _ _ _ H))|].
      destruct (Ascii.eqb c "\"); [exact (K _ (IH _ _ _ H))|].
      destruct (plain_char c); [exact (K _ (IH _ _ _ H))|discriminate].
    + destruct (Ascii.eqb c "010").
      { destruct (end_word cmd q w) as [cmd'|] eqn:E; [|discriminate]. apply end_word_app in E. subst cmd'.
        destruct (end_command_app _ _ _ (app_one_nonempty _ _) H) as (r & ->). exists [], [], r. now rewrite app_nil_r. }
      destruct (Ascii.eqb c " " || Ascii.eqb c "009").
      { destruct (end_word cmd q w) as [cmd'|] eqn:E; [|discriminate]. apply end_word_app in E. subst cmd'.
        destruct (IH _ _ _ H (app_one_nonempty _ _)) as (ws & rest & ->). exists [], ws, rest. now rewrite app_nil_r, <- app_assoc. }
      destruct (Ascii.eqb c "'"); [exact (IH _ _ _ H)|].
      destruct (Ascii.eqb c "\"); [exact (IH _ _ _ H)|].
      destruct (plain_char c || Ascii.eqb c "#"); [|discriminate].
      destruct (IH _ _ _ H) as (w' & ws & rest & ->). exists (c :: w'), ws, rest. now rewrite <- app_assoc.
    + destruct (Ascii.eqb c "'"); [exact (IH _ _ _ H)|].
      destruct (IH _ _ _ H) as (w' & ws & rest & ->). exists (c :: w'), ws, rest. now rewrite <- app_assoc.
    + destruct (Ascii.eqb c "010"); [discriminate|].
      destruct (IH _ _ _ H) as (w' & ws & rest & ->). exists (c :: w'), ws, rest. now rewrite <- app_assoc.
    + intro N. destruct (Ascii.eqb c "010"); [destruct (end_command_app _ _ _ N H) as (r & ->); exists [], r; now rewrite app_nil_r|].
      exact (IH _ _ _ H N).
Qed.

Lemma special_dec w : no_special w \/ ~ no_special w.
Proof.
  unfold no_special. destruct (in_dec Ascii.ascii_dec backslash w) as [I|I]; [right; tauto|].
  destruct (in_dec Ascii.ascii_dec quote w) as [J|J]; [right; tauto|left; tauto].
Qed.

(** The backslashes at the beginning of a word *)
Lemma leading_backslashes (w : str) : exists k y, w = repeat backslash k ++ y /\ forall z, y <> backslash :: z.
Proof.
  induction w as [|c w (k & y & E & N)]; [now exists 0, []|].
  destruct (Ascii.eqb c backslash) eqn:B.
  - apply Ascii.eqb_eq in B. subst c w. now exists (S k), y.
  - exists 0, (c :: w). split; [reflexivity|]. intros z K. injection K as -> _. discriminate.
Qed.

Lemma read_backslashes k : forall u cmd y rest,
  sh_read (InQuotes u) cmd (escape_chars (repeat backslash k ++ y) ++ rest) =
  sh_read (InQuotes (u ++ repeat backslash (k + k))) cmd (escape_chars y ++ rest).
Proof.
  induction k as [|k IH]; intros u cmd y rest; [cbn [repeat app Nat.add]; now rewrite app_nil_r|].
  cbn [repeat app escape_chars]. change (Ascii.eqb backslash backslash || Ascii.eqb backslash quote) with true. cbn iota. cbn [app sh_read].
  change (Ascii.eqb backslash "'") with false. cbn iota. rewrite IH. rewrite <- !app_assoc. cbn [Nat.add]. rewrite <- plus_n_Sm. reflexivity.
Qed.

Lemma read_special w : forall u cmd rest ws others, ~ no_special w ->
  sh_read (InQuotes u) cmd (escape_chars w ++ rest) <> Some ((cmd ++ (u ++ w) :: ws) :: others).
Proof.
  assert (Same : forall cmd (a b : str) ws ws' (o o' : list (list str)),
            Some ((cmd ++ a :: ws) :: o) = Some ((cmd ++ b :: ws') :: o') -> a = b).
  { intros cmd a b ws ws' o o' H. injection H as H _. apply app_inv_head in H. now injection H. }
  induction w as [|c w IH]; intros u cmd rest ws others N H; [apply N; split; intros []|].
  destruct (Ascii.eqb c quote) eqn:Q.
  - apply Ascii.eqb_eq in Q. subst c. cbn [escape_chars] in H. change (Ascii.eqb quote backslash || Ascii.eqb quote quote) with true in H.
    cbn iota in H. cbn [app sh_read] in H. change (Ascii.eqb backslash "'") with false in H. change (Ascii.eqb quote "'") with true in H.
    cbn iota in H. destruct (read_keeps _ _ _ _ H) as (w' & ws' & r' & E).
    injection E as E _. apply app_inv_head in E. injection E as E _. rewrite <- app_assoc in E. apply app_inv_head in E.
    discriminate E.
  - destruct (Ascii.eqb c backslash) eqn:B.
    + apply Ascii.eqb_eq in B. subst c. destruct (leading_backslashes (backslash :: w)) as (k & y & E & M).
      rewrite E in H. rewrite read_backslashes in H. destruct (read_keeps _ _ _ _ H) as (w' & ws' & r' & E').
      injection E' as E' _. apply app_inv_head in E'. injection E' as E' _. rewrite <- app_assoc in E'. apply app_inv_head in E'.
      rewrite repeat_app, <- app_assoc in E'. apply app_inv_head in E'.
      destruct k as [|k]; [|exact (M _ E')]. cbn [repeat app] in E. exact (M w (eq_sym E)).
    + cbn [escape_chars] in H. rewrite B, Q in H. cbn [orb app sh_read] in H.
      change (Ascii.eqb c "'") with (Ascii.eqb c quote) in H. rewrite Q in H.
      apply (IH (u ++ [c]) cmd rest ws others).
      * intros (N1 & N2). apply N. split; intros [->|I]; try contradiction; discriminate.
      * rewrite <- app_assoc. exact H.
Qed.

Lemma read_word_special w cmd rest ws others : ~ no_special w ->
  sh_read Before cmd (shell_escape w ++ rest) <> Some ((cmd ++ w :: ws) :: others).
Proof.
  intros N H. unfold shell_escape in H. rewrite <- !app_assoc in H. cbn [app sh_read] in H.
  exact (read_special w [] cmd _ ws others N H).
Qed.

Lemma read_words_special ws : forall w cmd others, ~ Forall no_special (w :: ws) ->
  sh_read Before cmd (print_words w ws) <> Some ((cmd ++ w :: ws) :: others).
Proof.
  induction ws as [|x ws IH]; intros w cmd others N H; cbn [print_words] in H.
  - apply (read_word_special w cmd [] [] others); [|now rewrite app_nil_r].
    intro K. apply N. now constructor.
  - destruct (special_dec w) as [K|K]; [|exact (read_word_special _ _ _ _ _ K H)].
    rewrite (read_word w cmd _ K) in H.
    apply (IH x (cmd ++ [w]) others); [|now rewrite <- app_assoc].
    intro L. apply N. now constructor.
Qed.

Lemma read_last ws : forall w cmd, Forall no_special (w :: ws) ->
  sh_read Before cmd (print_words w ws) = Some [cmd ++ w :: ws].
Proof.
  induction ws as [|x ws IH]; intros w cmd F; inversion F as [|? ? F1 F2]; subst; cbn [print_words].
  - destruct F1 as [B Q]. unfold shell_escape. rewrite escape_same by assumption. cbn [app sh_read Ascii.eqb Bool.eqb orb].
    change (sh_read (InQuotes []) cmd (w ++ [quote]) = Some [cmd ++ [w]]).
    rewrite read_quotes by assumption. cbn [app sh_read]. unfold end_word. destruct cmd; reflexivity.
  - rewrite read_word by assumption. rewrite IH by assumption. now rewrite <- app_assoc.
Qed.

Lemma command_read_exactly c : script_commands (command_to_string c) = Some [command_words c] <-> Forall no_special (command_words c).
Proof.
  unfold script_commands. rewrite command_to_string_words. split.
  - intro H. assert (D : Forall no_special (command_words c) \/ ~ Forall no_special (command_words c)).
    { clear H. induction (command_words c) as [|w ws IH]; [left; constructor|].
      destruct (special_dec w) as [S|S]; [|right; intro F; inversion F; contradiction].
      destruct IH as [I|I]; [left; now constructor|right; intro F; inversion F; contradiction]. }
    destruct D as [D|D]; [exact D|]. destruct (read_words_special _ _ [] [] D H).
  - intro F. exact (read_last _ _ [] F).
Qed.

(** * The records *)

Lemma newline_app a b : no_newline (a ++ b) <-> no_newline a /\ no_newline b.
Proof. unfold no_newline. rewrite in_app_iff. tauto. Qed.

Ltac no_newline_const := let I := fresh in intro I; cbn in I; repeat (destruct I as [I | I]; [discriminate I|]); exact I.

Lemma header_line t mark times : no_newline mark -> no_newline (task_path t) -> no_newline times ->
  no_newline (header (decimal (task_id t)) mark (task_path t) times).
Proof.
  intros A B C. unfold header. repeat (apply newline_app; split); try assumption; try no_newline_const.
  exact (ShowProofs.decimal_line _).
Qed.

Section Records.
  Variable info : nat -> task_info.
  Variable needed : nat -> option bool.
  Variable real : nat -> option (exit_status * str * str).
  Let result v := invoke_if_necessary true (needed v) (real v).

  Definition good (v : nat) : Prop :=
    Forall quotable_word (words (task_cmd (info v))) /\ no_newline (task_path (info v)) /\ no_nul (task_path (info v)).

  Lemma read_record v rest : good v -> needed v <> None ->
    sh_read Before [] (out_record LevelCompilationCommand info result v ++ rest) =
    option_map (cons (words (task_cmd (info v)))) (sh_read Before [] rest).
  Proof.
    intros (W & N & Z) K.
    assert (Forall no_special (words (task_cmd (info v)))) as W1 by (eapply Forall_impl; [|exact W]; intros w (A & B & _); now split).
    assert (Forall no_nul (words (task_cmd (info v)))) as W2 by (eapply Forall_impl; [|exact W]; intros w (_ & _ & C); exact C).
    unfold out_record, result, invoke_if_necessary. destruct (needed v) as [[]|]; [| |contradiction].
    - rewrite (log_result_command (info v) _ _ _ W2). cbn [fst].
      change (@nil ascii) with (text [] []) at 1. rewrite (log_result_info (info v)); [|constructor|intros []|exact Z|intros []|intros []].
      cbn [fst marked_text map concat]. rewrite app_nil_r, <- !app_assoc. cbn [app].
      apply read_line; [exact W1|]. apply header_line; [no_newline_const|exact N|].
      repeat (apply newline_app; split); try no_newline_const; exact (ShowProofs.decimal_line _).
    - assert (log_skipped LevelCompilationCommand (info v) = command_to_string (task_cmd (info v)) ++ lit " #" ++ log_skipped LevelSourceFileInfo (info v)) as ->.
      { unfold log_skipped, with_command. rewrite <- !app_assoc. rewrite c_str_app; [|rewrite command_to_string_words; apply no_nul_print; exact W2].
        reflexivity. }
      rewrite log_skipped_info by exact Z. rewrite <- !app_assoc. cbn [app].
      apply read_line; [exact W1|]. apply header_line; [no_newline_const|exact N|no_newline_const].
  Qed.

  Lemma read_records order : Forall good order -> (forall v, In v order -> needed v <> None) ->
    sh_read Before [] (concat (map (out_record LevelCompilationCommand info result) order)) =
    Some (map (fun v => words (task_cmd (info v))) order).
  Proof.
    induction order as [|v order IH]; intros G K; [reflexivity|]. inversion G; subst. cbn [map concat].
    rewrite read_record; [|assumption|apply K; now left]. rewrite IH; [reflexivity|assumption|]. intros u I. apply K. now right.
  Qed.
End Records.

(** * The run *)

Lemma accepted_ends info level result ls : forall L L', accept_all level info result ls L = Some L' ->
  forall v o, In (Finish v o) ls -> task_end (result v) = o.
Proof.
  induction ls as [|l ls IH]; intros L L' A v o I; [destruct I|]. cbn [accept_all] in A.
  destruct (accept level info result l L) as [L1|] eqn:E; [|discriminate]. destruct I as [-> | I]; [|exact (IH _ _ A _ _ I)].
  cbn [accept] in E. destruct (lookup_todo v (todo L)); [|discriminate]. destruct o, (task_end (result v)); try discriminate; reflexivity.
Qed.

Lemma run_ends reads level info result cs : forall F tr F', full_run reads level info result cs F = Some (tr, F') ->
  forall v o, In (Finish v o) tr -> task_end (result v) = o.
Proof.
  induction cs as [|c cs IH]; intros F tr F' R v o I; cbn [full_run] in R; [injection R as <- <-; destruct I|].
  destruct (full_step reads level info result c F) as [[l F1]|] eqn:E; [|discriminate].
  destruct (full_run reads level info result cs F1) as [[tr1 F2]|] eqn:E1; [|discriminate]. injection R as <- <-.
  apply in_app_or in I. destruct I as [I|I]; [|exact (IH _ _ _ E1 _ _ I)].
  unfold full_step in E. destruct c as [c|u].
  - destruct (step reads c (fst F)) as [[l' s]|]; [|discriminate]. destruct (accept_all level info result l' (snd F)) as [L|] eqn:A; [|discriminate].
    injection E as <- <-. exact (accepted_ends _ _ _ _ _ _ A _ _ I).
  - destruct (act u (snd F)); [|discriminate]. injection E as <- <-. destruct I.
Qed.

Lemma script_text around argv j : proper_around around -> make_job around argv = JobReady j ->
  no_newline (path_string (bi_source_dir (job_info j))) -> no_newline (path_string (bi_target_dir (job_info j))) ->
  forall fs g, loaded fs g -> forall rs tasks, task_list g rs tasks -> forall ws, idle_pool ws ->
  forall info needed real cs tr F n,
  (forall v, In v tasks -> Forall quotable_word (executable (task_cmd (info v)) :: cmd_args (task_cmd (info v))) /\
     no_newline (task_path (info v)) /\ no_nul (task_path (info v))) ->
  full_run (task_reads g) LevelCompilationCommand info (fun v => invoke_if_necessary true (needed v) (real v)) cs (full_init rs tasks ws) = Some (tr, F) ->
  ph (fst F) = Returned n ->
  exists order, Permutation tasks order /\
    script_commands (banner j ++ out_text (snd F)) = Some (map (fun v => executable (task_cmd (info v)) :: cmd_args (task_cmd (info v))) order) /\
    (forall l1 v l2 p, order = l1 ++ v :: l2 -> numbered g v p ->
     forall d q, numbered g d q -> file_needs g p q -> builds g q -> In d l1).
Proof.
  intros P J S T fs g Hl rs tasks Ht ws Hw info needed real cs tr F n G R Ph.
  destruct (project_records fs g Hl rs tasks Ht ws Hw _ _ _ cs tr F n R Ph) as (order & Pm & O & _ & D).
  exists order. split; [exact Pm|]. split; [|exact D]. unfold script_commands. rewrite O.
  destruct (ShowProofs.banner_text around argv j P J S T) as [-> B].
  rewrite read_comments; [|exact B|repeat constructor].
  apply read_records.
  - apply Forall_forall. intros v I. apply G. exact (Permutation_in v (Permutation_sym Pm) I).
  - intros v I K. assert (In v tasks) as I' by exact (Permutation_in v (Permutation_sym Pm) I).
    destruct (task_list_facts fs g Hl rs tasks Ht) as (Hsetup & _ & _).
    pose proof (full_run_fexec (task_reads g) _ info _ rs tasks ws cs [] _ tr F (fexec_init _ _ _ _ _ _ _) R) as X.
    pose proof (fexec_exec _ _ _ _ _ _ _ _ _ X) as Hex.
    destruct (returned_all _ _ _ _ Hsetup Hw _ _ _ Hex Ph) as (_ & _ & Hall).
    pose proof (run_ends _ _ _ _ _ _ _ _ R v Succeeds (Hall v I')) as E. cbn beta in E. rewrite K in E. discriminate.
Qed.

Lemma logged_facts dump j times g v t : logged dump j times g v = Some t ->
  exists p, numbered g v p /\ task_path t = path_string p /\ task_command dump j g v = Some (task_cmd t).
Proof.
  unfold logged. intro H. destruct (nth_error g v) as [[p i]|] eqn:E; [|discriminate].
  destruct (task_command dump j g v) as [c|]; [|discriminate]. injection H as <-. exists p.
  split; [unfold numbered; rewrite nth_error_map, E; reflexivity|]. split; reflexivity.
Qed.

Lemma command_task dump j g : shows_task_id dump -> forall u v c d, task_command dump j g u = Some c -> task_command dump j g v = Some d ->
  command_words c = command_words d -> u = v.
Proof.
  intros K u v c d Hu Hv E. unfold task_command, make_build_command in *.
  destruct (nth_error g u) as [[p i]|]; [|discriminate]. destruct (effective_compiler i) as [k|]; [|discriminate].
  destruct (nth_error g v) as [[p' i']|]; [|discriminate]. destruct (effective_compiler i') as [k'|]; [|discriminate].
  injection Hu as <-. injection Hv as <-. unfold command_words in E. cbn [executable cmd_args] in E.
  match type of E with _ :: [_; ?a] = _ :: [_; ?b] => assert (a = b) as E' by congruence end.
  exact (K _ _ _ _ E' (RecipeProofs.options_id _ _ _ _ _ _ _) (RecipeProofs.options_id _ _ _ _ _ _ _)).
Qed.

Theorem script_read dump around argv j : proper_around around -> make_job around argv = JobReady j -> job_level j = LevelCompilationCommand ->
  no_newline (path_string (bi_source_dir (job_info j))) -> no_newline (path_string (bi_target_dir (job_info j))) ->
  forall fs g, loaded fs g -> (forall p, known g p -> one_line (path_string p)) ->
  forall tasks out, dry_run dump j g tasks out ->
  (forall v c, In v tasks -> task_command dump j g v = Some c -> Forall quotable_word (command_words c)) ->
  exists order cmds, Permutation tasks order /\
    script_commands out = Some cmds /\
    Forall2 (fun v c => option_map command_words (task_command dump j g v) = Some c) order cmds /\
    (forall l1 v l2 p, order = l1 ++ v :: l2 -> numbered g v p ->
     forall d q, numbered g d q -> file_needs g p q -> builds g q -> In d l1).
Proof.
  intros P J L S T fs g Hl Hk tasks out (rs & ws & times & info & needed & real & cs & tr & F & n & Ht & Hw & I & R & Ph & ->) W. rewrite L in R.
  destruct (script_text around argv j P J S T fs g Hl rs tasks Ht ws Hw info needed real cs tr F n) as (order & Pm & E & D); [|exact R|exact Ph|].
  - intros v Iv. destruct (logged_facts _ _ _ _ _ _ (I v Iv)) as (p & Np & Ep & Ec). split; [exact (W v _ Iv Ec)|].
    rewrite Ep. apply Hk. now exists v.
  - exists order. eexists. split; [exact Pm|]. split; [exact E|]. split; [|exact D].
    assert (Forall (fun v => In v tasks) order) as Fo.
    { apply Forall_forall. intros v Iv. exact (Permutation_in v (Permutation_sym Pm) Iv). }
    clear - I Fo. induction Fo as [|v order Iv Fo IH]; [constructor|]. cbn [map]. constructor; [|exact IH].
    destruct (logged_facts _ _ _ _ _ _ (I v Iv)) as (p & Np & Ep & Ec). now rewrite Ec.
Qed.

(** * Running the script *)

Lemma run_current fs g : loaded fs g -> proper_names fs g -> forall rs tasks, task_list g rs tasks ->
  forall command_of : nat -> list str -> Prop, (forall u v c, command_of u c -> command_of v c -> u = v) ->
  forall order cmds D D', Forall2 command_of order cmds -> Forall (fun v => In v tasks) order -> NoDup order ->
  (forall l1 v l2 p, order = l1 ++ v :: l2 -> numbered g v p ->
     forall d q, numbered g d q -> file_needs g p q -> builds g q -> ~ In d l2) ->
  script_run g command_of cmds D D' ->
  forall seen, (forall v, In v seen -> In v tasks /\ ~ In v order /\ current g D v /\
     forall p d q, numbered g v p -> numbered g d q -> file_needs g p q -> builds g q -> ~ In d order) ->
  forall v, In v seen \/ In v order -> current g D' v.
Proof.
  intros Hl Hn rs tasks Ht command_of Inj order. induction order as [|w order IH]; intros cmds D D' F2 Fo Nd Df R seen Hs v Hv.
  - inversion F2; subst. inversion R; subst. destruct Hv as [Hv|[]]. now apply Hs.
  - inversion Fo as [|? ? Iw Fo']; subst. inversion Nd as [|? ? Nw Nd']; subst. inversion F2 as [|? c ? cmds' Cw F2']; subst.
    inversion R as [|w' c' rest D0 D1 D2 Lw Ch Cu R' E1 E2 E3]; subst. assert (w' = w) as -> by exact (Inj _ _ _ Lw Cw).
    apply (IH cmds' D1 D' F2' Fo' Nd') with (seen := w :: seen).
    + intros l1 u l2 p E. apply (Df (w :: l1) u l2 p). cbn [app]. now f_equal.
    + exact R'.
    + intros u [<- | Iu].
      * split; [exact Iw|]. split; [exact Nw|]. split; [exact Cu|]. intros p d q A B C E. exact (Df [] w order p eq_refl A d q B C E).
      * destruct (Hs u Iu) as (A & B & C & E). split; [exact A|]. split; [intro K; apply B; now right|]. split.
        -- apply (current_same fs g Hl Hn rs tasks Ht D D1 w u A); [intros ->; apply B; now left|exact Ch| |exact C].
           intros (p & pu & K1 & K2 & K3 & K4). apply (E p w pu K1 K2 K4 K3). now left.
        -- intros p d q A' B' C' E' I. apply (E p d q A' B' C' E'). now right.
    + destruct Hv as [Hv|[-> | Hv]]; [left; now right|left; now left|now right].
Qed.

Theorem script_builds dump around argv j : shows_task_id dump -> proper_around around -> make_job around argv = JobReady j ->
  job_level j = LevelCompilationCommand ->
  no_newline (path_string (bi_source_dir (job_info j))) -> no_newline (path_string (bi_target_dir (job_info j))) ->
  forall fs g, loaded fs g -> proper_names fs g -> (forall p, known g p -> one_line (path_string p)) ->
  forall tasks out, dry_run dump j g tasks out ->
  (forall v c, In v tasks -> task_command dump j g v = Some c -> Forall quotable_word (command_words c)) ->
  exists cmds, script_commands out = Some cmds /\
  forall D D', script_run g (fun v c => option_map command_words (task_command dump j g v) = Some c) cmds D D' ->
  forall v, In v tasks -> current g D' v.
Proof.
  intros K P J L S T fs g Hl Hn Hk tasks out R W.
  destruct (script_read dump around argv j P J L S T fs g Hl Hk tasks out R W) as (order & cmds & Pm & E & F2 & D).
  destruct R as (rs & _ & _ & _ & _ & _ & _ & _ & _ & _ & Ht & _).
  exists cmds. split; [exact E|]. intros D0 D' X v Iv.
  destruct (task_list_facts fs g Hl rs tasks Ht) as ([Nd _ _] & _ & _).
  assert (NoDup order) as No by exact (Permutation_NoDup Pm Nd).
  apply (run_current fs g Hl Hn rs tasks Ht (fun v c => option_map command_words (task_command dump j g v) = Some c)) with (order := order) (cmds := cmds) (D := D0) (seen := []).
  - intros u w c A B. destruct (task_command dump j g u) as [a|] eqn:Ea; [|discriminate]. destruct (task_command dump j g w) as [b|] eqn:Eb; [|discriminate].
    cbn [option_map] in A, B. apply (command_task dump j g K u w a b Ea Eb). congruence.
  - exact F2.
  - apply Forall_forall. intros w Iw. exact (Permutation_in w (Permutation_sym Pm) Iw).
  - exact No.
  - intros l1 w l2 p Eo Nw d q Nq Fn Bq I2. pose proof (D l1 w l2 p Eo Nw d q Nq Fn Bq) as I1. rewrite Eo in No.
    apply NoDup_remove_1 in No. revert I1 I2. clear - No. intros I1 I2. induction l1 as [|a l1 IH]; [destruct I1|].
    inversion No as [|? ? Na No']; subst. destruct I1 as [-> | I1]; [apply Na, in_or_app; now right|exact (IH No' I1)].
  - exact X.
  - intros u [].
  - right. exact (Permutation_in v Pm Iv).
Qed.
