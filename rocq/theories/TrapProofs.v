(** Proofs about what is left by the integration test. *)

From Coq Require Import Ascii String Bool Arith Lia.
From Coq Require Import List.
From Verif Require Import Str PathProofs IntegModel IntegSpec IntegProofs TrapModel TrapSpec.
Import ListNotations.
Local Open Scope string_scope.
Local Open Scope list_scope.

Definition temp_words : list str := w ["mktemp"; "-d"].

(** ** Commands that are something else than mktemp -d *)

Definition chars (r : list str * option str) : str := concat (fst r) ++ match snd r with Some x => x | None => [] end.

Lemma chars_flush r : chars (flush r) = chars r.
Proof. destruct r as [done [x|]]; unfold chars; cbn; [|reflexivity]. rewrite concat_app. cbn. now rewrite !app_nil_r. Qed.

Lemma chars_add s r : chars (add s r) = chars r ++ s.
Proof. destruct r as [done [x|]]; unfold chars; cbn; now rewrite ?app_nil_r, ?app_assoc. Qed.

Lemma chars_piece env p c r : In c (chars r) -> In c (chars (expand_piece env r p)).
Proof.
  destruct p as [s|v|v]; cbn; intro I.
  - rewrite chars_add. apply in_or_app. now left.
  - rewrite chars_add. apply in_or_app. now left.
  - revert r I. induction (env v) as [|a x IH]; intros r I; cbn; [exact I|]. apply IH. destruct (blank a).
    + now rewrite chars_flush.
    + rewrite chars_add. apply in_or_app. now left.
Qed.

Lemma chars_pieces env c ps : forall r, In c (chars r) -> In c (chars (fold_left (expand_piece env) ps r)).
Proof. induction ps as [|p ps IH]; intros r I; cbn; [exact I|]. now apply IH, chars_piece. Qed.

Lemma chars_text env c t ps : In (Text t) ps -> In c t -> forall r, In c (chars (fold_left (expand_piece env) ps r)).
Proof.
  intros I C. induction ps as [|p ps IH]; intro r; [easy|]. cbn. destruct I as [->|I].
  - apply chars_pieces. cbn. rewrite chars_add. apply in_or_app. now right.
  - now apply IH.
Qed.

Lemma expand_text env c t ps ws : In ps ws -> In (Text t) ps -> In c t -> In c (concat (expand env ws)).
Proof.
  intros P I C. apply in_concat. pose proof (chars_text env c t ps I C ([], None)) as H. rewrite <- chars_flush in H.
  unfold chars in H. remember (flush (fold_left (expand_piece env) ps ([], None))) as r eqn:R.
  assert (N : snd r = None) by (subst r; destruct (fold_left _ _ _) as [? [?|]]; reflexivity). rewrite N, app_nil_r in H.
  apply in_concat in H as (x & X & Y). exists x. split; [|exact Y]. unfold expand. apply in_flat_map. exists ps. split; [exact P|].
  unfold expand_word. now rewrite <- R.
Qed.

Definition strange (c : ascii) : bool := negb (existsb (Ascii.eqb c) (concat temp_words)).
Definition other (ws : list word) : bool :=
  existsb (existsb (fun p => match p with Text t => existsb strange t | _ => false end)) ws.

Lemma other_words env ws : other ws = true -> expand env ws <> temp_words.
Proof.
  unfold other. intros O E. apply existsb_exists in O as (ps & P & O). apply existsb_exists in O as ([t|v|v] & I & O); try discriminate.
  apply existsb_exists in O as (c & C & S). pose proof (expand_text env c t ps ws P I C) as H. rewrite E in H.
  unfold strange in S. apply negb_true_iff in S. rewrite (proj2 (existsb_exists _ _)) in S; [discriminate|]. exists c. split; [exact H|apply Ascii.eqb_refl].
Qed.

Fixpoint quiet (s : script) : bool :=
  match s with
  | End | Exit _ _ | ExitStatus => true
  | Cmd ws k | LetIgnored _ ws k | Or ws k => other ws && quiet k
  | Let _ pl k => forallb other pl && quiet k
  | Is _ _ k => quiet k
  | Trap _ _ => false
  | IfEqual _ _ yes no k => quiet yes && quiet no && quiet k
  end.

Section Run.
Variable run : list event -> list str -> str -> nat * str.

(** New commands are not mktemp -d. *)
Definition no_new (old new : list event) : Prop := forall e, In e new -> In e old \/ ran e <> temp_words.

Lemma no_new_refl l : no_new l l.
Proof. intros e I. now left. Qed.

Lemma no_new_trans a b c : no_new a b -> no_new b c -> no_new a c.
Proof. intros A B e I. destruct (B e I) as [J|J]; [apply A, J|now right]. Qed.

Lemma no_new_one env evs ws i n o l : other ws = true -> no_new evs (evs ++ [mk_event (expand env ws) i n o l]).
Proof. intros O e I. apply in_app_or in I as [I|[<-|[]]]; [now left|]. right. cbn. now apply other_words. Qed.

Lemma no_new_pipeline env pl : forallb other pl = true -> forall evs i evs' st out, run_pipeline run env evs pl i = (evs', st, out) -> no_new evs evs'.
Proof.
  induction pl as [|ws [|ws' pl] IH]; intros O evs i evs' st out H.
  - cbn in H. injection H as <- <- <-. apply no_new_refl.
  - cbn in H, O. unfold run_one in H. destruct (run _ _ _) as [n o]. injection H as <- <- <-. apply no_new_one. now apply andb_true_iff in O.
  - cbn [run_pipeline] in H. unfold run_one at 1 in H. destruct (run evs _ _) as [n o]. cbn [forallb] in O. apply andb_true_iff in O as (O1 & O2).
    apply (IH O2) in H. eapply no_new_trans; [|exact H]. now apply no_new_one.
Qed.

Lemma quiet_spec s : quiet s = true -> forall sh, no_new (events sh) (events (fst (exec run s sh))) /\ forall t, trapped run s sh t = t.
Proof.
  induction s as [|ws k IH|v pl k IH|v ws k IH|v x k IH|ws k IH|ws k IH|a b yes IHy no IHn k IH|n k IH|]; cbn [quiet]; intros Q sh; cbn [exec trapped].
  - split; [apply no_new_refl|reflexivity].
  - apply andb_true_iff in Q as (O & Q). unfold run_one. destruct (run _ _ _) as [n o]. destruct (Nat.eqb n 0).
    + destruct (IH Q (mk_shell (value_of sh) (events sh ++ [mk_event (expand (value_of sh) ws) [] n o true]) (exit_status sh))) as (A & B).
      split; [|exact B]. eapply no_new_trans; [|exact A]. now apply no_new_one.
    + split; [now apply no_new_one|reflexivity].
  - apply andb_true_iff in Q as (O & Q). destruct (run_pipeline _ _ _ _ _) as [[evs st] out] eqn:P. apply (no_new_pipeline _ _ O) in P. destruct (Nat.eqb st 0).
    + destruct (IH Q (mk_shell (set_value (value_of sh) v (substituted out)) evs (exit_status sh))) as (A & B). split; [|exact B]. eapply no_new_trans; [|exact A]. exact P.
    + split; [exact P|reflexivity].
  - apply andb_true_iff in Q as (O & Q). unfold run_one. destruct (run _ _ _) as [n o].
    destruct (IH Q (mk_shell (set_value (value_of sh) v (substituted o)) (events sh ++ [mk_event (expand (value_of sh) ws) [] n o false]) (exit_status sh))) as (A & B).
    split; [|exact B]. eapply no_new_trans; [|exact A]. now apply no_new_one.
  - destruct (IH Q (mk_shell (set_value (value_of sh) v (assigned (value_of sh) x)) (events sh) (exit_status sh))) as (A & B). now split.
  - apply andb_true_iff in Q as (O & Q). unfold run_one. destruct (run _ _ _) as [n o].
    match goal with |- context [exec run k ?s] => destruct (IH Q s) as (A & B) end. split; [|exact B]. eapply no_new_trans; [|exact A]. now apply no_new_one.
  - discriminate.
  - apply andb_true_iff in Q as (Q & Qk). apply andb_true_iff in Q as (Qy & Qn).
    assert (H : no_new (events sh) (events (fst (exec run (if str_eqb (value_of sh a) (value_of sh b) then yes else no) sh))) /\
      forall t, trapped run (if str_eqb (value_of sh a) (value_of sh b) then yes else no) sh t = t) by (destruct (str_eqb _ _); auto).
    destruct H as (A & B). destruct (exec run _ sh) as [sh1 [st|]]; cbn [fst] in *.
    + split; [exact A|exact B].
    + destruct (IH Qk sh1) as (C & D). split; [exact (no_new_trans _ _ _ A C)|]. intro t. now rewrite B, D.
  - split; [apply no_new_refl|reflexivity].
  - split; [apply no_new_refl|reflexivity].
Qed.

(** ** Scripts that remove the directory that they make *)

Definition covers (t : option (list str)) (d : str) : Prop := exists ws, t = Some (w ["rm"; "-rf"] ++ ws) /\ In d ws.

(** All new temporary directories are removed. *)
Definition tidy (s : script) : Prop := forall sh t e d, In e (events (fst (exec run s sh))) -> ~ In e (events sh) ->
  ran e = temp_words -> result e = 0 -> output e = unlines [d] -> one_word d -> covers (trapped run s sh t) d.

(** The directory in [v] is removed, and no other one is made. *)
Definition pending (v : str) (s : script) : Prop := forall sh,
  no_new (events sh) (events (fst (exec run s sh))) /\ (one_word (value_of sh v) -> forall t, covers (trapped run s sh t) (value_of sh v)).

Lemma pending_trap v ws k : In [Bare v] ws -> quiet k = true -> pending v (Trap (`"rm" :: `"-rf" :: ws) k).
Proof.
  intros I Q sh. cbn [exec trapped]. destruct (quiet_spec k Q sh) as (A & B). split; [exact A|]. intros O t. rewrite B.
  exists (expand (value_of sh) ws). split; [reflexivity|]. apply in_flat_map. exists [Bare v]. split; [exact I|]. rewrite bare_word by exact O. now left.
Qed.

Lemma pending_is v v' x k : str_eqb v v' = false -> pending v k -> pending v (Is v' x k).
Proof.
  intros N P sh. cbn [exec trapped]. specialize (P (mk_shell (set_value (value_of sh) v' (assigned (value_of sh) x)) (events sh) (exit_status sh))).
  cbn [value_of events] in P. assert (E : set_value (value_of sh) v' (assigned (value_of sh) x) v = value_of sh v) by (unfold set_value; now rewrite N).
  rewrite E in P. exact P.
Qed.

Lemma tidy_cmd ws k : other ws = true -> tidy k -> tidy (Cmd ws k).
Proof.
  intros O K sh t e d. cbn [exec trapped]. unfold run_one. destruct (run _ _ _) as [n o].
  destruct (Nat.eqb n 0); cbn [fst events]; intros I N W R U D.
  - eapply K; [exact I| |exact W|exact R|exact U|exact D]. cbn [events]. intro J.
    destruct (no_new_one (value_of sh) (events sh) ws [] n o true O e J); contradiction.
  - destruct (no_new_one (value_of sh) (events sh) ws [] n o true O e I); contradiction.
Qed.

Lemma one_word_substituted d : one_word d -> substituted (unlines [d]) = d.
Proof. intro O. apply substituted_line; [apply O|]. intro I. apply O in I. tauto. Qed.

Lemma set_get env v x : set_value env v x v = x.
Proof. unfold set_value. now rewrite str_eqb_refl. Qed.

Lemma tidy_let v k : pending v k -> tidy (Let v [[`"mktemp"; `"-d"]] k).
Proof.
  intros K sh t e d. cbn [exec trapped run_pipeline]. unfold run_one. destruct (run _ _ _) as [n o].
  destruct (Nat.eqb_spec n 0) as [Z|Z]; cbn [fst events]; intros I N W R U D.
  - match type of I with context [exec run k ?s] => destruct (K s) as (A & B) end. cbn [value_of] in B. rewrite set_get in B.
    destruct (A e I) as [J|J]; [|contradiction]. cbn [events] in J. apply in_app_or in J as [J|[<-|[]]]; [contradiction|]. cbn [output] in U. subst o.
    rewrite (one_word_substituted d D) in *. exact (B D t).
  - apply in_app_or in I as [I|[<-|[]]]; [contradiction|]. now cbn in R.
Qed.

Lemma tidy_ignored v k : pending v k -> tidy (LetIgnored v [`"mktemp"; `"-d"] k).
Proof.
  intros K sh t e d. cbn [exec trapped]. unfold run_one. destruct (run _ _ _) as [n o]. intros I N W R U D.
  match type of I with context [exec run k ?s] => destruct (K s) as (A & B) end. cbn [value_of] in B. rewrite set_get in B.
  destruct (A e I) as [J|J]; [|contradiction]. cbn [events] in J. apply in_app_or in J as [J|[<-|[]]]; [contradiction|]. cbn [output] in U. subst o.
  rewrite (one_word_substituted d D) in *. exact (B D t).
Qed.

Lemma tidy_quiet k : quiet k = true -> tidy k.
Proof. intros Q sh t e d I N W. destruct (quiet_spec k Q sh) as (A & _). destruct (A e I); contradiction. Qed.

Lemma meant_absolute d d' s : absolute s -> meant d s = meant d' s.
Proof. intros (s' & ->). reflexivity. Qed.

Lemma tidy_removes s env start d : tidy s -> made_temporary (events (fst (script_run run s env))) d -> one_word d -> absolute d ->
  removes (working_directory start (events (fst (script_run run s env)))) (at_end run s env) (meant [] d).
Proof.
  intros T (e & I & W & R & U) D A. destruct (T (mk_shell env [] 0) None e d I (fun x => x) W R U D) as (ws & E & J).
  exists ws, d. split; [exact E|]. split; [exact J|]. now apply meant_absolute.
Qed.
End Run.

Ltac pend := repeat (apply pending_is; [reflexivity|]); apply pending_trap; [cbn; tauto|reflexivity].

Lemma tidy_all run : Forall (tidy run)
  [bootstrap_from_release; build_new_version; can_generate_working_bootstrap_script; check_release_tarball; install_and_rebuild;
   install_and_rebuild_out_of_tree_from_subpath; install_and_rebuild_out_of_tree_rel_path; main].
Proof.
  repeat apply Forall_cons; [| | | | | | | |apply Forall_nil].
  - apply tidy_cmd; [reflexivity|]. apply tidy_let. pend.
  - apply tidy_quiet. reflexivity.
  - apply tidy_quiet. reflexivity.
  - apply tidy_cmd; [reflexivity|]. apply tidy_let. pend.
  - apply tidy_let. pend.
  - apply tidy_cmd; [reflexivity|]. apply tidy_let. pend.
  - apply tidy_cmd; [reflexivity|]. apply tidy_let. pend.
  - apply tidy_ignored. pend.
Qed.
