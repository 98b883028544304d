(** Proofs about scans in which files get lost: such a scan is like one in which these files are
    reported as faulty, except for the report. *)

From Coq Require Import List Arith Bool Lia Permutation.
From Verif Require Import Str Path SMap PathProofs LoadSpec SchedModel ScanModel ScanSpec ScanProofs LostModel LostSpec.
Import ListNotations.

Section Lost.

Variable Info : Type.
Variable is_directory : path -> option bool.
Variable directory_entries : path -> list str * bool.
Variable load : path -> outcome Info.
Variables filter_name filter_path : str -> bool.
Variable recursive : bool.
Variable root : path.
Variable workers : nat.

Let ld := loads Info load.
Let sstep := scan_step Info is_directory directory_entries ld filter_name filter_path recursive root workers.
Let srun := scan_run Info is_directory directory_entries ld filter_name filter_path recursive root workers.
Let stask := scan_task_step Info is_directory directory_entries ld filter_name filter_path recursive root workers.
Let lstep := lost_step Info is_directory directory_entries load filter_name filter_path recursive root workers.
Let lrun := lost_run Info is_directory directory_entries load filter_name filter_path recursive root workers.
Let belongs := belongs Info is_directory directory_entries ld filter_name filter_path recursive root.
Let faulty := faulty Info is_directory directory_entries ld filter_name filter_path recursive root.
Let skipped := skipped is_directory filter_name filter_path recursive root.
Let ignored := ignored is_directory filter_name filter_path recursive root.
Let unreadable := unreadable is_directory recursive root.

Hypothesis root_ok : directory_ok (lexically_normal root).
Hypothesis entries_ok : proper_entries directory_entries.

Definition altered (e : list path) (o : scan_main Info) (s : scan_state Info) : scan_state Info :=
  mk_scan Info (scan_files s) (scan_counter s) e (scan_tasks s) o (scan_submitted s) (scan_loaded s).

(** The state of the owner, compared to that in a scan where nothing gets lost, and which has not
    yet noticed that all is done *)
Definition owners (s : scan_state Info) (o : scan_main Info) : Prop :=
  (scan_owner s = o /\ (o = MainChecking \/ o = MainSleeping)) \/
  (o = MainChecking /\ scan_counter s = 0 /\
   scan_owner s = match scan_errors s with [] => MainReturned (scan_files s) | e => MainThrew e end).

Definition lost (st : lost_state Info) : list path := lost_thrown st ++ lost_kept st.

Definition matching (st : lost_state Info) (s' : scan_state Info) : Prop :=
  exists e o, s' = altered e o (lost_scan st) /\ owners (lost_scan st) o /\ Permutation e (lost st ++ scan_errors (lost_scan st)).

(** Steps of tasks do not depend on the errors, nor on the owner. *)
Lemma task_step_altered i s s1 e o : stask i s = Some s1 ->
  exists new, scan_errors s1 = new ++ scan_errors s /\
    ((scan_owner s1 = scan_owner s /\ stask i (altered e o s) = Some (altered (new ++ e) o s1)) \/
     (scan_owner s1 = scan_notify Info (scan_owner s) /\ stask i (altered e o s) = Some (altered (new ++ e) (scan_notify Info o) s1))).
Proof.
  unfold stask, scan_task_step, altered, scan_become. cbn [scan_tasks scan_files scan_counter scan_errors scan_owner scan_submitted scan_loaded].
  destruct (nth_error (scan_tasks s) i) as [[p|p|p|p info|p [|name names] fails|p|p]|]; [..|discriminate].
  - destruct (Nat.ltb _ _); [|discriminate]. intro H. injection H as <-. exists []. split; [reflexivity|]. now left.
  - destruct (ScanModel.skipped _ _ _ _ _ p) as [[]|]; [| |intro H; injection H as <-; exists []; split; [reflexivity|]; now left].
    + intro H. injection H as <-. exists []. split; [reflexivity|]. now left.
    + destruct (map_find _ _); intro H; injection H as <-; exists []; (split; [reflexivity|]); now left.
  - intro H. injection H as <-. exists []. split; [reflexivity|]. now left.
  - destruct (map_find _ _); intro H; injection H as <-; exists []; (split; [reflexivity|]); now left.
  - intro H. injection H as <-. exists []. split; [reflexivity|]. now left.
  - intro H. injection H as <-. exists []. split; [reflexivity|]. now right.
  - intro H. injection H as <-. exists [p]. split; [reflexivity|]. now left.
  - intro H. injection H as <-. exists []. split; [reflexivity|]. now right.
Qed.

Lemma update_twice {X} i (a b : X) : forall l, update i a (update i b l) = update i a l.
Proof. induction i as [|i IH]; intros [|x l]; cbn; try reflexivity. now rewrite IH. Qed.

Lemma nth_update {X} i (a x : X) : forall l, nth_error l i = Some x -> nth_error (update i a l) i = Some a.
Proof. induction i as [|i IH]; intros [|y l] H; cbn in *; try discriminate; [reflexivity|]. now apply IH. Qed.

Lemma srun_app cs : forall cs' s s1 s2, srun cs s = Some s1 -> srun cs' s1 = Some s2 -> srun (cs ++ cs') s = Some s2.
Proof.
  induction cs as [|c cs IH]; intros cs' s s1 s2 H1 H2; [now injection H1 as ->|].
  unfold srun in *. cbn [scan_run app] in *. destruct (scan_step _ _ _ _ _ _ _ _ _ c s) as [s0|]; [|discriminate]. eapply IH; eassumption.
Qed.

Lemma task_steps_app a b : task_steps (a ++ b) = task_steps a + task_steps b.
Proof. induction a as [|[i| |] a IH]; cbn; [reflexivity| |exact IH|exact IH]. now rewrite IH. Qed.

(** If there is nothing left to be done, there are no tasks. *)
Lemma idle cs s : srun cs (scan_init Info root) = Some s -> scan_owner s = MainChecking -> scan_counter s = 0 -> scan_tasks s = [].
Proof.
  intros R O Z.
  assert (S : exists s1, srun [MainStep] s = Some s1 /\ scan_tasks s1 = scan_tasks s /\
     ((exists f, scan_owner s1 = MainReturned f) \/ exists e, scan_owner s1 = MainThrew e)).
  { unfold srun. cbn [scan_run scan_step]. unfold scan_main_step. rewrite O, Z. cbn [Nat.eqb].
    destruct (scan_errors s); eexists; (split; [reflexivity|]); (split; [reflexivity|]); [left|right]; eexists; reflexivity. }
  destruct S as (s1 & R1 & <- & [[f F] | [e F]]).
  - exact (proj1 (scan_returns_all Info is_directory directory_entries ld filter_name filter_path recursive root workers root_ok entries_ok
      _ s1 f (srun_app _ _ _ _ _ R R1) F)).
  - exact (proj1 (scan_reports_all Info is_directory directory_entries ld filter_name filter_path recursive root workers root_ok entries_ok
      _ s1 e (srun_app _ _ _ _ _ R R1) F)).
Qed.

(** ** What happens to the files *)

Definition harmless (p : path) : Prop := skipped p = None \/ load p <> ThrowsText.

Definition task_known (t : scan_task Info) : Prop :=
  match t with
  | Loading p => skipped p = Some false
  | Inserting p i => load p = Loaded i
  | Listing p _ _ => load p <> ThrowsText
  | Failing p => harmless p
  | _ => True
  end.

Definition known (st : lost_state Info) : Prop :=
  Forall task_known (scan_tasks (lost_scan st)) /\ Forall harmless (scan_errors (lost_scan st)) /\
  Forall (fun p => skipped p = Some false /\ load p = ThrowsText) (lost st).

Lemma Forall_update {X} (P : X -> Prop) i x : forall l, Forall P l -> P x -> Forall P (update i x l).
Proof.
  induction i as [|i IH]; intros [|y l] F Px; cbn; try exact F; inversion F; subst; constructor; auto.
Qed.

Lemma Forall_remove {X} (P : X -> Prop) i : forall l, Forall P l -> Forall P (remove_at i l).
Proof. induction i as [|i IH]; intros [|y l] F; cbn; try exact F; inversion F; subst; [assumption|]. constructor; auto. Qed.

Lemma task_known_step i s s1 : Forall task_known (scan_tasks s) -> Forall harmless (scan_errors s) ->
  (forall p, nth_error (scan_tasks s) i = Some (Loading p) -> load p <> ThrowsText) -> stask i s = Some s1 ->
  Forall task_known (scan_tasks s1) /\ Forall harmless (scan_errors s1).
Proof.
  intros T E L. unfold stask, scan_task_step, scan_become.
  destruct (nth_error (scan_tasks s) i) as [t|] eqn:N; [|discriminate].
  assert (K : task_known t) by (apply (proj1 (Forall_forall _ _) T); eapply nth_error_In; exact N).
  destruct t as [p|p|p|p info|p [|name names] fails|p|p]; cbn [task_known] in K.
  - destruct (Nat.ltb _ _); [|discriminate]. intro H. injection H as <-. split; [now apply Forall_update|exact E].
  - fold skipped. destruct (skipped p) as [[]|] eqn:S.
    + intro H. injection H as <-. split; [now apply Forall_update|exact E].
    + destruct (map_find _ _); intro H; injection H as <-; (split; [apply Forall_update; [exact T|]|exact E]); [exact I|exact S].
    + intro H. injection H as <-. split; [apply Forall_update; [exact T|]|exact E]. now left.
  - intro H. injection H as <-. split; [apply Forall_update; [exact T|]|exact E].
    unfold ld, loads. specialize (L p eq_refl). destruct (load p) eqn:D; cbn; [exact D| |now destruct L].
    right. now rewrite D.
  - destruct (map_find _ _); intro H; injection H as <-; (split; [apply Forall_update; [exact T|]|exact E]); [exact I|].
    unfold after_insert. destruct (is_directory _) as [[]|]; [|exact I|].
    + destruct (directory_entries _). cbn. now rewrite K.
    + right. now rewrite K.
  - intro H. injection H as <-. split; [apply Forall_update; [exact T|]|exact E]. destruct fails; [now right|exact I].
  - intro H. injection H as <-. split; [|exact E]. cbn [scan_tasks]. apply Forall_app. split; [now apply Forall_update|]. repeat constructor.
  - intro H. injection H as <-. split; [now apply Forall_update|]. now constructor.
  - intro H. injection H as <-. split; [now apply Forall_remove|exact E].
Qed.

Lemma remove_perm {X} i (x : X) : forall l, nth_error l i = Some x -> Permutation l (x :: remove_at i l).
Proof.
  induction i as [|i IH]; intros [|y l] H; cbn in *; try discriminate; [injection H as ->; reflexivity|].
  rewrite perm_swap. apply perm_skip. now apply IH.
Qed.

(** ** The invariant *)

Definition reached (n : nat) (st : lost_state Info) : Prop :=
  known st /\ exists cs s', srun cs (scan_init Info root) = Some s' /\ matching st s' /\ n <= task_steps cs.

Lemma reached_init : reached 0 (lost_init Info root).
Proof.
  split; [repeat constructor|]. exists [], (scan_init Info root). split; [reflexivity|]. split; [|apply le_n].
  exists [], MainChecking. split; [reflexivity|]. split; [left; split; [reflexivity|now left]|reflexivity].
Qed.

Lemma matching_idle cs s' st : srun cs (scan_init Info root) = Some s' -> matching st s' -> 
  (scan_owner (lost_scan st) = MainChecking /\ scan_counter (lost_scan st) = 0) \/
  ~ (scan_owner (lost_scan st) = MainChecking \/ scan_owner (lost_scan st) = MainSleeping) -> scan_tasks (lost_scan st) = [].
Proof.
  intros R (e & o & -> & O & _) D. apply (idle _ _ R); destruct O as [[O1 O2] | (O1 & O2 & O3)]; cbn; try assumption;
    destruct D as [[D1 D2] | D]; try congruence; exfalso; apply D; rewrite O1; exact O2.
Qed.

Lemma other_step n st s1 i : reached n st -> (forall p, nth_error (scan_tasks (lost_scan st)) i = Some (Loading p) -> load p <> ThrowsText) ->
  stask i (lost_scan st) = Some s1 -> reached (S n) (mk_lost s1 (lost_thrown st) (lost_kept st)).
Proof.
  intros [(K1 & K2 & K3) (cs & s' & R & M & Ln)] L T. split.
  - destruct (task_known_step _ _ _ K1 K2 L T) as [A B]. split; [exact A|]. now split.
  - pose proof (matching_idle _ _ _ R M) as Idle. destruct M as (e & o & -> & O & P).
    destruct (task_step_altered i _ s1 e o T) as (new & E & Hs).
    assert (Run : scan_owner (lost_scan st) = o /\ (o = MainChecking \/ o = MainSleeping)).
    { destruct O as [O | (O1 & O2 & O3)]; [exact O|]. exfalso.
      assert (N : scan_tasks (lost_scan st) = []).
      { apply Idle. right. rewrite O3. destruct (scan_errors _); intros [X|X]; discriminate. }
      unfold stask, scan_task_step in T. rewrite N in T. destruct i; discriminate. }
    destruct Run as [Ro Rr].
    assert (Pe : Permutation (new ++ e) ((lost_thrown st ++ lost_kept st) ++ new ++ scan_errors (lost_scan st))).
    { unfold lost in P. rewrite P. rewrite !app_assoc. apply Permutation_app_tail. rewrite <- !app_assoc.
      rewrite (Permutation_app_comm new). rewrite <- app_assoc. reflexivity. }
    destruct Hs as [[G T'] | [G T']]; exists (cs ++ [TaskStep i]); eexists; (split; [eapply srun_app; [exact R|]; unfold srun; cbn [scan_run scan_step]; fold stask; rewrite T'; reflexivity|]);
      (split; [|rewrite task_steps_app; cbn; lia]); eexists _, _; (split; [reflexivity|]); cbn [lost_scan].
    + split; [left; split; [now rewrite G|exact Rr]|]. unfold lost. cbn [lost_thrown lost_kept]. rewrite E. exact Pe.
    + split; [left; split; [now rewrite G, Ro|]|unfold lost; cbn [lost_thrown lost_kept]; rewrite E; exact Pe].
      left. destruct Rr as [-> | ->]; reflexivity.
Qed.

Lemma text_step n st i p : reached n st -> nth_error (scan_tasks (lost_scan st)) i = Some (Loading p) -> load p = ThrowsText ->
  reached (S n) (throw_text Info i p st).
Proof.
  intros [(K1 & K2 & K3) (cs & s' & R & M & Ln)] N L. split.
  - split; [now apply Forall_update|]. split; [exact K2|]. constructor; [|exact K3]. split; [|exact L].
    exact (proj1 (Forall_forall _ _) K1 _ (nth_error_In _ _ N)).
  - pose proof (matching_idle _ _ _ R M) as Idle. destruct M as (e & o & -> & O & P).
    assert (Run : scan_owner (lost_scan st) = o /\ (o = MainChecking \/ o = MainSleeping)).
    { destruct O as [O | (O1 & O2 & O3)]; [exact O|]. exfalso.
      assert (E : scan_tasks (lost_scan st) = []).
      { apply Idle. right. rewrite O3. destruct (scan_errors _); intros [X|X]; discriminate. }
      rewrite E in N. destruct i; discriminate. }
    exists (cs ++ [TaskStep i; TaskStep i]). eexists. split; [eapply srun_app; [exact R|]|].
    + assert (T1 : stask i (altered e o (lost_scan st)) = Some (mk_scan Info (scan_files (lost_scan st)) (scan_counter (lost_scan st)) e
          (update i (Failing p) (scan_tasks (lost_scan st))) o (scan_submitted (lost_scan st)) (p :: scan_loaded (lost_scan st)))).
      { unfold stask, scan_task_step, altered, ld, loads. cbn [scan_tasks scan_files scan_counter scan_errors scan_owner scan_submitted scan_loaded].
        rewrite N, L. reflexivity. }
      unfold srun. cbn [scan_run scan_step]. fold stask. rewrite T1. unfold stask, scan_task_step.
      cbn [scan_tasks scan_files scan_counter scan_errors scan_owner scan_submitted scan_loaded].
      rewrite (nth_update i _ _ _ N). rewrite update_twice. reflexivity.
    + split; [|rewrite task_steps_app; cbn; lia]. exists (p :: e), o. split; [reflexivity|]. split; [left; exact Run|].
      unfold lost in *. cbn [throw_text lost_thrown lost_kept lost_scan scan_errors app]. now apply perm_skip.
Qed.

Lemma step_reached n c st st1 : reached n st -> lstep c st = Some st1 -> reached (lost_steps [c] + n) st1.
Proof.
  intros Re H. unfold lstep, lost_step in H. destruct c as [[i| |]|i].
  - cbn [lost_steps plus].
    assert (As : (forall p, nth_error (scan_tasks (lost_scan st)) i = Some (Loading p) -> load p <> ThrowsText) ->
      option_map (fun s2 : scan_state Info => mk_lost s2 (lost_thrown st) (lost_kept st))
        (scan_step Info is_directory directory_entries (loads Info load) filter_name filter_path recursive root workers (TaskStep i) (lost_scan st)) = Some st1 ->
      reached (S n) st1).
    { intros L K. cbn [scan_step] in K. fold ld in K. fold stask in K. destruct (stask i (lost_scan st)) as [s1|] eqn:T; [|discriminate]. injection K as <-.
      now apply (other_step n st s1 i). }
    destruct (nth_error (scan_tasks (lost_scan st)) i) as [[p|p|p|p info|p names fails|p|p]|] eqn:N; try (apply As; [intros q X; discriminate|exact H]).
    destruct (load p) as [info| |] eqn:L; try (apply As; [intros q X; injection X as <-; now rewrite L|exact H]).
    injection H as <-. now apply text_step.
  - cbn [lost_steps plus]. destruct Re as [K (cs & s' & R & (e & o & -> & O & P) & Ln)]. cbn [scan_step] in H. unfold scan_main_step in H.
    destruct (scan_owner (lost_scan st)) eqn:Ow; try discriminate.
    destruct O as [[O1 O2] | (O1 & O2 & O3)]; [|exfalso; destruct (scan_errors _); congruence].
    rewrite Ow in O1. subst o.
    destruct (Nat.eqb (scan_counter (lost_scan st)) 0) eqn:Z.
    + apply Nat.eqb_eq in Z.
      assert (St : st1 = mk_lost (mk_scan Info (scan_files (lost_scan st)) (scan_counter (lost_scan st)) (scan_errors (lost_scan st)) (scan_tasks (lost_scan st))
          match scan_errors (lost_scan st) with [] => MainReturned (scan_files (lost_scan st)) | e => MainThrew e end
          (scan_submitted (lost_scan st)) (scan_loaded (lost_scan st))) (lost_thrown st) (lost_kept st)).
      { destruct (scan_errors (lost_scan st)); injection H as <-; reflexivity. }
      subst st1. split; [exact K|]. exists cs. eexists. split; [exact R|]. split; [|exact Ln].
      exists e, MainChecking. split; [reflexivity|]. split; [|exact P]. right. split; [reflexivity|]. now split.
    + injection H as <-. split; [exact K|]. exists (cs ++ [MainStep]). eexists. split; [eapply srun_app; [exact R|]|].
      * unfold srun. cbn [scan_run scan_step]. unfold scan_main_step, altered. cbn [scan_owner scan_counter]. rewrite Z. reflexivity.
      * split; [|rewrite task_steps_app; lia]. exists e, MainSleeping. split; [reflexivity|]. split; [left; split; [reflexivity|now right]|exact P].
  - cbn [lost_steps plus]. destruct Re as [K (cs & s' & R & (e & o & -> & O & P) & Ln)]. cbn [scan_step] in H.
    destruct (scan_owner (lost_scan st)) eqn:Ow; try discriminate. injection H as <-.
    destruct O as [[O1 O2] | (O1 & O2 & O3)]; [|exfalso; destruct (scan_errors _); congruence].
    rewrite Ow in O1. subst o.
    split; [exact K|]. exists (cs ++ [MainSpurious]). eexists. split; [eapply srun_app; [exact R|]|].
    + unfold srun. cbn [scan_run scan_step]. unfold altered. cbn [scan_owner]. reflexivity.
    + split; [|rewrite task_steps_app; lia]. exists e, MainChecking. split; [reflexivity|]. split; [left; split; [reflexivity|now left]|exact P].
  - cbn [lost_steps plus]. destruct (nth_error (lost_thrown st) i) as [p|] eqn:N; [|discriminate].
    destruct (existsb _ _); [discriminate|]. injection H as <-.
    assert (Pm : Permutation (lost st) (remove_at i (lost_thrown st) ++ lost_kept st ++ [p])).
    { unfold lost. eapply Permutation_trans; [apply Permutation_app_tail; exact (remove_perm _ _ _ N)|]. rewrite app_assoc. apply Permutation_cons_append. }
    destruct Re as [(K1 & K2 & K3) (cs & s' & R & (e & o & -> & O & P) & Ln)].
    split.
    + split; [exact K1|]. split; [exact K2|]. unfold lost. cbn [lost_thrown lost_kept]. eapply Permutation_Forall; [exact Pm|exact K3].
    + exists cs. eexists. split; [exact R|]. split; [|exact Ln]. exists e, o. split; [reflexivity|]. split; [exact O|].
      rewrite P. unfold lost at 2. cbn [lost_thrown lost_kept lost_scan]. now apply Permutation_app_tail.
Qed.

Lemma run_reached cs : forall n st st1, reached n st -> lrun cs st = Some st1 -> reached (lost_steps cs + n) st1.
Proof.
  induction cs as [|c cs IH]; intros n st st1 Re H; [injection H as <-; exact Re|].
  unfold lrun in H. cbn [lost_run] in H. fold lstep in H. destruct (lstep c st) as [st0|] eqn:S; [|discriminate].
  replace (lost_steps (c :: cs) + n) with (lost_steps cs + (lost_steps [c] + n)).
  - apply (IH _ st0); [|exact H]. now apply (step_reached n c st).
  - destruct c as [[i| |]|i]; cbn [lost_steps]; lia.
Qed.

(** ** The results *)

Let inv := ScanProofs.inv Info is_directory directory_entries ld filter_name filter_path recursive root.

(** What is known when the scan is over *)
Lemma over n st : reached n st -> scan_owner (lost_scan st) <> MainChecking -> scan_owner (lost_scan st) <> MainSleeping ->
  scan_tasks (lost_scan st) = [] /\
  scan_owner (lost_scan st) = match scan_errors (lost_scan st) with [] => MainReturned (scan_files (lost_scan st)) | e => MainThrew e end /\
  (NoDup (scan_loaded (lost_scan st)) /\ forall p, In p (scan_loaded (lost_scan st)) <-> belongs p) /\
  (NoDup (lost st ++ scan_errors (lost_scan st)) /\ forall p, In p (lost st ++ scan_errors (lost_scan st)) <-> faulty p) /\
  (forall p, In p (lost st) <-> belongs p /\ load p = ThrowsText) /\
  (sorted_map (scan_files (lost_scan st)) /\
   forall k i, In (k, i) (scan_files (lost_scan st)) <-> exists p, belongs p /\ k = lexically_normal p /\ load p = Loaded i).
Proof.
  intros [(K1 & K2 & K3) (cs & s' & R & M & Ln)] C S.
  assert (T : scan_tasks (lost_scan st) = []).
  { apply (matching_idle _ _ _ R M). right. intros [X|X]; contradiction. }
  split; [exact T|]. destruct M as (e & o & -> & O & P).
  destruct O as [[O1 [O2|O2]] | (O1 & O2 & O3)]; [exfalso; congruence|exfalso; congruence|]. split; [exact O3|].
  assert (I : inv (altered e o (lost_scan st))).
  { refine (proj1 (run_inv Info is_directory directory_entries ld filter_name filter_path recursive root workers root_ok entries_ok
      cs (scan_init Info root) _ _ Logic.I R)). now apply init_inv. }
  destruct (finished _ _ _ _ _ _ _ _ _ I T) as (F1 & (F2 & F3) & F4 & F5). cbn [altered scan_loaded scan_errors scan_files] in *.
  assert (N : NoDup (lost st ++ scan_errors (lost_scan st))) by (eapply Permutation_NoDup; [exact P|exact F2]).
  assert (Fa : forall p, In p (lost st ++ scan_errors (lost_scan st)) <-> faulty p).
  { intro p. unfold faulty. rewrite <- (F3 p). split; apply Permutation_in; [now symmetry|exact P]. }
  split; [exact F1|]. split; [split; [exact N|exact Fa]|]. split; [|split; [exact F4|]].
  - intro p. split.
    + intro H. pose proof (proj1 (Forall_forall _ _) K3 _ H) as [Sk L]. split; [|exact L].
      pose proof (proj1 (Fa p) (in_or_app _ _ _ (or_introl H))) as [[_ U] | [B _]]; [|exact B].
      exfalso. pose proof (proj2 (skipped_none Info is_directory ld filter_name filter_path recursive root p) U) as X. fold skipped in X. congruence.
    + intros [B L]. assert (X : faulty p) by (right; split; [exact B|left; unfold ld, loads; now rewrite L]).
      apply Fa in X. apply in_app_or in X. destruct X as [X | X]; [exact X|]. exfalso.
      destruct (proj1 (Forall_forall _ _) K2 _ X) as [Y | Y]; [|now apply Y].
      apply (skipped_none Info is_directory ld filter_name filter_path recursive root) in Y. destruct B as (_ & _ & B). now apply B.
  - intros k i. rewrite (F5 k i). split; intros (p & B & E & L); exists p; (split; [exact B|]); (split; [exact E|]).
    + unfold ld, loads in L. destruct (load p); [now injection L as <-|discriminate|discriminate].
    + unfold ld, loads. now rewrite L.
Qed.

Theorem lost_returned cs st files : lrun cs (lost_init Info root) = Some st -> scan_owner (lost_scan st) = MainReturned files ->
  let lost := lost_thrown st ++ lost_kept st in
  scan_tasks (lost_scan st) = [] /\
  (NoDup lost /\ forall p, In p lost <-> belongs p /\ load p = ThrowsText) /\
  (forall p, faulty p -> In p lost) /\
  (sorted_map files /\ forall k i, In (k, i) files <-> exists p, belongs p /\ k = lexically_normal p /\ load p = Loaded i) /\
  NoDup (scan_loaded (lost_scan st)) /\ (forall p, In p (scan_loaded (lost_scan st)) <-> belongs p).
Proof.
  intros H O. destruct (over _ st (run_reached cs 0 _ st reached_init H)) as (T & Ow & (F1 & F2) & (F3 & F4) & F5 & F6); [congruence|congruence|].
  rewrite O in Ow. destruct (scan_errors (lost_scan st)) eqn:E; [|discriminate]. injection Ow as ->. rewrite app_nil_r in *.
  split; [exact T|]. split; [now split|]. split; [intros p X; now apply F4|]. split; [exact F6|]. now split.
Qed.

Theorem lost_threw cs st errors : lrun cs (lost_init Info root) = Some st -> scan_owner (lost_scan st) = MainThrew errors ->
  scan_tasks (lost_scan st) = [] /\ errors <> [] /\ NoDup errors /\
  forall p, In p errors <-> faulty p /\ ~ (belongs p /\ load p = ThrowsText).
Proof.
  intros H O. destruct (over _ st (run_reached cs 0 _ st reached_init H)) as (T & Ow & (F1 & F2) & (F3 & F4) & F5 & F6); [congruence|congruence|].
  rewrite O in Ow. assert (E : scan_errors (lost_scan st) = errors /\ errors <> []).
  { destruct (scan_errors (lost_scan st)); [discriminate|]. injection Ow as ->. now split. }
  destruct E as [E Ne]. rewrite E in *. split; [exact T|]. split; [exact Ne|].
  split; [clear -F3; induction (lost st) as [|a l IH]; [exact F3|]; cbn in F3; inversion F3; subst; now apply IH|]. intro p. rewrite <- F4, <- F5. split.
  - intro X. split; [apply in_or_app; now right|]. intro Y.
    clear -F3 X Y. induction (lost st) as [|a l IH]; [destruct Y|]. cbn in F3. inversion F3; subst. destruct Y as [-> | Y]; [|now apply IH].
    apply H1. apply in_or_app. now right.
  - intros [X Y]. apply in_app_or in X. destruct X as [X | X]; [contradiction|exact X].
Qed.

Theorem lost_not_stuck cs st : 0 < workers -> lrun cs (lost_init Info root) = Some st ->
  (exists files, scan_owner (lost_scan st) = MainReturned files) \/ (exists errors, scan_owner (lost_scan st) = MainThrew errors) \/
  (exists i st', lstep (Scan (TaskStep i)) st = Some st') \/ (exists st', scan_tasks (lost_scan st) = [] /\ lstep (Scan MainStep) st = Some st').
Proof.
  intros W H. destruct (run_reached cs 0 _ st reached_init H) as [_ (cs' & s' & R & (e & o & -> & O & P) & _)].
  destruct O as [[O1 O2] | (O1 & O2 & O3)]; [|destruct (scan_errors (lost_scan st)); [left; eexists; exact O3|right; left; eexists; exact O3]].
  right. right.
  destruct (scan_not_stuck Info is_directory directory_entries ld filter_name filter_path recursive root workers root_ok entries_ok cs' _ W R)
    as [[f F] | [[f F] | [(i & s1 & S) | (s1 & T & S)]]].
  - cbn in F. destruct O2; congruence.
  - cbn in F. destruct O2; congruence.
  - left. exists i. unfold lstep, lost_step. 
    assert (X : exists s2, stask i (lost_scan st) = Some s2).
    { cbn [scan_step] in S. fold stask in S. destruct (task_step_altered i _ s1 (scan_errors (lost_scan st)) (scan_owner (lost_scan st)) S) as (new & _ & [[_ Y] | [_ Y]]);
        unfold altered in Y; cbn in Y; destruct (lost_scan st); cbn in Y; eexists; exact Y. }
    destruct X as (s2 & X). cbn [scan_step]. fold ld. fold stask. rewrite X.
    destruct (nth_error (scan_tasks (lost_scan st)) i) as [[p|p|p|p info|p names fails|p|p]|]; try (eexists; reflexivity).
    destruct (load p); eexists; reflexivity.
  - right. cbn in T. cbn [scan_step] in S. unfold scan_main_step in S. cbn [altered scan_owner] in S.
    destruct o; try discriminate. unfold lstep, lost_step. cbn [scan_step]. unfold scan_main_step. rewrite O1.
    destruct (Nat.eqb _ 0); [destruct (scan_errors (lost_scan st))|]; eexists; (split; [exact T|reflexivity]).
Qed.

Theorem lost_terminates size cs st : finite_tree directory_entries size -> lrun cs (lost_init Info root) = Some st -> lost_steps cs <= size root.
Proof.
  intros F H. destruct (run_reached cs 0 _ st reached_init H) as [_ (cs' & s' & R & _ & L)].
  pose proof (scan_terminates Info is_directory directory_entries ld filter_name filter_path recursive root workers size F cs' s' R) as X. lia.
Qed.

(** ** The status of the program *)

Theorem lost_status cs st files before later : lrun cs (lost_init Info root) = Some st -> scan_owner (lost_scan st) = MainReturned files ->
  main_ending Compile before later st = Some (Status 0) -> in_time later st ->
  forall p, belongs p -> exists i, load p = Loaded i /\ In (lexically_normal p, i) files.
Proof.
  intros H O E T p B. destruct (lost_returned _ _ _ H O) as (_ & (_ & L) & Fa & (_ & Fi) & _).
  assert (N : lost_thrown st ++ lost_kept st = []).
  { unfold main_ending in E. rewrite O in E. destruct before as [[]|]; try discriminate.
    destruct (lost_kept st) as [|k ks]; [|discriminate]. cbn in E. destruct later as [|[] later]; try discriminate.
    unfold in_time in T. cbn in T. destruct (lost_thrown st); [reflexivity|]. cbn in T. lia. }
  rewrite N in *. destruct (load p) as [i| |] eqn:Lp.
  - exists i. split; [reflexivity|]. apply Fi. exists p. split; [exact B|]. now split.
  - exfalso. apply (Fa p). right. split; [exact B|]. left. unfold ld, loads. now rewrite Lp.
  - exfalso. apply (L p). now split.
Qed.

End Lost.
