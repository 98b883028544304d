(** Proofs about the memory query. *)

From Coq Require Import Ascii String ZArith NArith Bool Arith Lia.
From Coq Require Import List.
From Verif Require Import Str PathProofs ValueModel ValueSpec ValueProofs MemModel MemSpec.
Import ListNotations.

Lemma key_loop key : forall token s, ~ In ":"%char key -> mem_loop (key ++ s) (InKey token) = mem_loop s (InKey (rev key ++ token)).
Proof.
  induction key as [|c key IH]; intros token s N; [reflexivity|]. cbn [app mem_loop].
  destruct (Ascii.eqb_spec c ":") as [->|D]; [exfalso; apply N; now left|].
  rewrite IH by (intro; apply N; now right). cbn [rev]. now rewrite <- app_assoc.
Qed.

Lemma skip_loop value : forall s, ~ In "010"%char value -> mem_loop (value ++ s) InSkip = mem_loop s InSkip.
Proof.
  induction value as [|c value IH]; intros s N; [reflexivity|]. cbn [app mem_loop].
  destruct (Ascii.eqb_spec c "010") as [->|D]; [exfalso; apply N; now left|]. apply IH. intro. apply N. now right.
Qed.

Lemma value_loop value : forall token s, ~ In "010"%char value ->
  mem_loop (value ++ s) (InValue token) = mem_loop s (InValue (rev value ++ token)).
Proof.
  induction value as [|c value IH]; intros token s N; [reflexivity|]. cbn [app mem_loop].
  destruct (Ascii.eqb_spec c "010") as [->|D]; [exfalso; apply N; now left|].
  rewrite IH by (intro; apply N; now right). cbn [rev]. now rewrite <- app_assoc.
Qed.

Lemma other_key key : key <> lit "MemAvailable" -> str_eqb (rev (":"%char :: rev key)) (lit "MemAvailable:") = false.
Proof.
  intro N. destruct (str_eqb (rev (":"%char :: rev key)) (lit "MemAvailable:")) eqn:E; [|reflexivity].
  apply str_eqb_eq in E. cbn [rev] in E. rewrite rev_involutive in E.
  change (lit "MemAvailable:") with (lit "MemAvailable" ++ [":"%char]) in E. apply app_inj_tail in E. destruct E. contradiction.
Qed.

Lemma other_loop line s : other_line line -> mem_loop (line ++ s) (InKey []) = mem_loop s (InKey []).
Proof.
  intros (key & value & -> & NK & NV & N). unfold mem_line. rewrite <- app_assoc. cbn [app]. rewrite key_loop by assumption.
  rewrite app_nil_r. cbn [mem_loop]. change (Ascii.eqb ":" ":") with true. cbv iota. rewrite other_key by assumption.
  rewrite <- app_assoc. rewrite skip_loop by assumption. reflexivity.
Qed.

Lemma others_loop lines s : Forall other_line lines -> mem_loop (concat lines ++ s) (InKey []) = mem_loop s (InKey []).
Proof.
  induction 1 as [|line lines L F IH]; [reflexivity|]. cbn [concat]. rewrite <- app_assoc, other_loop by assumption. exact IH.
Qed.

(** A part of a line *)
Lemma partial_line line p q : other_line line -> line = p ++ q -> q <> [] -> mem_loop p (InKey []) = Some 0%Z.
Proof.
  intros (key & value & -> & NK & NV & N) E NQ. unfold mem_line in E.
  assert (CASES : (exists k2, key = p ++ k2) \/ (exists v1, p = key ++ ":"%char :: v1 /\ ~ In "010"%char v1)).
  { revert p E. clear N. induction key as [|c key IH]; intros p E.
    - destruct p as [|c p]; [left; now exists []|]. right. cbn [app] in E. inversion E; subst. exists p. split; [reflexivity|].
      destruct q as [|x q] using rev_ind; [contradiction|]. clear IHq. rewrite app_assoc in H1. apply app_inj_tail in H1.
      destruct H1 as (-> & _). intro I. apply NV. apply in_or_app. now left.
    - destruct p as [|x p]; [left; now exists (c :: key)|]. cbn [app] in E. inversion E; subst.
      destruct (IH (fun I => NK (or_intror I)) p H1) as [(k2 & ->)|(v1 & -> & V)].
      + left. now exists k2.
      + right. now exists v1. }
  destruct CASES as [(k2 & ->)|(v1 & -> & NV1)].
  - rewrite <- (app_nil_r p), key_loop; [reflexivity|]. intro I. apply NK. apply in_or_app. now left.
  - rewrite key_loop by assumption. rewrite app_nil_r. cbn [mem_loop]. change (Ascii.eqb ":" ":") with true. cbv iota.
    rewrite other_key by assumption. rewrite <- (app_nil_r v1), skip_loop by assumption. reflexivity.
Qed.

Lemma absent_prefix lines : Forall other_line lines -> forall p q, concat lines = p ++ q -> mem_loop p (InKey []) = Some 0%Z.
Proof.
  induction 1 as [|line lines L F IH]; intros p q E.
  - cbn in E. symmetry in E. apply app_eq_nil in E. destruct E as (-> & _). reflexivity.
  - cbn [concat] in E.
    assert (CASES : (exists l2, line = p ++ l2 /\ l2 <> []) \/ (exists p2, p = line ++ p2 /\ concat lines = p2 ++ q)).
    { clear - E. revert p E. induction line as [|c line IHl]; intros p E; [right; now exists p|].
      destruct p as [|x p]; [left; exists (c :: line); split; [reflexivity|discriminate]|].
      cbn [app] in E. inversion E; subst. destruct (IHl p H1) as [(l2 & -> & N)|(p2 & -> & E2)].
      - left. exists l2. now split.
      - right. exists p2. now split. }
    destruct CASES as [(l2 & E1 & N)|(p2 & -> & E2)]; [exact (partial_line line p l2 L E1 N)|].
    rewrite other_loop by assumption. exact (IH p2 q E2).
Qed.

Lemma mem_absent lines : Forall other_line lines -> mem_avail (Some (concat lines)) = Some 0%Z.
Proof.
  intro F. unfold mem_avail. apply (absent_prefix lines F _ (skipn mem_buffer_size (concat lines))). now rewrite firstn_skipn.
Qed.

Lemma mem_reported lines ws digits n rest after : Forall other_line lines ->
  Forall (fun c => c = " "%char \/ c = "009"%char) ws -> numeral 10 digits n -> (n < 2 ^ 54)%Z ->
  (forall c s, rest = c :: s -> digit_in 10 c = None) -> ~ In "010"%char rest ->
  length (concat lines ++ mem_line (lit "MemAvailable") (ws ++ digits ++ rest)) <= mem_buffer_size ->
  mem_avail (Some (concat lines ++ mem_line (lit "MemAvailable") (ws ++ digits ++ rest) ++ after)) = Some (1024 * n)%Z.
Proof.
  intros F W D B NR NL L. unfold mem_avail.
  rewrite app_assoc, firstn_app, firstn_all2 by assumption.
  generalize (firstn (mem_buffer_size - length (concat lines ++ mem_line (lit "MemAvailable") (ws ++ digits ++ rest))) after). intro after'.
  rewrite <- app_assoc, others_loop by assumption. unfold mem_line. rewrite <- app_assoc, key_loop.
  2: { cbn. intro I. repeat (destruct I as [I|I]; [discriminate|]). exact I. }
  cbn [app mem_loop]. change (Ascii.eqb ":" ":") with true. cbv iota.
  change (str_eqb (rev (":"%char :: rev (lit "MemAvailable") ++ [])) (lit "MemAvailable:")) with true. cbv iota.
  assert (AD : all_digits 10 digits) by (apply (numeral_value 10) in D; [apply D|lia]).
  assert (NN : (0 <= n)%Z) by (apply (numeral_value 10) in D; [destruct D as (_ & _ & ->); apply N2Z.is_nonneg|lia]).
  rewrite <- app_assoc, value_loop.
  2: { intro I. apply in_app_or in I. destruct I as [I|I].
       - rewrite Forall_forall in W. destruct (W _ I); discriminate.
       - apply in_app_or in I. destruct I as [I|I]; [|contradiction].
         unfold all_digits in AD. rewrite Forall_forall in AD. apply AD in I. apply I. reflexivity. }
  cbn [app mem_loop]. change (Ascii.eqb "010" "010") with true. cbv iota. rewrite app_nil_r, rev_involutive.
  assert (E : atoll (ws ++ digits ++ rest) = Some n).
  { unfold atoll. rewrite (strto10_some ws digits rest n).
    - destruct (Z.leb_spec llong_min n); [|unfold llong_min in *; lia].
      destruct (Z.leb_spec n llong_max); [reflexivity|]. unfold llong_max in *. change (2 ^ 54)%Z with 18014398509481984%Z in B. lia.
    - eapply Forall_impl; [|exact W]. intros c [-> | ->]; cbn; tauto.
    - now constructor.
    - destruct rest as [|c s]; [exact I|]. cbn. exact (NR c s eq_refl). }
  rewrite E. cbn [option_map]. f_equal. apply Z.mod_small. unfold size_mod. split; [lia|].
  change (2 ^ 64)%Z with (1024 * 2 ^ 54)%Z. lia.
Qed.

Lemma mem_truncated value after : ~ In "010"%char value -> mem_buffer_size <= length value ->
  mem_avail (Some (mem_line (lit "MemTotal") value ++ after)) = Some 0%Z.
Proof.
  intros NV L. unfold mem_avail.
  assert (F : Forall other_line [mem_line (lit "MemTotal") value]).
  { constructor; [|constructor]. exists (lit "MemTotal"), value. split; [reflexivity|]. split; [|split; [assumption|discriminate]].
    cbn. intro I. repeat (destruct I as [I|I]; [discriminate|]). exact I. }
  assert (LL : mem_buffer_size <= length (mem_line (lit "MemTotal") value)).
  { unfold mem_line. rewrite app_length. cbn [length]. rewrite app_length. lia. }
  apply (absent_prefix _ F _ (skipn mem_buffer_size (mem_line (lit "MemTotal") value))).
  rewrite firstn_app. replace (mem_buffer_size - length (mem_line (lit "MemTotal") value)) with 0 by lia.
  cbn [firstn concat]. rewrite !app_nil_r. now rewrite firstn_skipn.
Qed.

Lemma mem_unterminated lines value : Forall other_line lines -> ~ In "010"%char value ->
  length (concat lines ++ lit "MemAvailable:" ++ value) <= mem_buffer_size ->
  mem_avail (Some (concat lines ++ lit "MemAvailable:" ++ value)) = Some 0%Z.
Proof.
  intros F NV L. unfold mem_avail. rewrite firstn_all2 by assumption. rewrite others_loop by assumption.
  change (lit "MemAvailable:" ++ value) with (lit "MemAvailable" ++ ":"%char :: value). rewrite key_loop.
  2: { cbn. intro I. repeat (destruct I as [I|I]; [discriminate|]). exact I. }
  cbn [mem_loop]. change (Ascii.eqb ":" ":") with true. cbv iota.
  change (str_eqb (rev (":"%char :: rev (lit "MemAvailable") ++ [])) (lit "MemAvailable:")) with true. cbv iota.
  rewrite <- (app_nil_r value), value_loop by assumption. reflexivity.
Qed.
