(** Proofs about the name of the source directory in the integration test. *)

From Coq Require Import Ascii String Bool Arith.
From Coq Require Import List.
From Verif Require Import Str Path PathProofs CmdModel MainModel JobModel CfgProofs FoundSpec FoundProofs IntegModel IntegSpec IntegProofs IntegProofs2 TrapSpec WhereSpec.
Import ListNotations.
Local Open Scope string_scope.
Local Open Scope list_scope.

Lemma parse_single n : n <> [] -> no_slash n -> parse_path n = mk_path false [n].
Proof. intros N S. rewrite <- (parse_spelled [n]); [reflexivity|discriminate|]. constructor; [now split|constructor]. Qed.

Lemma target_of_eq p : target_of p = if str_eqb (filename (parse_path p)) dot then mk_path false [lit "__targets"] else parse_path (filename (parse_path p) ++ lit "_targets").
Proof. reflexivity. Qed.

Lemma filename_no_slash s : no_slash (filename (parse_path s)).
Proof.
  destruct (parse_shape s) as (F & _). unfold filename. induction F as [|c l C F IH]; [easy|]. cbn [last]. destruct l; [exact C|exact IH].
Qed.

Lemma target_called p : target_of p = parse_path (lit "maike_targets") -> filename (parse_path p) = lit "maike".
Proof.
  rewrite target_of_eq. destruct (str_eqb (filename (parse_path p)) dot); [discriminate|].
  assert (S : no_slash (filename (parse_path p) ++ lit "_targets")).
  { intro I. apply in_app_or in I as [I|I]; [now apply filename_no_slash in I|]. cbn in I. repeat destruct I as [I|I]; try discriminate. exact I. }
  rewrite (parse_single _) by (try exact S; intro E; apply (f_equal (@length ascii)) in E; rewrite app_length in E; cbn in E; rewrite Nat.add_comm in E; discriminate).
  intro E. assert (E' : filename (parse_path p) ++ lit "_targets" = lit "maike" ++ lit "_targets") by (change (lit "maike" ++ lit "_targets") with (lit "maike_targets"); change (parse_path (lit "maike_targets")) with (mk_path false [lit "maike_targets"]) in E; congruence).
  now apply app_inv_tail in E'.
Qed.

Lemma not_cd m : lit "cd" <> m ++ lit "/bin/maike2".
Proof. intro E. apply (f_equal (@length ascii)) in E. rewrite app_length in E. cbn in E. rewrite Nat.add_comm in E. discriminate. Qed.

Lemma same_source m d p here : [d ++ lit "/bin/maike2"; lit "--source-dir=" ++ here] = [m ++ lit "/bin/maike2"; lit "--source-dir=" ++ p] -> p = here.
Proof. intro E. assert (E' : lit "--source-dir=" ++ here = lit "--source-dir=" ++ p) by congruence. now apply app_inv_head in E'. Qed.

Section Run.
Variable run : list event -> list str -> str -> nat * str.
Hypothesis B : programs_are_built run.

Ltac go s := intros Z; let sh := fresh "sh" in let r := fresh "r" in destruct (start _ _ _ Z) as (sh & r & H & F0 & ->); clear Z; unfold s in H; assert (F : ok sh r) by (left; exact F0); clear F0;
  repeat (step H F || (cbn [exec value_of events exit_status] in H)).

Lemma made_by h out stdin l d here : run h (w ["maike_targets/core/bin/maike2"; "--version"]) stdin = (0, out) -> map ran h = l ->
  (forall x, In x l -> x = [d ++ lit "/bin/maike2"; lit "--source-dir=" ++ here] \/
    forall m p, x <> [m ++ lit "/bin/maike2"; lit "--source-dir=" ++ p]) ->
  (forall x n, In x l -> In n x -> ~ exists y, n = lit "--target-dir=" ++ y) -> called here (lit "maike").
Proof.
  intros R <- S T. destruct (B h stdin (lit "maike_targets") out R) as (e & m & p & I & E & K).
  - intros e x I J. apply (T (ran e) x); [now apply in_map|exact J].
  - apply target_called in K. unfold called. destruct (S (ran e) (in_map _ _ _ I)) as [W|W]; [|now elim (W m p)].
    rewrite W in E. apply same_source in E as ->. exact K.
Qed.

Theorem named_out_of_tree env : status_of (script_run run install_and_rebuild_out_of_tree env) = 0 ->
  let sh := fst (script_run run install_and_rebuild_out_of_tree env) in
  one_word (value_of sh v_new) -> absolute (value_of sh v_new) -> one_word (value_of sh v_build) -> absolute (value_of sh v_build) -> one_word (value_of sh v_source) ->
  called (value_of sh v_source) (lit "maike").
Proof.
  go install_and_rebuild_out_of_tree. injection H as <- <-. cbv zeta. cbn [value_of]. sets. intros O1 (d & A1) O2 (b & A2) O3.
  match goal with R : run ?h (expand _ [`"maike_targets/core/bin/maike2"; _]) _ = (0, ?out) |- _ => eapply (made_by h out []); [exact R|cbn [events map ran]; unfold make_install, new_maike2; cbn [value_of]; words; reflexivity| |] end.
  - intros x I. cbn [In] in I. repeat destruct I as [<-|I]; try (right; intros m p; discriminate); [|now left|easy].
    right. intros m p E. apply (not_cd m). congruence.
  - rewrite A1, A2. intros x n I J (y & E). cbn [In] in I. repeat destruct I as [<-|I]; try easy; cbn [In] in J; repeat destruct J as [<-|J]; try discriminate; easy.
Qed.

Theorem named_rel_path env : status_of (script_run run install_and_rebuild_out_of_tree_rel_path env) = 0 ->
  let sh := fst (script_run run install_and_rebuild_out_of_tree_rel_path env) in
  one_word (value_of sh v_new) -> absolute (value_of sh v_new) -> one_word (value_of sh (lit "pwd")) -> absolute (value_of sh (lit "pwd")) -> one_word (value_of sh v_source) ->
  called (value_of sh v_source) (lit "maike").
Proof.
  go install_and_rebuild_out_of_tree_rel_path. injection H as <- <-. cbv zeta. cbn [value_of]. sets. intros O1 (d & A1) O2 (b & A2) O3.
  assert (O4 : one_word (lit "..")) by (apply one_word_lit; [reflexivity|discriminate]).
  match goal with R : run ?h (expand _ [`"maike_targets/core/bin/maike2"; _]) _ = (0, ?out) |- _ => eapply (made_by h out []); [exact R|cbn [events map ran]; unfold make_install, new_maike2; cbn [value_of]; rewrite ?assigned_text; words; reflexivity| |] end.
  - intros x I. cbn [In] in I. repeat destruct I as [<-|I]; try (right; intros m p; discriminate); try (now left); try easy.
    right. intros m p E. rewrite A2 in E. discriminate.
  - rewrite A1, A2. intros x wd I J (y & E). cbn [In] in I. repeat destruct I as [<-|I]; try easy; cbn [In] in J; repeat destruct J as [<-|J]; try discriminate; easy.
Qed.
End Run.
