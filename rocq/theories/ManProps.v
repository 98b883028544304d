(** C116: the manual page, and the pages about options and configuration. *)

From Coq Require Import Ascii String Bool ZArith Lia.
From Coq Require Import List Permutation Sorted.
From Verif Require Import Str PathProofs CmdModel CmdSpec MainModel ValueModel ValueSpec AboutModel AboutSpec AboutProofs HelpModel MakeModel MarkModel MarkSpec MarkProofs.
From Verif Require Import ManModel ManSpec ManProofs.
Import ListNotations.

Local Open Scope string_scope.
Local Open Scope list_scope.

(** C116. The page has the date, the description, the options, the authors in alphabetical
    order, the copyright and the license, whatever characters there are in them. *)
Theorem C116_page : forall p opts time, start_in_range time ->
  exists text, page p opts time = Some text /\ page_of p opts time text.
Proof. exact page_made. Qed.
Print Assumptions C116_page.

(** C116. Hyphens remain hyphens, and do not become dashes. *)
Theorem C116_hyphens : forall s, ~ In "\"%char s -> presented (escape_dashes s) s /\
  forall t, presented (escape_dashes s) t -> t = s.
Proof.
  intros s H. pose proof (dashes_presented s H) as P. split; [exact P|]. intros t Q. exact (presented_unique _ _ Q _ P).
Qed.
Print Assumptions C116_hyphens.

(** C116. The manual page is made from the help text of the program in the target directory. *)
Theorem C116_manual : forall run writable pandoc p place target_dir time target F F1 table,
  let file := target_dir ++ lit "/" ++ place ++ lit "/cmdlineopts.md" in
  run [target_dir ++ lit "/core/bin/maike2"; lit "--help"] = Some (help_text table, 0%Z) -> ~ In "\"%char (help_text table) ->
  start_in_range time -> cmdlineopts run writable target_dir [file] F = (F1, 0%Z) ->
  exists options text, presented options (help_text table) /\ page_of p options time text /\
    forall out, pandoc text = Some (Some out, 0%Z) ->
    exists F2, manpage pandoc (Some p) place target_dir time [target] F1 = (F2, 0%Z) /\ F2 target = Some out /\
      forall name, name <> target -> F2 name = F1 name.
Proof.
  intros run writable pandoc p place target_dir time target F F1 table file R B T C.
  exists (escape_dashes (help_text table)). destruct (page_made p (escape_dashes (help_text table)) time T) as (text & E & P).
  exists text. split; [now apply dashes_presented|]. split; [exact P|]. intros out O.
  exists (set_file target out F1).
  split; [|split; [unfold set_file; now rewrite str_eqb_refl|intros name N; unfold set_file; destruct (str_eqb name target) eqn:Q;
    [apply str_eqb_eq in Q; contradiction|reflexivity]]].
  assert (Fo : F1 file = Some (escape_dashes (help_text table))).
  { unfold cmdlineopts, show_output in C. rewrite R in C. cbn [Z.eqb] in C. destruct (writable file); [|discriminate].
    injection C as <-. unfold set_file. now rewrite str_eqb_refl. }
  unfold manpage. fold file. rewrite Fo, E, O. reflexivity.
Qed.
Print Assumptions C116_manual.

(** C116. If the program fails, so do the scripts, and no file is touched. Otherwise the
    target is written, and nothing else. *)
Theorem C116_output : forall run writable target_dir targets F F' status arguments convert,
  (forall c out r, run c = Some (out, r) -> (-256 < r < 256)%Z) ->
  In (arguments, convert) [([lit "--help"], cmdlineopts run writable);
                           ([lit "--config-default"; lit "--configdump"], configdefault run writable)] ->
  convert target_dir targets F = (F', status) ->
  let result := run ((target_dir ++ lit "/core/bin/maike2") :: arguments) in
  (status = 0%Z -> exists out target others text, result = Some (out, 0%Z) /\ targets = target :: others /\
     F' target = Some text /\ forall name, name <> target -> F' name = F name) /\
  (status <> 0%Z -> forall name, F' name = F name) /\
  ((forall out, result <> Some (out, 0%Z)) -> status <> 0%Z).
Proof.
  intros run writable target_dir targets F F' status arguments convert Range I C. cbv zeta.
  assert (G : exists f, convert = show_output run writable arguments f).
  { destruct I as [I | [I | []]]; injection I as <- <-; eexists; reflexivity. }
  destruct G as (f & ->). clear I. unfold show_output in C.
  destruct (run _) as [[out r]|] eqn:R.
  2:{ injection C as <- <-. split; [discriminate|]. split; [reflexivity|discriminate]. }
  destruct (r =? 0)%Z eqn:Z.
  - apply Z.eqb_eq in Z. subst r.
    assert (Fail : (F, 1%Z) = (F', status) -> (status = 0%Z -> exists out0 target others text, Some (out, 0%Z) = Some (out0, 0%Z) /\ targets = target :: others /\
     F' target = Some text /\ forall name, name <> target -> F' name = F name) /\
       (status <> 0%Z -> forall name, F' name = F name) /\ ((forall out0, Some (out, 0%Z) <> Some (out0, 0%Z)) -> status <> 0%Z)).
    { intro E. injection E as <- <-. split; [discriminate|]. split; [reflexivity|]. intros H. destruct (H out eq_refl). }
    destruct targets as [|target others]; [now apply Fail|]. destruct (writable target); [|now apply Fail].
    injection C as <- <-. split; [|split; [intro H; now destruct H|intro H; destruct (H out eq_refl)]].
    intros _. exists out, target, others, (f out). split; [reflexivity|]. split; [reflexivity|].
    unfold set_file. rewrite str_eqb_refl. split; [reflexivity|]. intros name N.
    destruct (str_eqb name target) eqn:Q; [apply str_eqb_eq in Q; contradiction|reflexivity].
  - apply Z.eqb_neq in Z. injection C as <- <-. specialize (Range _ _ _ R). unfold exit_status.
    assert (M : (r mod 256 <> 0)%Z).
    { intro M. apply Z.mod_divide in M; [|discriminate]. destruct M as (k & ->). lia. }
    split; [intro H; contradiction|]. split; [reflexivity|]. intros _. exact M.
Qed.
Print Assumptions C116_output.

(** C116. The default configuration is shown as it is. *)
Theorem C116_config : forall run writable target_dir target others out F,
  run [target_dir ++ lit "/core/bin/maike2"; lit "--config-default"; lit "--configdump"] = Some (out, 0%Z) ->
  writable target = true -> (forall s1 s2, out = s1 ++ fence ++ s2 -> ~ at_line_start s1) ->
  exists F' md, configdefault run writable target_dir (target :: others) F = (F', 0%Z) /\ F' target = Some md /\
    code_block md (lit "json") out.
Proof.
  intros run writable target_dir target others out F R W N. unfold configdefault, show_output. rewrite R, W. cbn [Z.eqb].
  eexists. eexists. split; [reflexivity|]. split; [unfold set_file; rewrite str_eqb_refl; reflexivity|]. split; [|exact N]. reflexivity.
Qed.
Print Assumptions C116_config.

(** C116. The parts of the documentation show what pandoc makes of the options, with hyphens,
    and of the default configuration, as a block, unless the script before has failed. *)
Theorem C116_parts : forall run writable escape_attribute escape_text html fromstring place target_dir target others F F1 arguments file first second md page root,
  (forall c out r, run c = Some (out, r) -> (-256 < r < 256)%Z) ->
  In (arguments, file, first, second)
    [([lit "--help"], lit "cmdlineopts.md", cmdlineopts run writable,
      cmdlineopts2xml escape_attribute escape_text html fromstring writable);
     ([lit "--config-default"; lit "--configdump"], lit "configdefault.md", configdefault run writable,
      configdefault2xml escape_attribute escape_text html fromstring writable)] ->
  escapes escape_attribute escape_text ->
  first target_dir [target_dir ++ lit "/" ++ place ++ lit "/" ++ file] F = (F1, 0%Z) ->
  F1 (target_dir ++ lit "/" ++ place ++ lit "/" ++ file) = Some md ->
  html md = Some (page, 0%Z) -> fromstring (lit "<content>" ++ page ++ lit "</content>") = Some root ->
  xml_names root -> sectioned root -> valued root -> writable target = true ->
  (exists out, run ((target_dir ++ lit "/core/bin/maike2") :: arguments) = Some (out, 0%Z) /\
    (arguments = [lit "--help"] -> ~ In "\"%char out -> presented md out) /\
    (arguments <> [lit "--help"] -> (forall s1 s2, out = s1 ++ fence ++ s2 -> ~ at_line_start s1) -> code_block md (lit "json") out)) /\
  exists F2 text result, second place target_dir (target :: others) F1 = (F2, 0%Z) /\
    F2 target = Some text /\ read_file text = escaped_reading escape_attribute escape_text result /\
    reading result = reading root /\ forall q, q <> target -> F2 q = F1 q.
Proof.
  intros run writable ea et html fromstring place target_dir target others F F1 arguments file first second md page root
    Range I Es R M H X N S V W.
  assert (G : exists convert, first = show_output run writable arguments convert /\
            second = to_xml ea et html fromstring writable file /\
            (forall out, arguments = [lit "--help"] -> ~ In "\"%char out -> presented (convert out) out) /\
            (forall out, arguments <> [lit "--help"] -> (forall s1 s2, out = s1 ++ fence ++ s2 -> ~ at_line_start s1) ->
               code_block (convert out) (lit "json") out)).
  { destruct I as [I | [I | []]]; injection I as <- <- <- <-; eexists; (split; [reflexivity|]); (split; [reflexivity|]); split.
    - intros out _. apply dashes_presented.
    - intros out Q. now destruct Q.
    - intros out Q. discriminate Q.
    - intros out _ Q. split; [reflexivity|exact Q]. }
  destruct G as (convert & -> & -> & G1 & G2). clear I. split.
  - unfold show_output in R. destruct (run _) as [[out r]|] eqn:Rn; [|discriminate].
    destruct (r =? 0)%Z eqn:Z.
    + apply Z.eqb_eq in Z. subst r. exists out. split; [reflexivity|]. destruct (writable _); [|discriminate].
      injection R as <-. unfold set_file in M. rewrite str_eqb_refl in M. injection M as <-. split; [apply G1|apply G2].
    + apply Z.eqb_neq in Z. injection R as -> R. specialize (Range _ _ _ Rn). unfold exit_status in R. exfalso.
      apply Z.mod_divide in R; [|discriminate]. destruct R as (k & ->). lia.
  - unfold to_xml. eapply converted_read; try eassumption. unfold pandoc_file. now rewrite M.
Qed.
Print Assumptions C116_parts.

(** C116. Wrong: if the script for the manual page succeeds, there is a manual page. The
    return code of pandoc is ignored. *)
Theorem C116_pandoc_refuted : ~ forall pandoc info place target_dir time target F F',
  manpage pandoc info place target_dir time [target] F = (F', 0%Z) -> F' target <> None.
Proof.
  intro H.
  set (p := mk_project_info [] [] []). set (F := set_file (lit "out/doc/cmdlineopts.md") [] (fun _ => None)).
  apply (H (fun _ => Some (None, 83%Z)) (Some p) (lit "doc") (lit "out") 0%Z (lit "out/doc/maike2.1.man") F F); vm_compute; reflexivity.
Qed.
Print Assumptions C116_pandoc_refuted.

(** ** Examples *)

Example w_escape : escape_dashes (lit "--dry-run ---") = lit "\-\-dry-run \-\--".
Proof. reflexivity. Qed.

Example w_substitute : let values := fun n => if str_eqb n (lit "a") then Some (lit "$b") else None in
  substitute values Outside (lit "x$a, ${a}y $$a") = Some (lit "x$b, $by $a") /\
  substitute values Outside (lit "$ab") = None /\ substitute values Outside (lit "$a1") = None /\
  substitute values Outside (lit "$ a") = None /\ substitute values Outside (lit "a$") = None.
Proof. repeat split. Qed.

(** Hypotheses of C116_page and C116_manual *)
Definition w_project : project_info :=
  mk_project_info [lit "A build system"; lit "It costs $0"] [mk_holder [2021; 2016]%Z (lit "Zoe"); mk_holder [2020]%Z (lit "Adam")] (lit "GPL").

Example w_authors : get_authors (project_copyright w_project) = [lit "Adam"; lit "Zoe"].
Proof. reflexivity. Qed.

Example w_page : page w_project (lit "\-\-help") 1600000000 = Some (lit "---
title: MAIKE
section: 1
header: General Commands Manual
footer: maike
date: 2020-09-13 12:26:40 UTC
---

# NAME
maike2

# DESCRIPTION
A build system

It costs $0

# SYNOPSIS
**maike2** [*options*]

# OPTIONS

\-\-help

# AUTHOR

Adam, Zoe

# COPYRIGHT

© 2016, 2021 : Zoe

© 2020 : Adam

GPL
").
Proof. vm_compute. reflexivity. Qed.

Example w_help : ~ In "\"%char (help_text (help_table (fun _ => lit "Something") (fun _ => lit "Text"))).
Proof. apply not_in_line. vm_compute. reflexivity. Qed.
