(** Proofs about the manual page. *)

From Coq Require Import Ascii String Bool ZArith Lia.
From Coq Require Import List Permutation Sorted.
From Verif Require Import Str PathProofs CmdModel CmdSpec CmdProofs ValueModel ValueSpec AboutModel AboutSpec AboutProofs MakeModel MarkModel ManModel ManSpec.
Import ListNotations.

Definition hyphen : ascii := "-"%char.

Lemma escape_other : forall c s, c <> hyphen -> escape_dashes (c :: s) = c :: escape_dashes s.
Proof.
  intros c s H. destruct (ascii_dec c hyphen) as [E | N]; [contradiction|].
  destruct c as [[] [] [] [] [] [] [] []]; try reflexivity. exfalso. now apply N.
Qed.

Lemma escape_single : forall c s, c <> hyphen -> escape_dashes (hyphen :: c :: s) = hyphen :: escape_dashes (c :: s).
Proof.
  intros c s H. destruct c as [[] [] [] [] [] [] [] []]; try reflexivity. exfalso. now apply H.
Qed.

Lemma escape_head : forall s t, escape_dashes s = hyphen :: t -> exists s', s = hyphen :: s'.
Proof.
  intros [|c s] t H; [discriminate|]. destruct (ascii_dec c hyphen) as [-> | N]; [now exists s|].
  rewrite escape_other in H by exact N. injection H as H _. contradiction.
Qed.

Lemma escape_presented : forall n s, length s <= n -> ~ In "\"%char s -> presented (escape_dashes s) s.
Proof.
  induction n as [|n IH]; intros s L B.
  - destruct s; [constructor|cbn in L; lia].
  - destruct s as [|c s]; [constructor|]. cbn in L.
    destruct (ascii_dec c hyphen) as [-> | N].
    + destruct s as [|d s]; [apply presented_hyphen; [discriminate|constructor]|].
      destruct (ascii_dec d hyphen) as [-> | N].
      * change (presented ("\"%char :: hyphen :: "\"%char :: hyphen :: escape_dashes s) (hyphen :: hyphen :: s)).
        apply presented_escaped, presented_escaped, IH; [cbn in L; lia|]. intro I. apply B. cbn. auto.
      * rewrite escape_single by exact N. apply presented_hyphen.
        -- intros s' E. apply escape_head in E. destruct E as (s'' & E). injection E as E _. contradiction.
        -- apply IH; [cbn in *; lia|]. intro I. apply B. now right.
    + rewrite escape_other by exact N. apply presented_char; [|exact N|apply IH; [lia|]].
      * intros ->. apply B. now left.
      * intro I. apply B. now right.
Qed.

Theorem dashes_presented : forall s, ~ In "\"%char s -> presented (escape_dashes s) s.
Proof. intros s. exact (escape_presented (length s) s (le_n _)). Qed.

Lemma presented_unique : forall s t, presented s t -> forall t', presented s t' -> t = t'.
Proof.
  intros s t H. induction H as [|c s t N1 N2 H IH|c s t H IH|s t N H IH]; intros t' H'; inversion H'; subst;
    try contradiction; try reflexivity; f_equal; auto.
Qed.

(** * Templates *)

(** The template up to the next name *)
Lemma substitute_text : forall values part t, forallb (fun c => negb (Ascii.eqb c "$")) part = true ->
  substitute values Outside (part ++ t) = option_map (app part) (substitute values Outside t).
Proof.
  intros values part t H. induction part as [|c part IH].
  - cbn [app]. destruct (substitute values Outside t); reflexivity.
  - cbn [forallb] in H. apply andb_prop in H. destruct H as [Hc H]. apply negb_true_iff in Hc.
    cbn [app substitute]. rewrite Hc, IH by exact H. destruct (substitute values Outside t); reflexivity.
Qed.

Lemma substitute_name : forall values rest name part t c, forallb name_char rest = true -> name_char c = false ->
  t = c :: part -> substitute values (InName name) (rest ++ t) =
  match values (name ++ rest), substitute values Outside t with Some v, Some r => Some (v ++ r) | _, _ => None end.
Proof.
  intros values rest. induction rest as [|d rest IH]; intros name part t c H Hc ->.
  - cbn [app]. rewrite app_nil_r. cbn [substitute]. rewrite Hc. reflexivity.
  - cbn [forallb] in H. apply andb_prop in H. destruct H as [Hd H]. cbn [app substitute]. rewrite Hd.
    rewrite (IH (name ++ [d]) part (c :: part) c H Hc eq_refl), <- app_assoc. reflexivity.
Qed.

Lemma substitute_next : forall values part name1 name rest v r c t,
  forallb (fun c => negb (Ascii.eqb c "$")) part = true -> name_start name1 = true -> forallb name_char name = true ->
  rest = c :: t -> name_char c = false -> values (name1 :: name) = Some v -> substitute values Outside rest = Some r ->
  substitute values Outside (part ++ "$"%char :: name1 :: name ++ rest) = Some (part ++ v ++ r).
Proof.
  intros values part name1 name rest v r c t H1 H2 H3 -> H4 V R. rewrite substitute_text by exact H1.
  assert (E : substitute values Outside ("$"%char :: name1 :: name ++ c :: t) = Some (v ++ r)).
  { cbn [substitute]. rewrite Ascii.eqb_refl. destruct (Ascii.eqb name1 "$") eqn:D.
    - apply Ascii.eqb_eq in D. subst name1. discriminate.
    - rewrite H2. rewrite (substitute_name values name [name1] t (c :: t) c H3 H4 eq_refl). cbn [app]. rewrite V.
      rewrite R. reflexivity. }
  rewrite E. reflexivity.
Qed.

(** * Sorting *)

Lemma insert_text_perm x l : Permutation (insert_text x l) (x :: l).
Proof.
  induction l as [|y l IH]; cbn; [reflexivity|]. destruct (str_compare x y); try reflexivity. rewrite IH. apply perm_swap.
Qed.

Lemma sort_texts_perm l : Permutation (sort_texts l) l.
Proof. induction l as [|x l IH]; cbn; [reflexivity|]. rewrite insert_text_perm. now constructor. Qed.

Lemma compare_not_after x y : str_compare x y <> Gt -> not_after x y.
Proof.
  intro H. destruct (str_compare x y) eqn:E; [left|right|contradiction].
  - now apply (ord_eq _ str_order).
  - now apply str_lt_before.
Qed.

Lemma not_after_trans : forall a b c, not_after a b -> not_after b c -> not_after a c.
Proof.
  intros a b c [-> | H1] [-> | H2]; try (now left); try (now right).
  right. apply str_lt_before in H1, H2. apply str_lt_before. exact (ord_trans _ str_order _ _ _ H1 H2).
Qed.

Lemma insert_text_sorted x l : StronglySorted not_after l -> StronglySorted not_after (insert_text x l).
Proof.
  induction 1 as [|y l S IH F]; cbn; [repeat constructor|].
  assert (Stay : str_compare x y <> Gt -> StronglySorted not_after (x :: y :: l)).
  { intro N. apply compare_not_after in N. constructor; [constructor; assumption|]. constructor; [exact N|].
    rewrite Forall_forall in *. intros z Z. exact (not_after_trans _ _ _ N (F z Z)). }
  destruct (str_compare x y) eqn:E; [apply Stay; discriminate..|]. constructor; [exact IH|].
  rewrite Forall_forall in *. intros z Z. apply (Permutation_in _ (insert_text_perm x l)) in Z. destruct Z as [<- | Z]; [|exact (F z Z)].
  apply compare_not_after. rewrite (ord_opp _ str_order), E. discriminate.
Qed.

Lemma sort_texts_sorted l : StronglySorted not_after (sort_texts l).
Proof. induction l as [|x l IH]; cbn; [constructor|]. now apply insert_text_sorted. Qed.

Lemma authors_listed l : author_list l (join (lit ", ") (get_authors l)).
Proof.
  exists (get_authors l). split; [apply sort_texts_perm|]. split; [apply sort_texts_sorted|apply join_separated].
Qed.

(** * The page *)

Theorem page_made : forall p opts time, start_in_range time ->
  exists text, page p opts time = Some text /\ page_of p opts time text.
Proof.
  intros p opts time R. eexists. split.
  - unfold page. 
    eapply (substitute_next (page_values p opts time) (lit "---
title: MAIKE
section: 1
header: General Commands Manual
footer: maike
date: ") "d"%char (lit "ate")); [reflexivity|reflexivity|reflexivity|reflexivity|reflexivity|reflexivity|].
    eapply (substitute_next (page_values p opts time) (lit "
---

# NAME
maike2

# DESCRIPTION
") "d"%char (lit "escription")); [reflexivity|reflexivity|reflexivity|reflexivity|reflexivity|reflexivity|].
    eapply (substitute_next (page_values p opts time) (lit "

# SYNOPSIS
**maike2** [*options*]

# OPTIONS

") "o"%char (lit "pts")); [reflexivity|reflexivity|reflexivity|reflexivity|reflexivity|reflexivity|].
    eapply (substitute_next (page_values p opts time) (lit "

# AUTHOR

") "a"%char (lit "uthor")); [reflexivity|reflexivity|reflexivity|reflexivity|reflexivity|reflexivity|].
    eapply (substitute_next (page_values p opts time) (lit "

# COPYRIGHT

") "c"%char (lit "opyright")); [reflexivity|reflexivity|reflexivity|reflexivity|reflexivity|reflexivity|].
    eapply (substitute_next (page_values p opts time) (lit "

") "l"%char (lit "icense_short")); [reflexivity|reflexivity|reflexivity|reflexivity|reflexivity|reflexivity|].
    reflexivity.
  - exists (format_start time), (join (nl ++ nl) (project_description p)), (join (lit ", ") (get_authors (project_copyright p))),
      (join (nl ++ nl) (get_copyright (project_copyright p))), (get_copyright (project_copyright p)).
    split; [reflexivity|]. split; [now apply format_start_text|]. split; [apply join_separated|]. split; [apply authors_listed|].
    split; [apply copyright_presents|apply join_separated].
Qed.
