(** Proofs about cleaning up and formatting. *)

From Coq Require Import Ascii String Bool Lia.
From Coq Require Import List.
From Verif Require Import Str PathProofs PkgModel PkgSpec PkgProofs TidyModel TidySpec.
Import ListNotations.

Lemma same_eq a : forall b, same a b = true <-> a = b.
Proof.
  induction a as [|x a IH]; intros [|y b]; cbn; split; intro H; try reflexivity; try discriminate.
  - apply andb_true_iff in H as (A & B). apply str_eqb_eq in A. apply IH in B. now subst.
  - injection H as -> ->. now rewrite str_eqb_refl, (proj2 (IH b) eq_refl).
Qed.

Lemma set_at p o F : set p o F p = o.
Proof. unfold set. now rewrite (proj2 (same_eq p p) eq_refl). Qed.

Lemma set_else p o F q : q <> p -> set p o F q = F q.
Proof. intro N. unfold set. destruct (same p q) eqn:E; [apply same_eq in E; congruence|reflexivity]. Qed.

Lemma starts_spec s : forall t, starts s t = true <-> exists rest, t = s ++ rest.
Proof.
  induction s as [|c s IH]; intro t; cbn; [split; eauto|]. destruct t as [|d t].
  - split; [discriminate|]. intros (rest & E). discriminate.
  - rewrite andb_true_iff, IH. split.
    + intros (E & rest & ->). apply Ascii.eqb_eq in E as ->. now exists rest.
    + intros (rest & E). injection E as -> ->. split; [apply Ascii.eqb_refl|now exists rest].
Qed.

Theorem clean_exact F p : (target_place p -> clean F p = None) /\ (~ target_place p -> clean F p = F p).
Proof.
  unfold clean, target_place. destruct p as [|n p].
  - split; [intros (rest & below & E); discriminate|reflexivity].
  - destruct (starts (lit "__targets") n) eqn:S.
    + apply starts_spec in S as (rest & ->). split; [reflexivity|]. intro N. exfalso. apply N. now exists rest, p.
    + split; [|reflexivity]. intros (rest & below & E). assert (En : n = lit "__targets" ++ rest) by congruence. rewrite (proj2 (starts_spec (lit "__targets") n) (ex_intro _ rest En)) in S. discriminate S.
Qed.

Lemma json_not_tmp p : json_name p -> p <> tmp.
Proof.
  intros (dir & n & ->) E. unfold tmp in E. destruct dir as [|x dir]; cbn in E.
  - injection E as E. apply (f_equal (@rev ascii)) in E. rewrite rev_app_distr in E. discriminate.
  - injection E as _ E. now destruct dir.
Qed.

Section Format.
  Variable jq : place -> str -> bool * str.
  Variable mode : nat.
  Notation one := (format_one jq mode).

  Definition no_directory (F : files) : Prop := F tmp <> Some Dir.

  Lemma written F c : no_directory F -> exists m, write mode tmp c F = Some (set tmp (Some (File c m)) F).
  Proof. unfold no_directory, write. destruct (F tmp) as [[|c' m]|]; intro N; [easy|eauto|eauto]. Qed.

  (** One file *)
  Lemma one_spec F p : no_directory F -> p <> tmp ->
    (forall q, q <> tmp -> q <> p -> one F p q = F q) /\
    no_directory (one F p) /\
    match F p with
    | Some (File c m) =>
        if fst (jq p c) then (exists m', one F p p = Some (File (snd (jq p c)) m')) /\ one F p tmp = None
        else one F p p = F p
    | o => one F p p = o
    end.
  Proof.
    intros N T. unfold format_one. destruct (written F [] N) as (m & ->). rewrite (set_else _ _ _ p T).
    set (F1 := set tmp (Some (File [] m)) F).
    assert (N1 : no_directory F1) by (unfold no_directory, F1; now rewrite set_at).
    assert (E1 : forall q, q <> tmp -> F1 q = F q) by (intros q Q; unfold F1; now rewrite set_else).
    destruct (F p) as [[|c m0]|] eqn:Fp; try (split; [auto|]; split; [exact N1|]; now rewrite E1).
    destruct (jq p c) as [ok out]. destruct (written F1 out N1) as (m2 & ->). cbn [fst snd]. destruct ok.
    - rewrite set_at. split; [|split; [|split]].
      + intros q A B. rewrite !set_else by assumption. auto.
      + unfold no_directory. now rewrite set_at.
      + exists m2. now rewrite set_else, set_at.
      + now rewrite set_at.
    - split; [|split].
      + intros q A B. rewrite !set_else by assumption. auto.
      + unfold no_directory. now rewrite set_at.
      + rewrite set_else by exact T. now rewrite E1.
  Qed.

  (** The mode, if there is no other file .fmt *)
  Definition fresh (F : files) : Prop := F tmp = None \/ exists d, F tmp = Some (File d mode).

  Lemma written_new F c : fresh F -> write mode tmp c F = Some (set tmp (Some (File c mode)) F).
  Proof. unfold write. intros [-> | (d & ->)]; reflexivity. Qed.

  Lemma one_mode F p : fresh F -> p <> tmp -> fresh (one F p) /\
    forall c m, F p = Some (File c m) -> fst (jq p c) = true -> one F p p = Some (File (snd (jq p c)) mode).
  Proof.
    intros N T. unfold format_one. rewrite (written_new F [] N), (set_else _ _ _ p T). set (F1 := set tmp (Some (File [] mode)) F).
    assert (N1 : fresh F1) by (right; exists []; apply set_at).
    destruct (F p) as [[|c m]|] eqn:Fp; try (split; [exact N1|discriminate]).
    destruct (jq p c) as [ok out] eqn:J. rewrite (written_new F1 out N1). split.
    - destruct ok; [left; apply set_at|right; exists out; apply set_at].
    - intros c0 m0 E. assert (Ec : c0 = c) by congruence. subst c0. rewrite J. cbn [fst snd]. intros ->. rewrite set_else by exact T. now rewrite !set_at.
  Qed.

  Lemma one_blocked F p : F tmp = Some Dir -> one F p = F.
  Proof. intro D. unfold format_one, write. now rewrite D. Qed.

  Theorem blocked names F : F tmp = Some Dir -> format_json jq mode names F = F.
  Proof. intro D. unfold format_json. induction names as [|p names IH]; [reflexivity|]. cbn. now rewrite (one_blocked F p D). Qed.

  Lemma others names : forall F, no_directory F -> ~ In tmp names ->
    no_directory (format_json jq mode names F) /\ forall q, q <> tmp -> ~ In q names -> format_json jq mode names F q = F q.
  Proof.
    unfold format_json. induction names as [|p names IH]; intros F N T; [split; auto|]. cbn in *.
    destruct (one_spec F p N) as (A & B & _); [tauto|]. destruct (IH (one F p) B) as (C & D); [tauto|]. split; [exact C|].
    intros q Q1 Q2. rewrite D by tauto. apply A; [exact Q1|]. intros ->. tauto.
  Qed.

  Lemma each names : forall F, no_directory F -> ~ In tmp names -> NoDup names -> forall p, In p names ->
    match F p with
    | Some (File c m) =>
        if fst (jq p c) then exists m', format_json jq mode names F p = Some (File (snd (jq p c)) m')
        else format_json jq mode names F p = F p
    | o => format_json jq mode names F p = o
    end.
  Proof.
    induction names as [|x names IH]; intros F N T D p I; [easy|]. cbn [In] in *. change (format_json jq mode (x :: names) F) with (format_json jq mode names (one F x)). inversion D as [|? ? Nx D']; subst.
    destruct (one_spec F x N) as (A & B & C); [tauto|]. destruct I as [->|I].
    - rewrite (proj2 (others names (one F p) B ltac:(tauto)) p ltac:(tauto) Nx). destruct (F p) as [[|c m]|]; auto.
      destruct (fst (jq p c)); [exact (proj1 C)|exact C].
    - assert (E : one F x p = F p). { apply A; [intros ->; tauto|]. intros ->. tauto. }
      specialize (IH (one F x) B ltac:(tauto) D' p I). now rewrite E in IH.
  Qed.

  Lemma modes names : forall F, fresh F -> ~ In tmp names -> NoDup names -> forall p c m, In p names -> F p = Some (File c m) ->
    fst (jq p c) = true -> format_json jq mode names F p = Some (File (snd (jq p c)) mode).
  Proof.
    induction names as [|x names IH]; intros F N T D p c m I E O; [easy|]. cbn [In] in *. change (format_json jq mode (x :: names) F) with (format_json jq mode names (one F x)). inversion D as [|? ? Nx D']; subst.
    assert (N0 : no_directory F) by (unfold no_directory; destruct N as [-> | (d & ->)]; discriminate).
    destruct (one_spec F x N0) as (A & B & _); [tauto|]. destruct (one_mode F x N) as (N' & C); [tauto|]. destruct I as [->|I].
    - rewrite (proj2 (others names (one F p) B ltac:(tauto)) p ltac:(tauto) Nx). exact (C c m E O).
    - apply (IH (one F x) N' ltac:(tauto) D' p c m I); [|exact O]. rewrite <- E. apply A; [intros ->; tauto|]. intros ->. tauto.
  Qed.

  Lemma gone names : forall F, no_directory F -> ~ In tmp names -> NoDup names -> names <> [] ->
    (forall p, In p names -> exists c m, F p = Some (File c m) /\ fst (jq p c) = true) -> format_json jq mode names F tmp = None.
  Proof.
    induction names as [|x names IH]; intros F N T D E O; [easy|]. cbn [In] in *. change (format_json jq mode (x :: names) F) with (format_json jq mode names (one F x)). inversion D as [|? ? Nx D']; subst.
    destruct (one_spec F x N) as (A & B & C); [tauto|]. destruct names as [|y names].
    - cbn. destruct (O x) as (c & m & Fx & Ok); [now left|]. rewrite Fx, Ok in C. tauto.
    - apply IH; [exact B|tauto|exact D'|easy|]. intros p I. destruct (O p (or_intror I)) as (c & m & Fp & Ok). exists c, m. split; [|exact Ok].
      rewrite <- Fp. apply A; [intros ->; tauto|]. intros ->. tauto.
  Qed.
End Format.

Theorem sources_words names : Forall word names -> formatted_sources names = names.
Proof.
  intro F. unfold formatted_sources. apply consists_split. 
  assert (H : forall g, gap g -> consists (g ++ flat_map (fun n => n ++ [ascii_of_nat 10]) names) names).
  { induction F as [|w names W F IH]; intros g G; cbn [flat_map]; [rewrite app_nil_r; now constructor|]. rewrite <- app_assoc.
    constructor; [exact G|exact W|right; eexists _, _; split; [reflexivity|cbn; tauto]|]. apply IH. constructor; [cbn; tauto|constructor]. }
  exact (H [] (Forall_nil _)).
Qed.

Theorem restored F G : (forall p, ~ target_place p -> G p = F p) -> (forall p, target_place p -> F p = None) -> forall p, clean G p = F p.
Proof.
  intros S N p. destruct (clean_exact G p) as (A & B). assert (D : target_place p \/ ~ target_place p).
  { unfold target_place. destruct p as [|n p]; [right; intros (rest & below & E); discriminate|]. destruct (starts (lit "__targets") n) eqn:S'.
    - left. apply starts_spec in S' as (rest & ->). eauto.
    - right. intros (rest & below & E). assert (En : n = lit "__targets" ++ rest) by congruence. rewrite (proj2 (starts_spec (lit "__targets") n) (ex_intro _ rest En)) in S'. discriminate S'. }
  destruct D as [D|D]; [now rewrite (A D), (N p D)|now rewrite (B D), (S p D)].
Qed.

Lemma found_not_tmp names F : found names F -> ~ In tmp names.
Proof. intros (_ & H) I. apply H in I as (J & _). now apply json_not_tmp in J. Qed.

Theorem json_files jq mode names F : F tmp <> Some Dir -> found names F -> forall p c m, json_name p -> F p = Some (File c m) ->
  (fst (jq p c) = true -> exists m', format_json jq mode names F p = Some (File (snd (jq p c)) m')) /\
  (fst (jq p c) = false -> format_json jq mode names F p = Some (File c m)).
Proof.
  intros N H p c m J E. assert (I : In p names) by (apply H; split; [exact J|congruence]).
  pose proof (each jq mode names F N (found_not_tmp _ _ H) (proj1 H) p I) as K. rewrite E in K. split; intro O; rewrite O in K; exact K.
Qed.

Theorem json_others jq mode names F : found names F -> forall p, p <> tmp ->
  ~ (json_name p /\ exists c m, F p = Some (File c m)) -> format_json jq mode names F p = F p.
Proof.
  intros H p T N. assert (D : F tmp = Some Dir \/ F tmp <> Some Dir) by (destruct (F tmp) as [[|? ?]|]; [now left|now right|now right]).
  destruct D as [D|D]; [now rewrite (blocked jq mode names F D)|].
  destruct (existsb (same p) names) eqn:X.
  - apply existsb_exists in X as (q & I & S). apply same_eq in S as <-.
    pose proof (each jq mode names F D (found_not_tmp _ _ H) (proj1 H) p I) as K. apply H in I as (J & _).
    destruct (F p) as [[|c m]|]; [exact K| |exact K]. exfalso. apply N. eauto.
  - apply (others jq mode names F D (found_not_tmp _ _ H)); [exact T|]. intro I.
    assert (Y : existsb (same p) names = true) by (apply existsb_exists; exists p; split; [exact I|now apply same_eq]). congruence.
Qed.

Theorem json_left jq mode names F : F tmp <> Some Dir -> found names F -> (exists p, json_name p /\ F p <> None) ->
  (forall p, json_name p -> F p <> None -> exists c m, F p = Some (File c m) /\ fst (jq p c) = true) -> format_json jq mode names F tmp = None.
Proof.
  intros N H (p & Jp) O. apply (gone jq mode names F N (found_not_tmp _ _ H) (proj1 H)).
  - intros ->. now apply H in Jp.
  - intros q I. apply H in I as (J & K). auto.
Qed.

Lemma still_found jq mode names F : F tmp <> Some Dir -> found names F -> found names (format_json jq mode names F).
Proof.
  intros N H. split; [exact (proj1 H)|]. intro p. split.
  - intro I. pose proof (each jq mode names F N (found_not_tmp _ _ H) (proj1 H) p I) as K. apply H in I as (J & E). split; [exact J|].
    destruct (F p) as [[|c m]|]; [now rewrite K| |easy]. destruct (fst (jq p c)); [destruct K as (m' & ->)|rewrite K]; discriminate.
  - intros (J & E). apply H. split; [exact J|]. intro Z. apply E. rewrite <- Z. apply (json_others jq mode names F H); [now apply json_not_tmp|].
    intros (_ & c & m & Y). congruence.
Qed.

Theorem json_twice jq mode names F : F tmp <> Some Dir -> found names F ->
  (forall p c, fst (jq p c) = true -> jq p (snd (jq p c)) = (true, snd (jq p c))) ->
  let G := format_json jq mode names F in
  forall p c m, json_name p -> G p = Some (File c m) -> exists m', format_json jq mode names G p = Some (File c m').
Proof.
  intros N H Id G p c m J E. pose proof (still_found jq mode names F N H) as HG. fold G in HG.
  assert (NG : G tmp <> Some Dir) by apply (others jq mode names F N (found_not_tmp _ _ H)).
  destruct (json_files jq mode names G NG HG p c m J E) as (A & B).
  destruct (F p) as [[|c0 m0]|] eqn:Fp.
  - exfalso. assert (Z : G p = F p); [|congruence]. apply (json_others jq mode names F H); [now apply json_not_tmp|]. intros (_ & ? & ? & Y). congruence.
  - destruct (json_files jq mode names F N H p c0 m0 J Fp) as (A0 & B0). fold G in A0, B0. destruct (fst (jq p c0)) eqn:O.
    + destruct (A0 eq_refl) as (m1 & Z). rewrite Z in E. assert (Ec : snd (jq p c0) = c) by congruence.
      specialize (Id p c0 O). rewrite Ec in Id. rewrite Id in A. cbn in A. exact (A eq_refl).
    + specialize (B0 eq_refl). assert (Ec : c0 = c) by congruence. subst c0. rewrite O in B. eauto.
  - exfalso. assert (Z : G p = F p); [|congruence]. apply (json_others jq mode names F H); [now apply json_not_tmp|]. intros (_ & ? & ? & Y). congruence.
Qed.

Theorem json_mode jq mode names F : F tmp = None -> found names F -> forall p c m, json_name p -> F p = Some (File c m) ->
  fst (jq p c) = true -> format_json jq mode names F p = Some (File (snd (jq p c)) mode).
Proof.
  intros N H p c m J E O. apply (modes jq mode names F (or_introl N) (found_not_tmp _ _ H) (proj1 H) p c m); [|exact E|exact O]. apply H. split; [exact J|congruence].
Qed.
