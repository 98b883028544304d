(** Proofs about tags and includes. *)

From Coq Require Import Ascii String NArith Bool Arith Lia.
From Coq Require Import List.
From Verif Require Import Str Path PathProofs DbModel LexModel LexSpec.
Import ListNotations.
Local Open Scope char_scope.

(** * Lines *)

Lemma lines_cons : forall s, exists l ls, lines s = l :: ls.
Proof.
  induction s as [|c s [l [ls IH]]]; simpl; [eauto|]. destruct (Ascii.eqb c newline); [eauto|]. rewrite IH. eauto.
Qed.

Lemma lines_app : forall p s, ~ In newline p ->
    lines (p ++ s) = (p ++ hd [] (lines s)) :: tl (lines s).
Proof.
  induction p as [|c p IH]; intros s H; simpl.
  - destruct (lines_cons s) as [l [ls E]]. rewrite E. reflexivity.
  - destruct (Ascii.eqb c newline) eqn:E.
    + apply Ascii.eqb_eq in E. subst. exfalso. apply H. simpl. auto.
    + rewrite IH by (intro; apply H; simpl; auto). reflexivity.
Qed.

Lemma lines_newline : forall p s, ~ In newline p -> lines (p ++ newline :: s) = p :: lines s.
Proof. intros p s H. rewrite lines_app by auto. simpl. rewrite app_nil_r. reflexivity. Qed.

Lemma lines_nil : forall p, ~ In newline p -> lines p = [p].
Proof. intros p H. rewrite <- (app_nil_r p) at 1. rewrite lines_app by auto. simpl. rewrite app_nil_r. reflexivity. Qed.

Lemma blank_app : forall a b, blank (a ++ b) <-> blank a /\ blank b.
Proof.
  intros a b. unfold blank. split.
  - intro H. split; intros c Hc; apply H; apply in_or_app; auto.
  - intros [Ha Hb] c Hc. apply in_app_or in Hc. destruct Hc; auto.
Qed.

Lemma blank_nil : blank [].
Proof. intros c []. Qed.

Lemma blank_one : forall c, is_space c = true -> blank [c].
Proof. intros c H d [<-|[]]. auto. Qed.

Lemma not_in_app : forall (c : ascii) a b, ~ In c (a ++ b) <-> ~ In c a /\ ~ In c b.
Proof. intros c a b. rewrite in_app_iff. tauto. Qed.

(** * C19 *)

Theorem cxx_source_unchanged : forall s, fst (cxx_filter_input s) = s.
Proof.
  intro s. unfold cxx_filter_input. generalize FNewline. induction s as [|c s IH]; intro st; simpl; auto.
  destruct (filter_step st c) as [st' out]. specialize (IH st'). destruct (filter_loop st' s) as [src tags].
  simpl in *. congruence.
Qed.

Theorem ext_source_unchanged : forall s, fst (ext_filter_input s) = s.
Proof.
  intro s. unfold ext_filter_input. generalize ENewline. induction s as [|c s IH]; intro st; simpl; auto.
  destruct (ext_step st c) as [st' out]. specialize (IH st'). destruct (ext_loop st' s) as [src tags].
  simpl in *. congruence.
Qed.

(** * C20 *)

Definition cxx_line (l t : str) : Prop := blank t \/ tag_line (lit "//@") l t.

(** What has been read and written on the current line *)
Definition filter_inv (st : filter_state) (src tags : str) : Prop :=
  ~ In newline src /\ ~ In newline tags /\
  match st with
  | FNewline => blank tags /\ src = tags
  | FCommentFirst => exists ws, blank ws /\ src = ws ++ lit "/" /\ tags = ws ++ lit " "
  | FTagSymbol => exists ws, blank ws /\ src = ws ++ lit "//" /\ tags = ws ++ lit "  "
  | FTag => tag_line (lit "//@") src tags
  | _ => blank tags
  end.

Lemma filter_tags_cons : forall st c s, snd (filter_loop st (c :: s)) =
    snd (filter_step st c) ++ snd (filter_loop (fst (filter_step st c)) s).
Proof.
  intros st c s. simpl. destruct (filter_step st c) as [st' out]. simpl. destruct (filter_loop st' s). reflexivity.
Qed.

Lemma space_blank : blank (lit " ").
Proof. apply blank_one. reflexivity. Qed.

Lemma filter_inv_line : forall st src tags, filter_inv st src tags -> cxx_line src tags.
Proof.
  intros st src tags (_ & _ & H). unfold cxx_line. destruct st; auto; try (left; tauto).
  - left. destruct H as (ws & Hw & _ & ->). apply blank_app. split; auto. apply space_blank.
  - left. destruct H as (ws & Hw & _ & ->). apply blank_app. split; auto. intros c [<-|[<-|[]]]; reflexivity.
Qed.

Ltac nl := rewrite ?not_in_app; repeat split; auto; simpl; intuition discriminate.

Lemma filter_step_inv : forall st src tags c st' out, filter_inv st src tags ->
    filter_step st c = (st', out) ->
    (c = newline /\ out = [newline] /\ filter_inv st' [] []) \/
    (c <> newline /\ filter_inv st' (src ++ [c]) (tags ++ out)).
Proof.
  intros st src tags c st' out (Hs & Ht & H) E.
  destruct (Ascii.eqb c newline) eqn:En.
  - apply Ascii.eqb_eq in En. subst c. left. split; auto.
    assert (Hi : filter_inv FNewline [] []) by (split; [simpl; auto|split; [simpl; auto|split; [apply blank_nil|auto]]]).
    destruct st; simpl in E; inversion E; subst; split; auto;
      (split; [simpl; auto|split; [simpl; auto|apply blank_nil]]).
  - right. assert (Hc : c <> newline) by (intros ->; discriminate). split; auto.
    assert (Hs' : ~ In newline (src ++ [c])) by (apply not_in_app; split; auto; simpl; intuition auto).
    split; auto.
    assert (Hsk : forall x, blank tags -> ~ In newline (tags ++ []) /\
             match x with FNewline | FCommentFirst | FTagSymbol | FTag => True | _ => blank (tags ++ []) end).
    { intros x Hb. rewrite app_nil_r. split; auto. destruct x; auto. }
    destruct st; simpl in E; rewrite ?En in E.
    + destruct H as [Hb ->]. destruct (Ascii.eqb c "/") eqn:E1; [|destruct (Ascii.eqb c "R") eqn:E2; [|destruct (is_space c) eqn:E3]];
        inversion E; subst.
      * apply Ascii.eqb_eq in E1. subst. split; [nl|]. exists tags. auto.
      * apply (Hsk FRawStringBegin Hb).
      * split; auto. split; auto. apply blank_app. split; auto. apply blank_one. auto.
      * apply (Hsk FSkipLine Hb).
    + destruct H as (ws & Hb & -> & ->). assert (Hb' : blank (ws ++ lit " ")) by (apply blank_app; split; auto; apply space_blank).
      destruct (Ascii.eqb c "/") eqn:E1; [|destruct (Ascii.eqb c "*") eqn:E2]; inversion E; subst.
      * apply Ascii.eqb_eq in E1. subst. split; [apply not_in_app in Ht; nl; tauto|].
        exists ws. rewrite <- !app_assoc. auto.
      * apply (Hsk FCommentBlock Hb').
      * apply (Hsk FSkipLine Hb').
    + destruct H as (ws & Hb & -> & ->).
      assert (Hb' : blank (ws ++ lit "  ")) by (apply blank_app; split; auto; intros d [<-|[<-|[]]]; reflexivity).
      destruct (Ascii.eqb c "@") eqn:E1; inversion E; subst.
      * apply Ascii.eqb_eq in E1. subst. split; [apply not_in_app in Ht; nl; tauto|].
        exists ws, []. rewrite <- !app_assoc. auto.
      * apply (Hsk FSkipLine Hb').
    + inversion E; subst. split; [apply not_in_app; split; auto; simpl; intuition auto|].
      destruct H as (ws & rest & Hb & -> & ->). exists ws, (rest ++ [c]). rewrite <- !app_assoc. auto.
    + destruct (Ascii.eqb c "R"); [|destruct (Ascii.eqb c "/")]; inversion E; subst.
      * apply (Hsk FRawStringBegin H).
      * apply (Hsk FCommentFirstSkipLine H).
      * apply (Hsk FSkipLine H).
    + destruct (Ascii.eqb c "*"); inversion E; subst; [apply (Hsk FCommentBlockPreEnd H)|apply (Hsk FCommentBlock H)].
    + destruct (Ascii.eqb c "/"); inversion E; subst; [apply (Hsk FSkipLine H)|apply (Hsk FCommentBlock H)].
    + destruct (Ascii.eqb c "*"); inversion E; subst; [apply (Hsk FCommentBlock H)|apply (Hsk FSkipLine H)].
    + destruct (Ascii.eqb c quote); inversion E; subst; [apply (Hsk (FRawStringTag [] []) H)|apply (Hsk FSkipLine H)].
    + destruct (Ascii.eqb c "("); inversion E; subst; [apply (Hsk (FRawString tag mark) H)|apply (Hsk (FRawStringTag tag mark) H)].
    + destruct (Ascii.eqb c ")"); inversion E; subst; [apply (Hsk (FRawStringPreEnd tag mark) H)|apply (Hsk (FRawString tag mark) H)].
    + destruct (Ascii.eqb c quote); inversion E; subst.
      * destruct (str_eqb mark tag); [apply (Hsk FSkipLine H)|apply (Hsk (FRawString tag []) H)].
      * apply (Hsk (FRawStringPreEnd tag mark) H).
Qed.

Lemma filter_lines : forall s st src tags, filter_inv st src tags ->
    Forall2 cxx_line (lines (src ++ s)) (lines (tags ++ snd (filter_loop st s))).
Proof.
  induction s as [|c s IH]; intros st src tags Hi.
  - simpl. rewrite !app_nil_r, !lines_nil by apply Hi. constructor; [|constructor]. eapply filter_inv_line; eauto.
  - rewrite filter_tags_cons. destruct (filter_step st c) as [st' out] eqn:E. simpl.
    destruct (filter_step_inv _ _ _ _ _ _ Hi E) as [(-> & -> & Hi')|[Hc Hi']].
    + simpl. rewrite !lines_newline by apply Hi. constructor; [eapply filter_inv_line; eauto|].
      exact (IH st' [] [] Hi').
    + rewrite app_assoc. replace (src ++ c :: s) with ((src ++ [c]) ++ s) by (rewrite <- app_assoc; reflexivity). apply IH. auto.
Qed.

Theorem cxx_tags_positions : forall s,
    Forall2 (fun l t => blank t \/ tag_line (lit "//@") l t) (lines s) (lines (snd (cxx_filter_input s))).
Proof.
  intro s. apply (filter_lines s FNewline [] []).
  split; [simpl; auto|split; [simpl; auto|split; [apply blank_nil|auto]]].
Qed.

(** ** Extensions *)

Definition ext_line (l t : str) : Prop :=
  tag_line (lit "#@") l t \/ (blank t /\ forall ws rest, blank ws -> l <> ws ++ lit "#@" ++ rest).

Definition ext_inv (st : ext_state) (src tags : str) : Prop :=
  ~ In newline src /\ ~ In newline tags /\
  match st with
  | ENewline => blank tags /\ src = tags
  | ETagSymbol => exists ws, blank ws /\ src = ws ++ lit "#" /\ tags = ws ++ lit " "
  | ETag => tag_line (lit "#@") src tags
  | ESkipLine => blank tags /\ forall ws rest s, blank ws -> src ++ s <> ws ++ lit "#@" ++ rest
  end.

Lemma hash_not_blank : forall ws rest w, blank w -> blank ws -> forall c, is_space c = false ->
    forall s, w ++ c :: s = ws ++ lit "#@" ++ rest -> w = ws /\ c :: s = lit "#@" ++ rest.
Proof.
  intros ws rest w Hw. revert ws. induction w as [|a w IH]; intros ws Hws c Hc s E.
  - destruct ws as [|b ws]; [auto|]. simpl in E. inversion E; subst.
    rewrite (Hws b) in Hc by (simpl; auto). discriminate.
  - destruct ws as [|b ws]; simpl in E; inversion E; subst.
    + exfalso. assert (X : is_space "#" = true) by (apply Hw; simpl; auto). discriminate X.
    + destruct (IH (fun c Hc => Hw c (or_intror Hc)) ws (fun c Hc => Hws c (or_intror Hc)) c Hc s H1) as [-> ->]. auto.
Qed.

Lemma ext_inv_line : forall st src tags, ext_inv st src tags -> ext_line src tags.
Proof.
  intros st src tags (_ & _ & H). unfold ext_line. destruct st.
  - right. destruct H as [Hb ->]. split; auto. intros ws rest Hw E.
    assert (X : is_space "#" = true). { apply Hb. rewrite E. apply in_or_app. right. simpl. auto. } discriminate X.
  - right. destruct H as (w & Hw & -> & ->). split; [apply blank_app; split; auto; apply space_blank|].
    intros ws rest Hws E. destruct (hash_not_blank ws rest w Hw Hws "#" eq_refl [] E) as [_ E']. discriminate E'.
  - auto.
  - right. destruct H as [Hb H]. split; auto. intros ws rest Hws E. apply (H ws rest [] Hws). rewrite app_nil_r. auto.
Qed.

Lemma ext_tags_cons : forall st c s, snd (ext_loop st (c :: s)) =
    snd (ext_step st c) ++ snd (ext_loop (fst (ext_step st c)) s).
Proof.
  intros st c s. simpl. destruct (ext_step st c) as [st' out]. simpl. destruct (ext_loop st' s). reflexivity.
Qed.

Lemma ext_step_inv : forall st src tags c st' out, ext_inv st src tags ->
    ext_step st c = (st', out) ->
    (c = newline /\ out = [newline] /\ ext_inv st' [] []) \/
    (c <> newline /\ ext_inv st' (src ++ [c]) (tags ++ out)).
Proof.
  intros st src tags c st' out (Hs & Ht & H) E.
  destruct (Ascii.eqb c newline) eqn:En.
  - apply Ascii.eqb_eq in En. subst c. left. split; auto.
    destruct st; simpl in E; inversion E; subst; split; auto;
      (split; [simpl; auto|split; [simpl; auto|split; [apply blank_nil|auto]]]).
  - right. assert (Hc : c <> newline) by (intros ->; discriminate). split; auto.
    assert (Hs' : ~ In newline (src ++ [c])) by (apply not_in_app; split; auto; simpl; intuition auto).
    split; auto. destruct st; simpl in E; rewrite ?En in E.
    + destruct H as [Hb ->]. destruct (Ascii.eqb c "#") eqn:E1; [|destruct (is_space c) eqn:E3]; inversion E; subst.
      * apply Ascii.eqb_eq in E1. subst. split; [nl|]. exists tags. auto.
      * split; auto. split; auto. apply blank_app. split; auto. apply blank_one. auto.
      * rewrite app_nil_r. split; auto. split; auto. intros ws rest s Hws Eq. rewrite <- app_assoc in Eq.
        destruct (hash_not_blank ws rest tags Hb Hws c E3 s Eq) as [_ E']. inversion E'; subst. discriminate.
    + destruct H as (ws & Hb & -> & ->). destruct (Ascii.eqb c "@") eqn:E1; inversion E; subst.
      * apply Ascii.eqb_eq in E1. subst. split; [apply not_in_app in Ht; nl; tauto|].
        exists ws, []. rewrite <- !app_assoc. auto.
      * rewrite app_nil_r. split; auto. split; [apply blank_app; split; auto; apply space_blank|].
        intros w rest s Hw Eq. rewrite <- !app_assoc in Eq.
        destruct (hash_not_blank w rest ws Hb Hw "#" eq_refl (c :: s) Eq) as [_ E']. inversion E'; subst. discriminate.
    + inversion E; subst. split; [apply not_in_app; split; auto; simpl; intuition auto|].
      destruct H as (ws & rest & Hb & -> & ->). exists ws, (rest ++ [c]). rewrite <- !app_assoc. auto.
    + inversion E; subst. rewrite app_nil_r. split; auto. destruct H as [Hb H]. split; auto.
      intros ws rest s Hw Eq. rewrite <- app_assoc in Eq. apply (H ws rest (c :: s) Hw Eq).
Qed.

Lemma ext_lines : forall s st src tags, ext_inv st src tags ->
    Forall2 ext_line (lines (src ++ s)) (lines (tags ++ snd (ext_loop st s))).
Proof.
  induction s as [|c s IH]; intros st src tags Hi.
  - simpl. rewrite !app_nil_r, !lines_nil by apply Hi. constructor; [|constructor]. eapply ext_inv_line; eauto.
  - rewrite ext_tags_cons. destruct (ext_step st c) as [st' out] eqn:E. simpl.
    destruct (ext_step_inv _ _ _ _ _ _ Hi E) as [(-> & -> & Hi')|[Hc Hi']].
    + simpl. rewrite !lines_newline by apply Hi. constructor; [eapply ext_inv_line; eauto|].
      exact (IH st' [] [] Hi').
    + rewrite app_assoc. replace (src ++ c :: s) with ((src ++ [c]) ++ s) by (rewrite <- app_assoc; reflexivity). apply IH. auto.
Qed.

Theorem ext_tags_exact : forall s,
    Forall2 (fun l t => tag_line (lit "#@") l t \/
                        (blank t /\ forall ws rest, blank ws -> l <> ws ++ lit "#@" ++ rest))
      (lines s) (lines (snd (ext_filter_input s))).
Proof.
  intro s. apply (ext_lines s ENewline [] []).
  split; [simpl; auto|split; [simpl; auto|split; [apply blank_nil|auto]]].
Qed.

(** * C21 *)

Fixpoint filter_run (st : filter_state) (s : str) : filter_state * str :=
  match s with
  | [] => (st, [])
  | c :: s' =>
      let (st', out) := filter_step st c in
      let (st'', out') := filter_run st' s' in (st'', out ++ out')
  end.

Lemma filter_run_app : forall s t st, snd (filter_loop st (s ++ t)) =
    snd (filter_run st s) ++ snd (filter_loop (fst (filter_run st s)) t).
Proof.
  induction s as [|c s IH]; intros t st; [reflexivity|].
  simpl (_ ++ _). rewrite filter_tags_cons. simpl. destruct (filter_step st c) as [st' out]. simpl.
  rewrite IH. destruct (filter_run st' s) as [st'' out']. simpl. rewrite app_assoc. reflexivity.
Qed.

Lemma filter_run_run : forall s t st, filter_run st (s ++ t) =
    (fst (filter_run (fst (filter_run st s)) t), snd (filter_run st s) ++ snd (filter_run (fst (filter_run st s)) t)).
Proof.
  induction s as [|c s IH]; intros t st; simpl; [destruct (filter_run st t); reflexivity|].
  destruct (filter_step st c) as [st' out]. rewrite IH. destruct (filter_run st' s) as [st'' out']. simpl.
  rewrite app_assoc. reflexivity.
Qed.

(** ** Plain text *)

Lemma occurs_cons : forall p c s, occurs p s -> occurs p (c :: s).
Proof. intros p c s (a & b & ->). exists (c :: a), b. reflexivity. Qed.

Lemma plain_cons : forall c s, plain (c :: s) -> plain s.
Proof. intros c s [H1 H2]. split; intro H; [apply H1|apply H2]; apply occurs_cons; auto. Qed.

Lemma plain_two : forall c d s, plain (c :: d :: s) -> ~ (c = "/" /\ d = "*") /\ ~ (c = "R" /\ d = quote).
Proof.
  intros c d s [H1 H2]. split; intros [-> ->]; [apply H1|apply H2]; exists [], s; reflexivity.
Qed.

Lemma plain_app_l : forall a b, plain (a ++ b) -> plain a.
Proof.
  intros a b [H1 H2]. split; intros (x & y & ->); [apply H1|apply H2]; exists x, (y ++ b); rewrite <- !app_assoc; reflexivity.
Qed.

(** The state after text in the middle of a line, which depends on the last
    character. *)
Definition skipping (last : ascii) : filter_state :=
  if Ascii.eqb last "R" then FRawStringBegin else if Ascii.eqb last "/" then FCommentFirstSkipLine else FSkipLine.

Definition midline (st : filter_state) : Prop := st = FSkipLine \/ st = FRawStringBegin \/ st = FCommentFirstSkipLine.

(** [c] does not mean anything special in state [st]. *)
Definition harmless (st : filter_state) (c : ascii) : Prop :=
  (st = FRawStringBegin -> c <> quote) /\ (st = FCommentFirstSkipLine -> c <> "*").

Lemma midline_step : forall st c, midline st -> harmless st c -> c <> newline ->
    snd (filter_step st c) = [] /\ midline (fst (filter_step st c)) /\
    (fst (filter_step st c) = FRawStringBegin -> c = "R") /\
    (fst (filter_step st c) = FCommentFirstSkipLine -> c = "/") /\
    (c <> "R" -> c <> "/" -> fst (filter_step st c) = FSkipLine).
Proof.
  intros st c Hm [Hq Hs] Hn. apply Ascii.eqb_neq in Hn. unfold midline in *.
  destruct Hm as [-> |[-> | ->]]; simpl; rewrite ?Hn.
  - destruct (Ascii.eqb c "R") eqn:E1; [apply Ascii.eqb_eq in E1; subst; simpl; repeat split; auto; intros; congruence|].
    destruct (Ascii.eqb c "/") eqn:E2; [apply Ascii.eqb_eq in E2; subst; simpl; repeat split; auto; intros; congruence|].
    simpl. repeat split; auto; discriminate.
  - destruct (Ascii.eqb c quote) eqn:E1; [apply Ascii.eqb_eq in E1; exfalso; apply Hq; auto|].
    simpl. repeat split; auto; discriminate.
  - destruct (Ascii.eqb c "*") eqn:E1; [apply Ascii.eqb_eq in E1; exfalso; apply Hs; auto|].
    simpl. repeat split; auto; discriminate.
Qed.


Lemma filter_run_nil : forall st, filter_run st [] = (st, []).
Proof. reflexivity. Qed.


Lemma exists_last' : forall (s : str), s = [] \/ exists a c, s = a ++ [c].
Proof. intro s. destruct s as [|x s]; auto. right. destruct (exists_last (l := x :: s)) as (a & c & E); [discriminate|eauto]. Qed.

Lemma midline_text : forall s st, midline st -> plain s -> ~ In newline s ->
    match s with [] => True | c :: _ => harmless st c end ->
    snd (filter_run st s) = [] /\ midline (fst (filter_run st s)) /\
    (forall a c, s = a ++ [c] ->
       (fst (filter_run st s) = FRawStringBegin -> c = "R") /\
       (fst (filter_run st s) = FCommentFirstSkipLine -> c = "/") /\
       (c <> "R" -> c <> "/" -> fst (filter_run st s) = FSkipLine)).
Proof.
  intros s. induction s as [|d s IH] using rev_ind; intros st Hm Hp Hn Hh.
  - simpl. split; auto. split; auto. intros a c E. destruct a; discriminate.
  - assert (Hp' : plain s) by (eapply plain_app_l; eauto).
    assert (Hd : d <> newline) by (intros ->; apply Hn; apply in_or_app; simpl; auto).
    assert (Hn' : ~ In newline s) by (intro H; apply Hn; apply in_or_app; auto).
    assert (H0 : match s with [] => True | c :: _ => harmless st c end) by (destruct s; auto).
    destruct (IH st Hm Hp' Hn' H0) as (K1 & K2 & K3).
    + assert (Hh' : harmless (fst (filter_run st s)) d).
      { destruct (exists_last' s) as [-> | (a & c & ->)].
        - simpl in *. auto.
        - destruct (K3 a c eq_refl) as (L1 & L2 & _).
          assert (P : ~ (c = "/" /\ d = "*") /\ ~ (c = "R" /\ d = quote)).
          { rewrite <- app_assoc in Hp. simpl in Hp. clear - Hp. induction a as [|x a IHa]; [eapply plain_two; eauto|].
            apply IHa. eapply plain_cons; eauto. }
          split; intros Hst Hdd; [apply (proj2 P)|apply (proj1 P)]; auto. }
      destruct (midline_step _ _ K2 Hh' Hd) as (H1 & H2 & H3 & H4 & H5).
      rewrite filter_run_run. simpl. destruct (filter_step (fst (filter_run st s)) d) as [st' out]. simpl in *.
      rewrite K1, H1. split; auto. split; auto. intros a c E. apply app_inj_tail in E. destruct E as [-> ->]. auto.
Qed.

Lemma plain_intro : forall s, (forall a c d b, s = a ++ c :: d :: b -> ~ (c = "/" /\ d = "*") /\ ~ (c = "R" /\ d = quote)) -> plain s.
Proof.
  intros s H. split; intros (a & b & E).
  - destruct (H a "/" "*" b) as [P _]; [exact E|]. apply P. auto.
  - destruct (H a "R" quote b) as [_ P]; [exact E|]. apply P. auto.
Qed.

Lemma plain_elim : forall s a c d b, plain s -> s = a ++ c :: d :: b -> ~ (c = "/" /\ d = "*") /\ ~ (c = "R" /\ d = quote).
Proof.
  intros s a c d b [H1 H2] ->. split; intros [-> ->]; [apply H1|apply H2]; exists a, b; reflexivity.
Qed.

Lemma plain_nil : plain [].
Proof. apply plain_intro. intros [|] c d b E; discriminate. Qed.

Lemma plain_add : forall c s, c <> "/" -> c <> "R" -> plain s -> plain (c :: s).
Proof.
  intros c s H1 H2 H. apply plain_intro. intros [|x a] y d b E; inversion E; subst.
  - split; intros [-> _]; auto.
  - eapply plain_elim; eauto.
Qed.

Lemma plain_prepend : forall a s, (forall c, In c a -> c <> "/" /\ c <> "R") -> plain s -> plain (a ++ s).
Proof.
  induction a as [|c a IH]; intros s H Hs; auto. simpl.
  destruct (H c) as [H1 H2]; [simpl; auto|]. apply plain_add; auto. apply IH; auto. intros d Hd. apply H. simpl. auto.
Qed.

Lemma plain_snoc : forall s d, plain s -> d <> "*" -> d <> quote -> plain (s ++ [d]).
Proof.
  intros s d H H1 H2. apply plain_intro. intros a c e b E.
  destruct (exists_last' b) as [-> | (b' & x & ->)].
  - replace (a ++ [c; e]) with ((a ++ [c]) ++ [e]) in E by (rewrite <- app_assoc; reflexivity).
    apply app_inj_tail in E. destruct E as [_ <-]. split; intros [_ ->]; auto.
  - change (a ++ c :: e :: b' ++ [x]) with (a ++ (c :: e :: b') ++ [x]) in E. rewrite app_assoc in E.
    apply app_inj_tail in E. destruct E as [E _]. eapply plain_elim; eauto.
Qed.

Lemma blank_char_plain : forall c, is_space c = true -> c <> "/" /\ c <> "R" /\ c <> "*" /\ c <> quote /\ c <> "#" /\ c <> "<" /\ c <> "@".
Proof. intros c H. repeat split; intros ->; discriminate. Qed.

Lemma lower_char : forall c, is_lower c = true -> c <> "/" /\ c <> "R" /\ c <> newline /\ is_space c = false /\ c <> "<" /\ c <> quote.
Proof. intros c H. repeat split; try (intros ->; discriminate). unfold is_lower in H. unfold is_space.
  apply andb_prop in H. destruct H as [H _]. apply N.leb_le in H. apply N.leb_gt. lia. Qed.

(** ** Block comments and raw strings *)

Lemma stars_snoc : forall s d, stars_at_end (s ++ [d]) = if Ascii.eqb d "*" then S (stars_at_end s) else 0.
Proof. intros s d. unfold stars_at_end. rewrite rev_app_distr. reflexivity. Qed.

Lemma stars_last : forall s, 0 < stars_at_end s -> exists a, s = a ++ lit "*".
Proof.
  intros s H. destruct (exists_last' s) as [-> | (a & c & ->)]; [unfold stars_at_end in H; simpl in H; lia|].
  rewrite stars_snoc in H. destruct (Ascii.eqb c "*") eqn:E; [|lia]. apply Ascii.eqb_eq in E. subst. exists a. reflexivity.
Qed.

Lemma occurs_app_l : forall p a b, occurs p a -> occurs p (a ++ b).
Proof. intros p a b (x & y & ->). exists x, (y ++ b). rewrite <- !app_assoc. reflexivity. Qed.

Definition newlines (n : nat) : str := repeat newline n.

Lemma count_snoc : forall s d, count_occ ascii_dec (s ++ [d]) newline =
    count_occ ascii_dec s newline + (if Ascii.eqb d newline then 1 else 0).
Proof.
  intros s d. rewrite count_occ_app. simpl. destruct (Ascii.eqb d newline) eqn:E.
  - apply Ascii.eqb_eq in E. subst. destruct (ascii_dec newline newline); [lia|congruence].
  - apply Ascii.eqb_neq in E. destruct (ascii_dec d newline); [congruence|lia].
Qed.

Lemma newlines_add : forall n m, newlines (n + m) = newlines n ++ newlines m.
Proof. intros. apply repeat_app. Qed.

Lemma block_run : forall s, ~ occurs (lit "*/") s ->
    filter_run FCommentBlock s =
    (if Nat.odd (stars_at_end s) then FCommentBlockPreEnd else FCommentBlock,
     newlines (count_occ ascii_dec s newline)).
Proof.
  intro s. induction s as [|d s IH] using rev_ind; intro H; [reflexivity|].
  rewrite filter_run_run, IH by (intro; apply H; apply occurs_app_l; auto).
  rewrite stars_snoc, count_snoc, newlines_add. simpl fst. simpl snd.
  destruct (Nat.odd (stars_at_end s)) eqn:Eo; simpl.
  - assert (Hs : d <> "/").
    { intros ->. apply H. destruct (stars_last s) as [a ->].
      - destruct (stars_at_end s); [discriminate|lia].
      - exists a, []. rewrite <- app_assoc. reflexivity. }
    apply Ascii.eqb_neq in Hs. rewrite Hs. destruct (Ascii.eqb d newline) eqn:En; simpl.
    + apply Ascii.eqb_eq in En. subst. reflexivity.
    + destruct (Ascii.eqb d "*"); [|reflexivity]. rewrite Nat.odd_succ, <- Nat.negb_odd, Eo. reflexivity.
  - destruct (Ascii.eqb d newline) eqn:En; simpl.
    + apply Ascii.eqb_eq in En. subst. reflexivity.
    + destruct (Ascii.eqb d "*"); [|reflexivity]. rewrite Nat.odd_succ, <- Nat.negb_odd, Eo. reflexivity.
Qed.

Lemma block_end : forall s, ~ occurs (lit "*/") (s ++ lit "*") -> Nat.Even (stars_at_end s) ->
    filter_run FCommentBlock (s ++ lit "*/") = (FSkipLine, newlines (count_occ ascii_dec s newline)).
Proof.
  intros s H He. replace (s ++ lit "*/") with ((s ++ lit "*") ++ lit "/") by (rewrite <- app_assoc; reflexivity).
  rewrite filter_run_run, block_run by auto. simpl (lit "*"). rewrite stars_snoc, count_snoc. simpl.
  apply Nat.even_spec in He. rewrite Nat.add_0_r. change (Nat.odd (S (stars_at_end s))) with (Nat.odd (S (stars_at_end s))).
  rewrite Nat.odd_succ, He. simpl. rewrite app_nil_r. reflexivity.
Qed.

Lemma raw_tag_run : forall tag t mark, (forall c, In c tag -> is_space c = false /\ c <> "(" /\ c <> ")" /\ c <> "\" /\ c <> quote) ->
    filter_run (FRawStringTag t mark) tag = (FRawStringTag (t ++ tag) mark, []).
Proof.
  induction tag as [|c tag IH]; intros t mark H; simpl; [rewrite app_nil_r; reflexivity|].
  destruct (H c) as (H1 & H2 & _); [simpl; auto|]. apply Ascii.eqb_neq in H2. rewrite H2.
  destruct (Ascii.eqb c newline) eqn:E; [apply Ascii.eqb_eq in E; subst; discriminate|].
  rewrite IH by (intros; apply H; simpl; auto). rewrite <- app_assoc. reflexivity.
Qed.

Lemma raw_body_run : forall s t mark, ~ In ")" s ->
    filter_run (FRawString t mark) s = (FRawString t mark, newlines (count_occ ascii_dec s newline)).
Proof.
  induction s as [|c s IH]; intros t mark H; simpl; auto.
  destruct (Ascii.eqb c newline) eqn:E.
  - apply Ascii.eqb_eq in E. subst. rewrite IH by (intro; apply H; simpl; auto). simpl.
    destruct (ascii_dec newline newline); [reflexivity|congruence].
  - apply Ascii.eqb_neq in E. destruct (Ascii.eqb c ")") eqn:E2; [apply Ascii.eqb_eq in E2; subst; exfalso; apply H; simpl; auto|].
    rewrite IH by (intro; apply H; simpl; auto). simpl. destruct (ascii_dec c newline); [congruence|reflexivity].
Qed.

Lemma raw_mark_run : forall tag t mark, (forall c, In c tag -> is_space c = false /\ c <> "(" /\ c <> ")" /\ c <> "\" /\ c <> quote) ->
    filter_run (FRawStringPreEnd t mark) tag = (FRawStringPreEnd t (mark ++ tag), []).
Proof.
  induction tag as [|c tag IH]; intros t mark H; simpl; [rewrite app_nil_r; reflexivity|].
  destruct (H c) as (H1 & _ & _ & _ & H2); [simpl; auto|]. apply Ascii.eqb_neq in H2. rewrite H2.
  destruct (Ascii.eqb c newline) eqn:E; [apply Ascii.eqb_eq in E; subst; discriminate|].
  rewrite IH by (intros; apply H; simpl; auto). rewrite <- app_assoc. reflexivity.
Qed.

Lemma raw_run : forall tag s, (forall c, In c tag -> is_space c = false /\ c <> "(" /\ c <> ")" /\ c <> "\" /\ c <> quote) ->
    ~ In ")" s ->
    filter_run FRawStringBegin ([quote] ++ tag ++ lit "(" ++ s ++ lit ")" ++ tag ++ [quote]) =
    (FSkipLine, newlines (count_occ ascii_dec s newline)).
Proof.
  intros tag s Ht Hs. rewrite filter_run_run. simpl. rewrite filter_run_run, raw_tag_run by auto. simpl.
  rewrite filter_run_run, raw_body_run by auto. simpl. rewrite filter_run_run, raw_mark_run by auto. simpl.
  rewrite (proj2 (str_eqb_eq tag tag) eq_refl). simpl. rewrite app_nil_r. reflexivity.
Qed.

(** ** The main induction *)

Lemma same_newlines : forall n pre e out, line_blank pre -> 
    (forall pre', line_blank pre' -> same_tags e (lines (pre' ++ out))) ->
    same_tags (repeat None n ++ e) (lines (pre ++ newlines n ++ out)).
Proof.
  induction n as [|n IH]; intros pre e out Hp H; simpl; [apply H; auto|].
  rewrite lines_newline by apply Hp. constructor; [apply Hp|].
  apply (IH [] e out); auto. split; [apply blank_nil|simpl; auto].
Qed.

Lemma line_blank_app : forall a b, line_blank a -> line_blank b -> line_blank (a ++ b).
Proof. intros a b [H1 H2] [H3 H4]. split; [apply blank_app; auto|apply not_in_app; auto]. Qed.

Lemma line_blank_nil : line_blank [].
Proof. split; [apply blank_nil|simpl; auto]. Qed.

Lemma line_blank_spaces : forall n, line_blank (repeat " " n).
Proof.
  intro n. split; [intros c Hc|intro Hc]; apply repeat_spec in Hc; subst; [reflexivity|discriminate].
Qed.

Lemma filter_newline_only : forall st s,
    st = FTagSymbol \/ st = FTag \/ midline st ->
    snd (filter_loop st (newline :: s)) = newline :: snd (filter_loop FNewline s).
Proof.
  intros st s H. rewrite filter_tags_cons. destruct H as [-> | [-> | [-> | [-> | ->]]]]; reflexivity.
Qed.

Lemma filter_eol : forall st l, st = FTagSymbol \/ st = FTag \/ midline st ->
    (l = [] \/ exists l', l = Newline :: l') ->
    snd (filter_loop st (render l)) = snd (filter_loop FSkipLine (render l)).
Proof.
  intros st l H [-> | [l' ->]]; [reflexivity|].
  change (render (Newline :: l')) with (newline :: render l'). rewrite !filter_newline_only; auto.
  right. right. left. auto.
Qed.

Lemma render_cons : forall i l, render (i :: l) = render_item i ++ render l.
Proof. reflexivity. Qed.

(** What names, operators and numbers have in common *)
Definition code_like (s : str) : Prop :=
  s <> [] /\ (forall c, In c s -> is_space c = false /\ c <> quote) /\
  ~ occurs (lit "//") s /\ ~ occurs (lit "/*") s /\ ~ ends_with s (lit "/").

Lemma code_code : forall s, item_ok (Code s) -> code_like s.
Proof.
  intros s (H1 & H2 & H3 & H4 & H5 & _). split; auto. split; [|auto]. intros c Hc. destruct (H2 c Hc) as (X & Y & _). auto.
Qed.

Lemma name_char : forall c, in_name c = true -> c <> "/" /\ c <> quote /\ is_space c = false.
Proof.
  intros c H. split; [intros ->; discriminate|]. split; [intros ->; discriminate|].
  destruct c as [[|] [|] [|] [|] [|] [|] [|] [|]]; try reflexivity; discriminate.
Qed.

Lemma number_code : forall s, item_ok (Number s) -> code_like s.
Proof.
  intros s ((c & s' & E & _) & H & _).
  assert (Hc : forall c, In c s -> c <> "/" /\ c <> quote /\ is_space c = false).
  { intros d Hd. destruct (H d Hd) as [X|[-> | ->]]; [apply name_char; auto| |];
      (split; [discriminate|split; [discriminate|reflexivity]]). }
  assert (Hs : ~ In "/" s) by (intro X; destruct (Hc _ X) as [Y _]; congruence).
  split; [rewrite E; discriminate|]. split; [intros d Hd; destruct (Hc d Hd) as (_ & X & Y); auto|].
  split; [|split]; intro X; apply Hs.
  - destruct X as (a & b & ->). apply in_or_app. right. simpl. auto.
  - destruct X as (a & b & ->). apply in_or_app. right. simpl. auto.
  - destruct X as (a & ->). apply in_or_app. right. simpl. auto.
Qed.

Lemma plain_code : forall s, code_like s -> plain s /\ ~ In newline s.
Proof.
  intros s (_ & Hc & _ & H2 & _). split.
  - split; auto. intros (a & b & E). destruct (Hc quote) as (_ & H); [|congruence].
    rewrite E. apply in_or_app. right. simpl. auto.
  - intro H. destruct (Hc newline H) as [H' _]. discriminate.
Qed.

Lemma quoted_no_newline : forall q n s, length s <= n -> literal_content q s = true -> ~ In newline s.
Proof.
  intros q n. induction n as [|n IH]; intros s Hl H; destruct s as [|c s]; simpl in *; auto; [lia|].
  destruct (Ascii.eqb c newline) eqn:En; [discriminate|]. apply Ascii.eqb_neq in En.
  destruct (Ascii.eqb c q); [discriminate|]. destruct (Ascii.eqb c "\").
  - destruct s as [|d s]; [discriminate|]. apply andb_prop in H. destruct H as [Hd H].
    apply negb_true_iff in Hd. apply Ascii.eqb_neq in Hd.
    intros [X|[X|X]]; [congruence|congruence|]. revert X. apply IH; auto. simpl in Hl. lia.
  - intros [X|X]; [congruence|]. revert X. apply IH; auto. lia.
Qed.

(** A text that does not end like the beginning of something else *)
Lemma text_run : forall s st, midline st -> plain s -> ~ In newline s ->
    match s with [] => True | c :: _ => harmless st c end ->
    exists st', filter_run st s = (st', []) /\ midline st' /\
      forall a e, s = a ++ [e] -> e <> "R" -> e <> "/" -> st' = FSkipLine.
Proof.
  intros s st Hm Hp Hn Hh. destruct (midline_text s st Hm Hp Hn Hh) as (K1 & K2 & K3).
  exists (fst (filter_run st s)). split; [destruct (filter_run st s); simpl in *; subst; reflexivity|].
  split; auto. intros a e E H1 H2. destruct (K3 a e E) as (_ & _ & L3). auto.
Qed.

(** The same for [code_like] *)
Lemma code_run : forall p s st l, code_like (p ++ s) -> midline st ->
    match s with [] => True | c :: _ => harmless st c end ->
    (ends_with (p ++ s) (lit "R") -> at_gap l) ->
    (s = [] -> st = FSkipLine \/ at_gap l) ->
    exists st', filter_run st s = (st', []) /\ (st' = FSkipLine \/ (midline st' /\ at_gap l)).
Proof.
  intros p s st l Hcode Hm Hh Ht Hnil. destruct (plain_code _ Hcode) as [Hp Hnn]. destruct Hcode as (_ & _ & _ & _ & Hend).
  assert (Hps : plain s) by (clear - Hp; induction p; auto; apply IHp; eapply plain_cons; eauto).
  assert (Hns : ~ In newline s) by (intro X; apply Hnn; apply in_or_app; auto).
  destruct (midline_text s st Hm Hps Hns Hh) as (K1 & K2 & K3).
  exists (fst (filter_run st s)). split; [destruct (filter_run st s); simpl in *; subst; reflexivity|].
  destruct (exists_last' s) as [-> | (a & c & ->)].
  { destruct (Hnil eq_refl) as [-> |X]; auto. }
  destruct (K3 a c eq_refl) as (L1 & L2 & L3).
  destruct K2 as [K2|[K2|K2]]; auto.
  - right. split; [right; left; auto|]. apply Ht. specialize (L1 K2). subst c. exists (p ++ a). rewrite app_assoc. reflexivity.
  - exfalso. apply Hend. specialize (L2 K2). subst c. exists (p ++ a). rewrite app_assoc. reflexivity.
Qed.

(** A directive is nothing special. *)
Definition directive_text (i : item) : str := tl (render_item i).

Lemma directive_hash : forall i, match i with Include _ _ _ _ | Directive _ _ _ => True | _ => False end ->
    render_item i = "#" :: directive_text i.
Proof. intros i H. destruct i; try contradiction; reflexivity. Qed.

Lemma directive_plain : forall i l, match i with Include _ _ _ _ | Directive _ _ _ => True | _ => False end ->
    item_ok i -> tame_item i l ->
    plain (directive_text i) /\ ~ In newline (directive_text i) /\
    exists a e, directive_text i = a ++ [e] /\ e <> "R" /\ e <> "/".
Proof.
  intros i l Hi Hok Ht. destruct i as [| |c|s|s|q s|s|s|tag s|b1 b2 system name|b1 name b2]; try contradiction.
  - destruct Hok as ([B1 N1] & [B2 N2] & Hnn & Hq). simpl in Ht.
    set (q1 := if system then "<" else quote). set (q2 := if system then ">" else quote).
    assert (E : directive_text (Include b1 b2 system name) = (b1 ++ lit "include" ++ b2 ++ [q1]) ++ (name ++ [q2])).
    { unfold directive_text, render_item. destruct system; simpl; rewrite <- !app_assoc; simpl; rewrite <- ?app_assoc; reflexivity. }
    rewrite E. split; [|split].
    + apply plain_prepend.
      * intros c Hc. repeat (apply in_app_or in Hc; destruct Hc as [Hc|Hc]).
        -- destruct (blank_char_plain c (B1 c Hc)) as (X & Y & _). auto.
        -- simpl in Hc. repeat (destruct Hc as [<-|Hc]; [split; discriminate|]). destruct Hc.
        -- destruct (blank_char_plain c (B2 c Hc)) as (X & Y & _). auto.
        -- destruct Hc as [<-|[]]. unfold q1. destruct system; split; discriminate.
      * destruct system; auto. apply plain_snoc; [eapply plain_app_l; eauto|discriminate|discriminate].
    + rewrite !not_in_app. repeat split; auto; simpl; try intuition discriminate.
      * unfold q1. destruct system; intuition discriminate.
      * unfold q2. destruct system; intuition discriminate.
    + exists ((b1 ++ lit "include" ++ b2 ++ [q1]) ++ name), q2. rewrite <- !app_assoc. split; [reflexivity|].
      unfold q2. destruct system; split; discriminate.
  - destruct Hok as ([B1 N1] & [B2 N2] & Hne & Hlow & _). simpl in Ht.
    change (directive_text (Directive b1 name b2)) with (b1 ++ name ++ b2).
    assert (Hchars : forall c, In c (b1 ++ name ++ b2) -> c <> "/" /\ c <> "R" /\ c <> newline).
    { intros c Hc. repeat (apply in_app_or in Hc; destruct Hc as [Hc|Hc]).
      - destruct (blank_char_plain c (B1 c Hc)) as (X & Y & _). repeat split; auto. intros ->. auto.
      - destruct (lower_char c (Hlow c Hc)) as (X & Y & Z & _). auto.
      - destruct (blank_char_plain c (B2 c Hc)) as (X & Y & _). repeat split; auto. intros ->. auto. }
    split; [|split].
    + rewrite <- (app_nil_r (b1 ++ name ++ b2)). apply plain_prepend; [|apply plain_nil].
      intros c Hc. destruct (Hchars c Hc) as (X & Y & _). auto.
    + intro Hc. destruct (Hchars _ Hc) as (_ & _ & X). congruence.
    + destruct (exists_last' (b1 ++ name ++ b2)) as [E | (a & e & E)].
      * destruct name; [congruence|]. destruct b1; discriminate.
      * exists a, e. split; auto. destruct (Hchars e) as (X & Y & _); [rewrite E; apply in_or_app; simpl; auto|]. auto.
Qed.

Lemma directive_run : forall i l st, match i with Include _ _ _ _ | Directive _ _ _ => True | _ => False end ->
    item_ok i -> tame_item i l -> st = FNewline \/ st = FSkipLine ->
    filter_run st (render_item i) = (FSkipLine, []).
Proof.
  intros i l st Hi Hok Ht Hst. rewrite (directive_hash i Hi).
  destruct (directive_plain i l Hi Hok Ht) as (Hp & Hn & a & e & E & H1 & H2).
  destruct (text_run (directive_text i) FSkipLine) as (st' & R & _ & Hend); auto.
  { left. auto. }
  { destruct (directive_text i); auto. split; discriminate. }
  rewrite (Hend a e E H1 H2) in R. destruct Hst as [-> | ->]; simpl; rewrite R; reflexivity.
Qed.

(** The state after an item, in the middle of a line *)
Lemma item_midline : forall i l st, item_ok i -> tame_item i l -> next_ok i l ->
    st = FSkipLine \/ (midline st /\ at_gap (i :: l)) ->
    match i with Newline | Splice | LineComment _ => False | _ => True end ->
    exists st' n, filter_run st (render_item i) = (st', newlines n) /\
      match i with BlockComment s | RawString _ s => n = count_occ ascii_dec s newline | _ => n = 0 end /\
      (st' = FSkipLine \/ (midline st' /\ at_gap l)).
Proof.
  intros i l st Hok Ht Hn Hst Hi.
  assert (Hcode : forall s, code_like s -> (ends_with s (lit "R") -> at_gap l) -> st = FSkipLine ->
            exists st' n, filter_run st s = (st', newlines n) /\ n = 0 /\ (st' = FSkipLine \/ (midline st' /\ at_gap l))).
  { intros s Hs Hr ->. destruct (code_run [] s FSkipLine l) as (st' & E & H); auto.
    { left. auto. }
    { destruct s; auto. split; discriminate. }
    exists st', 0. auto. }
  destruct i as [| |c|s|s|q s|s|s|tag s|b1 b2 system name|b1 name b2]; try contradiction.
  - (* Blank *)
    simpl in Hok, Ht. destruct Hok as [Hsp Hnl]. exists FSkipLine, 0. split; auto. simpl.
    destruct (blank_char_plain c Hsp) as (H1 & H2 & H3 & H4 & _).
    assert (Hm : midline st) by (destruct Hst as [-> | [Hm _]]; [left; auto|auto]).
    destruct (midline_step st c Hm) as (K1 & _ & _ & _ & K2); auto; [split; auto|].
    destruct (filter_step st c). simpl in *. rewrite K1, K2; auto.
  - (* Code *) destruct Hst as [-> | [_ []]]. apply Hcode; auto. apply code_code. auto.
  - (* Number *) destruct Hst as [-> | [_ []]]. apply Hcode; auto. apply number_code. auto.
  - (* Quoted *)
    simpl in Hok, Ht. destruct Hst as [-> | [_ []]]. destruct Hok as [Hq Hc].
    assert (Hqn : q <> newline) by (destruct Hq as [-> | ->]; discriminate).
    assert (Hnn : ~ In newline (q :: s ++ [q])).
    { intros [X|X]; [congruence|]. apply in_app_or in X. destruct X as [X|[X|[]]]; [|congruence].
      revert X. eapply quoted_no_newline; eauto. }
    destruct (text_run (q :: s ++ [q]) FSkipLine) as (st' & R & _ & Hend); auto.
    { left. auto. }
    { split; discriminate. }
    exists FSkipLine, 0. split; auto. rewrite (Hend (q :: s) q eq_refl) in R; [exact R| |]; destruct Hq as [-> | ->]; discriminate.
  - (* BlockComment *)
    simpl in Hok, Ht. destruct Hst as [-> | [_ []]]. exists FSkipLine, (count_occ ascii_dec s newline). split; auto.
    change (render_item (BlockComment s)) with (lit "/*" ++ (s ++ lit "*/")).
    rewrite filter_run_run. simpl. rewrite block_end; auto.
  - (* RawString *)
    simpl in Hok, Ht. destruct Hst as [-> | [_ []]]. exists FSkipLine, (count_occ ascii_dec s newline). split; auto. destruct Hok as [Hok _].
    unfold render_item. rewrite filter_run_run. simpl (filter_run FSkipLine (lit "R")). cbn [fst snd].
    rewrite (raw_run tag s Hok Ht). reflexivity.
  - (* Include *)
    destruct Hst as [-> | [_ []]]. exists FSkipLine, 0. split; auto. apply (directive_run _ l); auto.
  - (* Directive *)
    destruct Hst as [-> | [_ []]]. exists FSkipLine, 0. split; auto. apply (directive_run _ l); auto.
Qed.

Lemma tag_line_rest : forall l, (l = [] \/ exists l', l = Newline :: l') ->
    hd [] (lines (snd (filter_loop FSkipLine (render l)))) = [].
Proof.
  intros l [-> | [l' ->]]; [reflexivity|]. change (render (Newline :: l')) with (newline :: render l').
  rewrite filter_newline_only by (right; right; left; auto). reflexivity.
Qed.

Lemma comment_eol : forall s l, next_ok (LineComment s) l -> l = [] \/ exists l', l = Newline :: l'.
Proof. intros s [|j l] H; auto. right. simpl in H. subst. eauto. Qed.

(** From the beginning of a line *)
Lemma code_fresh : forall s l, code_like s -> (ends_with s (lit "R") -> at_gap l) ->
    exists st' k, filter_run FNewline s = (st', repeat " " k ++ newlines 0) /\
      (st' = FSkipLine \/ (midline st' /\ at_gap l)).
Proof.
  intros s l Hcode Ht. destruct (plain_code s Hcode) as [Hp Hnn]. pose proof Hcode as (Hne & Hc & H1 & H2 & Hend).
  destruct s as [|c s]; [congruence|].
  destruct (Hc c) as (Hsp & _); [simpl; auto|].
  assert (Hcn : c <> newline) by (intros ->; discriminate).
  simpl. rewrite Hsp. destruct (Ascii.eqb c "/") eqn:E1.
  - apply Ascii.eqb_eq in E1. subst c. destruct s as [|d s]; [exfalso; apply Hend; exists []; reflexivity|].
    assert (Hd1 : d <> "/") by (intros ->; apply H1; exists [], s; reflexivity).
    assert (Hd2 : d <> "*") by (intros ->; apply H2; exists [], s; reflexivity).
    assert (Hd3 : d <> newline) by (intros ->; apply Hnn; simpl; auto).
    apply Ascii.eqb_neq in Hd1, Hd2, Hd3. simpl. rewrite Hd1, Hd2, Hd3.
    destruct (code_run ("/" :: [d]) s FSkipLine l) as (st' & E & H); auto.
    { left. auto. }
    { destruct s; auto. split; discriminate. }
    exists st', 1. rewrite E. auto.
  - destruct (Ascii.eqb c "R") eqn:E2.
    + apply Ascii.eqb_eq in E2. subst c.
      destruct (code_run (lit "R") s FRawStringBegin l) as (st' & E & H); auto.
      { right. left. auto. }
      { destruct s as [|d s]; auto. split; [|discriminate]. intros _ ->. destruct (Hc quote) as (_ & X); [simpl; auto|congruence]. }
      { intros ->. right. apply Ht. exists []. reflexivity. }
      exists st', 0. rewrite E. auto.
    + destruct (code_run [c] s FSkipLine l) as (st' & E & H); auto.
      { left. auto. }
      { destruct s; auto. split; discriminate. }
      exists st', 0. rewrite E. auto.
Qed.

Lemma item_fresh : forall i l, item_ok i -> tame_item i l -> next_ok i l ->
    match i with
    | Newline | Splice | Blank _ | LineComment _ => False
    | _ => True
    end ->
    exists st' k n, filter_run FNewline (render_item i) = (st', repeat " " k ++ newlines n) /\
      match i with BlockComment s | RawString _ s => n = count_occ ascii_dec s newline | _ => n = 0 end /\
      (st' = FSkipLine \/ (midline st' /\ at_gap l)).
Proof.
  intros i l Hok Ht Hn Hi. destruct i as [| |c|s|s|q s|s|s|tag s|b1 b2 system name|b1 name b2]; try contradiction.
  - (* Code *) destruct (code_fresh s l (code_code s Hok) Ht) as (st' & k & E & H). exists st', k, 0. auto.
  - (* Number *) destruct (code_fresh s l (number_code s Hok) Ht) as (st' & k & E & H). exists st', k, 0. auto.
  - (* Quoted *)
    destruct Hok as [Hq Hc]. simpl in Ht.
    assert (Hqn : q <> newline) by (destruct Hq as [-> | ->]; discriminate).
    assert (Hnn : ~ In newline (s ++ [q])).
    { intro X. apply in_app_or in X. destruct X as [X|[X|[]]]; [|congruence].
      revert X. eapply quoted_no_newline; eauto. }
    destruct (text_run (s ++ [q]) FSkipLine) as (st' & R & _ & Hend); auto.
    { left. auto. }
    { eapply plain_cons; eauto. }
    { destruct s; simpl; split; discriminate. }
    exists FSkipLine, 0, 0. split; auto. unfold render_item.
    assert (E : filter_run FNewline (q :: s ++ [q]) = filter_run FSkipLine (s ++ [q])).
    { simpl. destruct Hq as [-> | ->]; simpl; destruct (filter_run FSkipLine (s ++ _)); reflexivity. }
    rewrite E, R, (Hend s q eq_refl); [reflexivity| |]; destruct Hq as [-> | ->]; discriminate.
  - (* BlockComment *)
    exists FSkipLine, 1, (count_occ ascii_dec s newline). split; auto.
    change (render_item (BlockComment s)) with (lit "/*" ++ (s ++ lit "*/")).
    rewrite filter_run_run. simpl. rewrite block_end; auto.
  - (* RawString *)
    exists FSkipLine, 0, (count_occ ascii_dec s newline). split; auto. destruct Hok as [Hok _].
    unfold render_item. rewrite filter_run_run. simpl (filter_run FNewline (lit "R")). cbn [fst snd].
    rewrite (raw_run tag s Hok Ht). reflexivity.
  - (* Include *) exists FSkipLine, 0, 0. split; auto. apply (directive_run _ l); auto.
  - (* Directive *) exists FSkipLine, 0, 0. split; auto. apply (directive_run _ l); auto.
Qed.

Lemma tags_main : forall l,
    (forall b w, line_blank w -> source_ok b l -> tame_text l ->
       same_tags (tag_comments (Some w) l) (lines (w ++ snd (filter_loop FNewline (render l))))) /\
    (forall b pre st, line_blank pre -> source_ok b l -> tame_text l ->
       st = FSkipLine \/ (midline st /\ at_gap l) ->
       same_tags (tag_comments None l) (lines (pre ++ snd (filter_loop st (render l))))).
Proof.
  induction l as [|i l [IH1 IH2]].
  - split; intros; simpl; rewrite app_nil_r, lines_nil by apply H; constructor; [apply H|constructor|apply H|constructor].
  - split.
    + intros b w Hw (Hok & Hn & Hf & Hrest) [Ht Htl].
      assert (Hother : match i with Newline | Splice | Blank _ | LineComment _ => False | _ => True end ->
                same_tags (tag_comments (Some w) (i :: l)) (lines (w ++ snd (filter_loop FNewline (render (i :: l)))))).
      { intro Hi. destruct (item_fresh i l Hok Ht Hn Hi) as (st' & k & n & E & En & Hst).
        rewrite render_cons, filter_run_app, E. simpl fst. simpl snd. rewrite <- app_assoc, app_assoc.
        replace (tag_comments (Some w) (i :: l)) with (repeat (@None str) n ++ tag_comments None l)
          by (destruct i; try contradiction; subst n; reflexivity).
        apply same_newlines.
        - apply line_blank_app; auto. apply line_blank_spaces.
        - intros pre' Hpre'. apply (IH2 (and_then b i)); auto. }
      destruct i as [| |c|s|s|q s|s|s|tag s|b1 b2 system name|b1 name b2]; try (apply Hother; exact I).
      * (* Newline *)
        change (render (Newline :: l)) with (newline :: render l). rewrite filter_tags_cons. simpl fst. simpl snd.
        change ([newline] ++ ?x) with (newline :: x). rewrite lines_newline by apply Hw.
        constructor; [apply Hw|]. apply (IH1 _ [] line_blank_nil Hrest); auto.
      * (* Splice *)
        change (render (Splice :: l)) with (lit "\" ++ newline :: render l). rewrite filter_run_app.
        simpl (filter_run FNewline (lit "\")). cbn [fst snd app].
        rewrite filter_newline_only by (right; right; left; auto). rewrite lines_newline by apply Hw.
        constructor; [apply Hw|]. apply (IH1 _ [] line_blank_nil Hrest); auto.
      * (* Blank *)
        destruct Hok as [Hsp Hnl]. change (render (Blank c :: l)) with (c :: render l). rewrite filter_tags_cons.
        destruct (blank_char_plain c Hsp) as (X1 & X2 & _). apply Ascii.eqb_neq in X1, X2.
        assert (E : filter_step FNewline c = (FNewline, [c])) by (simpl; rewrite X1, X2, Hsp; reflexivity).
        rewrite E. simpl fst. simpl snd. rewrite app_assoc. simpl tag_comments.
        apply (IH1 _ (w ++ [c])) with (2 := Hrest); auto. apply line_blank_app; auto. split; [apply blank_one; auto|simpl; intuition auto].
      * (* LineComment *)
        pose proof (comment_eol s l Hn) as Heol. simpl in Ht, Hok. destruct Hok as [Hnn _].
        change (render (LineComment s :: l)) with ((lit "//" ++ s) ++ render l). rewrite filter_run_app.
        assert (Hpre : filter_run FNewline (lit "//" ++ s) =
                       (fst (filter_run FTagSymbol s), repeat " " 2 ++ snd (filter_run FTagSymbol s))).
        { rewrite filter_run_run. reflexivity. }
        rewrite Hpre. simpl fst. simpl snd.
        destruct s as [|c s].
        -- simpl. rewrite (filter_eol FTagSymbol l) by auto.
           match goal with |- same_tags _ (lines ?x) => replace x
             with ((w ++ repeat " " 2) ++ snd (filter_loop FSkipLine (render l))) by (rewrite <- app_assoc; reflexivity) end.
           apply (IH2 _ _ _) with (2 := Hrest); auto. apply line_blank_app; auto. apply line_blank_spaces.
        -- assert (Hcn : c <> newline) by (intros ->; apply Hnn; simpl; auto).
           assert (Hns : ~ In newline s) by (intro; apply Hnn; simpl; auto).
           simpl tag_comments. destruct (Ascii.eqb c "@") eqn:Eat.
           ++ apply Ascii.eqb_eq in Eat. subst c.
              assert (Hcopy : forall x, ~ In newline x -> filter_run FTag x = (FTag, x)).
              { induction x as [|d x IHx]; intro Hx; auto. simpl.
                destruct (Ascii.eqb d newline) eqn:Ed; [apply Ascii.eqb_eq in Ed; subst; exfalso; apply Hx; simpl; auto|].
                rewrite IHx by (intro; apply Hx; simpl; auto). reflexivity. }
              simpl filter_run. rewrite (Hcopy s Hns). simpl fst. simpl snd.
              rewrite (filter_eol FTag l) by auto.
              assert (Hsame := IH2 _ [] FSkipLine line_blank_nil Hrest Htl (or_introl eq_refl)).
              simpl app in Hsame.
              match goal with |- same_tags _ (lines ?x) => replace x
                with ((w ++ lit "   " ++ s) ++ snd (filter_loop FSkipLine (render l)))
                by (rewrite <- !app_assoc; reflexivity) end.
              assert (Hnl : ~ In newline (w ++ lit "   " ++ s)).
              { rewrite !not_in_app. destruct Hw. repeat split; auto. simpl. intuition discriminate. }
              rewrite (lines_app _ _ Hnl).
              rewrite (tag_line_rest l Heol), app_nil_r.
              constructor; [reflexivity|]. destruct Hsame; simpl; auto.
           ++ assert (Hps : plain s) by (eapply plain_cons; eauto).
              destruct (midline_text s FSkipLine) as (K1 & K2 & _); auto.
              { left. auto. }
              { destruct s; auto. split; discriminate. }
              assert (E : filter_run FTagSymbol (c :: s) = filter_run FSkipLine s).
              { simpl. rewrite Eat. apply Ascii.eqb_neq in Hcn. rewrite Hcn. destruct (filter_run FSkipLine s); reflexivity. }
              rewrite E, K1, (filter_eol (fst (filter_run FSkipLine s)) l) by auto.
              match goal with |- same_tags _ (lines ?x) => replace x
                with ((w ++ repeat " " 2) ++ snd (filter_loop FSkipLine (render l))) by (rewrite <- !app_assoc; reflexivity) end.
              apply (IH2 _ _ _) with (2 := Hrest); auto. apply line_blank_app; auto. apply (line_blank_spaces 2).
    + intros b pre st Hpre (Hok & Hn & Hf & Hrest) [Ht Htl] Hst.
      assert (Hother : match i with Newline | Splice | LineComment _ => False | _ => True end ->
                same_tags (tag_comments None (i :: l)) (lines (pre ++ snd (filter_loop st (render (i :: l)))))).
      { intro Hi. destruct (item_midline i l st Hok Ht Hn Hst Hi) as (st' & n & E & En & Hst').
        rewrite render_cons, filter_run_app, E. simpl fst. simpl snd.
        replace (tag_comments None (i :: l)) with (repeat (@None str) n ++ tag_comments None l)
          by (destruct i; try contradiction; subst n; reflexivity).
        apply same_newlines; auto.
        intros pre' Hpre'. apply (IH2 (and_then b i)); auto. }
      destruct i as [| |c|s|s|q s|s|s|tag s|b1 b2 system name|b1 name b2]; try (apply Hother; exact I).
      * change (render (Newline :: l)) with (newline :: render l).
        rewrite filter_newline_only by (right; right; destruct Hst as [-> | [Hm _]]; [left; auto|auto]).
        rewrite lines_newline by apply Hpre.
        constructor; [apply Hpre|]. apply (IH1 _ [] line_blank_nil Hrest); auto.
      * change (render (Splice :: l)) with (lit "\" ++ newline :: render l). rewrite filter_run_app.
        assert (E : filter_run st (lit "\") = (FSkipLine, []))
          by (destruct Hst as [-> | [[-> | [-> | ->]] _]]; reflexivity).
        rewrite E. cbn [fst snd app].
        rewrite filter_newline_only by (right; right; left; auto). rewrite lines_newline by apply Hpre.
        constructor; [apply Hpre|]. apply (IH1 _ [] line_blank_nil Hrest); auto.
      * destruct Hst as [-> | [_ []]].
        pose proof (comment_eol s l Hn) as Heol. simpl in Ht, Hok. destruct Hok as [Hnn _].
        change (render (LineComment s :: l)) with (lit "//" ++ (s ++ render l)). rewrite filter_run_app.
        simpl (filter_run FSkipLine (lit "//")). cbn [fst snd app]. rewrite filter_run_app.
        destruct (midline_text s FSkipLine) as (K1 & K2 & _); auto.
        { left. auto. }
        { destruct s; auto. split; discriminate. }
        rewrite K1, (filter_eol (fst (filter_run FSkipLine s)) l) by auto. simpl app.
        replace (tag_comments None (LineComment s :: l)) with (tag_comments None l) by (destruct s; reflexivity).
        apply (IH2 _ _ _) with (2 := Hrest); auto.
Qed.

Theorem cxx_tags_found : forall l, cxx_source l -> tame_text l ->
    same_tags (tag_comments (Some []) l) (lines (snd (cxx_filter_input (render l)))).
Proof. intros l H Ht. exact (proj1 (tags_main l) OnlyBlanks [] line_blank_nil H Ht). Qed.

(** * C22 *)

Fixpoint include_run (st : include_state) (path : str) (s : str) : include_state * str * list (bool * str) :=
  match s with
  | [] => (st, path, [])
  | c :: s' =>
      let '(st', path', found) := include_step st path c in
      let '(st'', path'', found') := include_run st' path' s' in (st'', path'', found ++ found')
  end.

Lemma include_run_app : forall s t st path st' path' found, include_run st path s = (st', path', found) ->
    include_loop st path (s ++ t) = found ++ include_loop st' path' t.
Proof.
  induction s as [|c s IH]; intros t st path st' path' found E; simpl in *.
  - inversion E; subst. reflexivity.
  - destruct (include_step st path c) as [[st1 p1] f1]. destruct (include_run st1 p1 s) as [[st2 p2] f2] eqn:E2.
    inversion E; subst. rewrite (IH t _ _ _ _ _ E2), app_assoc. reflexivity.
Qed.

Lemma include_run_run : forall s t st path st' path' found st'' path'' found',
    include_run st path s = (st', path', found) -> include_run st' path' t = (st'', path'', found') ->
    include_run st path (s ++ t) = (st'', path'', found ++ found').
Proof.
  induction s as [|c s IH]; intros t st path st' path' found st'' path'' found' E E'; simpl in *.
  - inversion E; subst. auto.
  - destruct (include_step st path c) as [[st1 p1] f1]. destruct (include_run st1 p1 s) as [[st2 p2] f2] eqn:E2.
    inversion E; subst. rewrite (IH t _ _ _ _ _ _ _ _ E2 E'), app_assoc. reflexivity.
Qed.

(** In the middle of a line both lexers do the same. *)
Definition twin (st : filter_state) : include_state :=
  match st with
  | FRawStringBegin => IRawStringBegin
  | FCommentFirstSkipLine => ICommentFirst
  | _ => ISkipLine
  end.

Lemma twin_step : forall st c path, midline st -> harmless st c -> c <> newline ->
    include_step (twin st) path c = (twin (fst (filter_step st c)), path, []).
Proof.
  intros st c path Hm [Hq Hs] Hn. apply Ascii.eqb_neq in Hn. unfold midline in *.
  destruct Hm as [-> | [-> | ->]]; simpl; rewrite ?Hn.
  - destruct (Ascii.eqb c "R"); [reflexivity|]. destruct (Ascii.eqb c "/"); reflexivity.
  - destruct (Ascii.eqb c quote) eqn:E1; [apply Ascii.eqb_eq in E1; exfalso; apply Hq; auto|reflexivity].
  - destruct (Ascii.eqb c "*") eqn:E1; [apply Ascii.eqb_eq in E1; exfalso; apply Hs; auto|reflexivity].
Qed.

Lemma twin_text : forall s st path, midline st -> plain s -> ~ In newline s ->
    match s with [] => True | c :: _ => harmless st c end ->
    include_run (twin st) path s = (twin (fst (filter_run st s)), path, []).
Proof.
  induction s as [|c s IH]; intros st path Hm Hp Hn Hh; [reflexivity|].
  assert (Hc : c <> newline) by (intros ->; apply Hn; simpl; auto).
  destruct (midline_step st c Hm Hh Hc) as (H1 & H2 & H3 & H4 & H5).
  assert (Hh' : match s with [] => True | d :: _ => harmless (fst (filter_step st c)) d end).
  { destruct s as [|d s]; auto. destruct (plain_two _ _ _ Hp) as [P1 P2]. split; intros Hst Hd.
    - apply P2. split; auto.
    - apply P1. split; auto. }
  simpl include_run. rewrite twin_step by auto.
  rewrite (IH (fst (filter_step st c)) path H2 (plain_cons _ _ Hp) (fun H => Hn (or_intror H)) Hh').
  simpl. destruct (filter_step st c) as [st' out]. simpl. destruct (filter_run st' s). reflexivity.
Qed.

Lemma inc_block_run : forall s path, ~ occurs (lit "*/") s ->
    include_run ICommentBlock path s =
    (if Nat.odd (stars_at_end s) then ICommentBlockPreEnd else ICommentBlock, path, []).
Proof.
  intros s path. induction s as [|d s IH] using rev_ind; intro H; [reflexivity|].
  assert (E := IH (fun X => H (occurs_app_l _ _ _ X))). rewrite stars_snoc.
  change (@nil (bool * str)) with (@nil (bool * str) ++ []).
  eapply include_run_run; [exact E|].
  destruct (Nat.odd (stars_at_end s)) eqn:Eo; simpl.
  - assert (Hs : d <> "/").
    { intros ->. apply H. destruct (stars_last s) as [a ->].
      - destruct (stars_at_end s); [discriminate|lia].
      - exists a, []. rewrite <- app_assoc. reflexivity. }
    apply Ascii.eqb_neq in Hs. rewrite Hs.
    destruct (Ascii.eqb d "*"); [|reflexivity]. rewrite Nat.odd_succ, <- Nat.negb_odd, Eo. reflexivity.
  - destruct (Ascii.eqb d "*"); [|reflexivity]. rewrite Nat.odd_succ, <- Nat.negb_odd, Eo. reflexivity.
Qed.

Lemma inc_block_end : forall s path, ~ occurs (lit "*/") (s ++ lit "*") -> Nat.Even (stars_at_end s) ->
    include_run ICommentBlock path (s ++ lit "*/") = (ISkipLine, path, []).
Proof.
  intros s path H He. replace (s ++ lit "*/") with ((s ++ lit "*") ++ lit "/") by (rewrite <- app_assoc; reflexivity).
  change (@nil (bool * str)) with (@nil (bool * str) ++ []).
  eapply include_run_run; [apply inc_block_run; auto|]. simpl (lit "*"). rewrite stars_snoc. simpl Ascii.eqb. cbv iota.
  apply Nat.even_spec in He. rewrite Nat.odd_succ, He. reflexivity.
Qed.

Lemma inc_raw_tag_run : forall tag t mark path, (forall c, In c tag -> is_space c = false /\ c <> "(" /\ c <> ")" /\ c <> "\" /\ c <> quote) ->
    include_run (IRawStringTag t mark) path tag = (IRawStringTag (t ++ tag) mark, path, []).
Proof.
  induction tag as [|c tag IH]; intros t mark path H; simpl; [rewrite app_nil_r; reflexivity|].
  destruct (H c) as (H1 & H2 & _); [simpl; auto|]. apply Ascii.eqb_neq in H2. rewrite H2.
  destruct (Ascii.eqb c newline) eqn:E; [apply Ascii.eqb_eq in E; subst; discriminate|].
  rewrite IH by (intros; apply H; simpl; auto). rewrite <- app_assoc. reflexivity.
Qed.

Lemma inc_raw_body_run : forall s t mark path, ~ In ")" s ->
    include_run (IRawString t mark) path s = (IRawString t mark, path, []).
Proof.
  induction s as [|c s IH]; intros t mark path H; simpl; auto.
  destruct (Ascii.eqb c ")") eqn:E2; [apply Ascii.eqb_eq in E2; subst; exfalso; apply H; simpl; auto|].
  rewrite IH by (intro; apply H; simpl; auto). reflexivity.
Qed.

Lemma inc_raw_mark_run : forall tag t mark path, (forall c, In c tag -> is_space c = false /\ c <> "(" /\ c <> ")" /\ c <> "\" /\ c <> quote) ->
    include_run (IRawStringPreEnd t mark) path tag = (IRawStringPreEnd t (mark ++ tag), path, []).
Proof.
  induction tag as [|c tag IH]; intros t mark path H; simpl; [rewrite app_nil_r; reflexivity|].
  destruct (H c) as (H1 & _ & _ & _ & H2); [simpl; auto|]. apply Ascii.eqb_neq in H2. rewrite H2.
  destruct (Ascii.eqb c newline) eqn:E; [apply Ascii.eqb_eq in E; subst; discriminate|].
  rewrite IH by (intros; apply H; simpl; auto). rewrite <- app_assoc. reflexivity.
Qed.

Lemma inc_raw_run : forall tag s path, (forall c, In c tag -> is_space c = false /\ c <> "(" /\ c <> ")" /\ c <> "\" /\ c <> quote) ->
    ~ In ")" s ->
    include_run IRawStringBegin path ([quote] ++ tag ++ lit "(" ++ s ++ lit ")" ++ tag ++ [quote]) =
    (ISkipLine, path, []).
Proof.
  intros tag s path Ht Hs. change (@nil (bool * str)) with (@nil (bool * str) ++ ([] ++ ([] ++ ([] ++ ([] ++ ([] ++ [])))))).
  eapply include_run_run; [reflexivity|]. eapply include_run_run; [apply inc_raw_tag_run; auto|].
  eapply include_run_run; [reflexivity|]. eapply include_run_run; [apply inc_raw_body_run; auto|].
  eapply include_run_run; [reflexivity|]. eapply include_run_run; [apply inc_raw_mark_run; auto|].
  simpl. rewrite str_eqb_refl. reflexivity.
Qed.

(** Directives *)
Lemma inc_blanks : forall b path, blank b ->
    include_run IPrePreprocessorDirective path b = (IPrePreprocessorDirective, path, []).
Proof.
  induction b as [|c b IH]; intros path H; auto. simpl. rewrite (H c) by (simpl; auto).
  rewrite IH by (intros d Hd; apply H; simpl; auto). reflexivity.
Qed.

Lemma inc_name : forall s d path, (forall c, In c s -> is_lower c = true) ->
    include_run (IPreprocessorDirective d) path s = (IPreprocessorDirective (d ++ s), path, []).
Proof.
  induction s as [|c s IH]; intros d path H; simpl; [rewrite app_nil_r; reflexivity|].
  destruct (lower_char c) as (_ & _ & _ & Hs & H1 & H2); [apply H; simpl; auto|].
  apply Ascii.eqb_neq in H1, H2. rewrite H1, H2, Hs. rewrite IH by (intros; apply H; simpl; auto).
  rewrite <- app_assoc. reflexivity.
Qed.

Lemma inc_prearg : forall b path, line_blank b ->
    include_run IPreprocessorDirectivePreArg path b = (IPreprocessorDirectivePreArg, path, []).
Proof.
  induction b as [|c b IH]; intros path [H Hn]; auto. simpl.
  assert (Hc : is_space c = true) by (apply H; simpl; auto).
  assert (Hcn : c <> newline) by (intros ->; apply Hn; simpl; auto).
  destruct (blank_char_plain c Hc) as (_ & _ & _ & Hq & _ & Hl & _). apply Ascii.eqb_neq in Hcn, Hq, Hl.
  rewrite Hcn, Hq, Hl, Hc. rewrite IH; [reflexivity|]. split; [intros d Hd; apply H; simpl; auto|].
  intro. apply Hn. simpl. auto.
Qed.

Lemma inc_directive : forall b1 name b2 path, line_blank b1 -> line_blank b2 -> name <> [] ->
    (forall c, In c name -> is_lower c = true) ->
    include_run INewline path (lit "#" ++ b1 ++ name ++ b2) =
    (match b2 with [] => IPreprocessorDirective name | _ => IPreprocessorDirectivePreArg end, path, []).
Proof.
  intros b1 name b2 path [B1 N1] [B2 N2] Hne Hlow. destruct name as [|c name]; [congruence|].
  change (@nil (bool * str)) with (@nil (bool * str) ++ ([] ++ ([] ++ []))).
  eapply include_run_run; [reflexivity|]. eapply include_run_run; [apply inc_blanks; auto|].
  eapply include_run_run with (st' := IPreprocessorDirective (c :: name)) (path' := path).
  - simpl. destruct (lower_char c) as (_ & _ & _ & Hs & _); [apply Hlow; simpl; auto|]. rewrite Hs.
    rewrite (inc_name name [c]) by (intros; apply Hlow; simpl; auto). reflexivity.
  - destruct b2 as [|d b2]; [reflexivity|]. simpl.
    assert (Hd : is_space d = true) by (apply B2; simpl; auto).
    destruct (blank_char_plain d Hd) as (_ & _ & _ & Hq & _ & Hl & _). apply Ascii.eqb_neq in Hq, Hl. rewrite Hq, Hl, Hd.
    rewrite inc_prearg; [reflexivity|]. split; [intros x Hx; apply B2; simpl; auto|]. intro. apply N2. simpl. auto.
Qed.

Lemma inc_operand : forall (system : bool) (name path : str), ~ In newline name -> ~ In (if system then ">" else quote) name ->
    include_run (if system then IIncludeSystem else IIncludeProject) path (name ++ [if system then ">" else quote]) =
    (ISkipLine, [], [(system, path ++ name)]).
Proof.
  intros system name. induction name as [|c name IH]; intros path Hn Hq.
  - rewrite app_nil_r. destruct system; reflexivity.
  - assert (Hc : c <> newline) by (intros ->; apply Hn; simpl; auto).
    assert (Hcq : c <> (if system then ">" else quote)) by (intro E; apply Hq; simpl; auto).
    apply Ascii.eqb_neq in Hc, Hcq.
    assert (E : include_step (if system then IIncludeSystem else IIncludeProject) path c =
                (if system then IIncludeSystem else IIncludeProject, path ++ [c], [])).
    { destruct system; simpl; rewrite Hcq, Hc; reflexivity. }
    simpl app. simpl include_run. rewrite E, IH; [|intro; apply Hn; simpl; auto|intro; apply Hq; simpl; auto].
    rewrite <- app_assoc. reflexivity.
Qed.

Lemma inc_include : forall b1 b2 system name, item_ok (Include b1 b2 system name) ->
    include_run INewline [] (render_item (Include b1 b2 system name)) = (ISkipLine, [], [(system, name)]).
Proof.
  intros b1 b2 system name (B1 & B2 & Hn & Hq).
  assert (E : render_item (Include b1 b2 system name) =
              (lit "#" ++ b1 ++ lit "include" ++ b2) ++ ([if system then "<" else quote] ++ (name ++ [if system then ">" else quote]))).
  { unfold render_item. rewrite <- !app_assoc. destruct system; reflexivity. }
  rewrite E. change [(system, name)] with ([] ++ ([] ++ [(system, [] ++ name)])).
  eapply include_run_run.
  - apply inc_directive; auto; [discriminate|]. intros c Hc. simpl in Hc.
    repeat (destruct Hc as [<-|Hc]; [reflexivity|]). destruct Hc.
  - eapply include_run_run with (st' := if system then IIncludeSystem else IIncludeProject) (path' := []).
    + destruct b2; destruct system; reflexivity.
    + apply inc_operand; auto.
Qed.

(** The end of a text *)
Lemma text_end : forall s st, midline st -> plain s -> ~ In newline s ->
    match s with [] => True | c :: _ => harmless st c end ->
    midline (fst (filter_run st s)) /\
    (fst (filter_run st s) = FRawStringBegin -> ends_with s (lit "R") \/ (s = [] /\ st = FRawStringBegin)) /\
    (fst (filter_run st s) = FCommentFirstSkipLine -> ends_with s (lit "/") \/ (s = [] /\ st = FCommentFirstSkipLine)).
Proof.
  intros s st Hm Hp Hn Hh. destruct (midline_text s st Hm Hp Hn Hh) as (_ & K2 & K3). split; auto.
  destruct (exists_last' s) as [-> | (a & e & ->)]; [simpl; auto|]. destruct (K3 a e eq_refl) as (L1 & L2 & _).
  split; intro E; left; exists a; [rewrite (L1 E)|rewrite (L2 E)]; reflexivity.
Qed.

Lemma include_eol : forall st l, midline st -> (l = [] \/ exists l', l = Newline :: l') ->
    include_loop (twin st) [] (render l) = include_loop ISkipLine [] (render l).
Proof.
  intros st l H [-> | [l' ->]]; [reflexivity|]. destruct H as [-> | [-> | ->]]; reflexivity.
Qed.

Lemma ends_cons : forall c s p, ends_with s p -> ends_with (c :: s) p.
Proof. intros c s p [a ->]. exists (c :: a). reflexivity. Qed.

(** What names, operators and numbers have in common *)
Lemma inc_code : forall p s l path, code_like (p ++ s) -> (ends_with (p ++ s) (lit "R") -> at_gap l) ->
    exists st', include_run ISkipLine path s = (twin st', path, []) /\ (st' = FSkipLine \/ (midline st' /\ at_gap l)).
Proof.
  intros p s l path Hcode Ht.
  assert (Hm : midline FSkipLine) by (left; auto).
  assert (Hh : match s with [] => True | c :: _ => harmless FSkipLine c end) by (destruct s; auto; split; discriminate).
  destruct (plain_code _ Hcode) as [Hp Hnn].
  assert (Hps : plain s) by (clear - Hp; induction p; auto; apply IHp; eapply plain_cons; eauto).
  assert (Hns : ~ In newline s) by (intro X; apply Hnn; apply in_or_app; auto).
  destruct (code_run p s FSkipLine l Hcode Hm Hh Ht (fun _ => or_introl eq_refl)) as (st' & E & H).
  exists st'. split; auto. change ISkipLine with (twin FSkipLine). rewrite (twin_text s FSkipLine path Hm Hps Hns Hh), E. reflexivity.
Qed.

(** From the middle of a line *)
Lemma inc_mid : forall i l st, item_ok i -> tame_item i l -> next_ok i l ->
    st = FSkipLine \/ (midline st /\ at_gap (i :: l)) ->
    match i with Newline | Splice | Include _ _ _ _ | LineComment _ => False | _ => True end ->
    exists st', include_run (twin st) [] (render_item i) = (twin st', [], []) /\
      (st' = FSkipLine \/ (midline st' /\ at_gap l)).
Proof.
  intros i l st Hok Ht Hn Hst Hi.
  assert (Hm : midline FSkipLine) by (left; auto).
  destruct i as [| |c|s|s|q s|s|s|tag s|b1 b2 system name|b1 name b2]; try contradiction.
  - (* Blank *)
    destruct Hok as [Hsp Hnl]. exists FSkipLine. split; auto. simpl.
    destruct (blank_char_plain c Hsp) as (H1 & H2 & H3 & H4 & _).
    assert (Hm' : midline st) by (destruct Hst as [-> | [Hm' _]]; auto).
    assert (Hh : harmless st c) by (split; auto).
    destruct (midline_step st c Hm' Hh Hnl) as (_ & _ & _ & _ & K2).
    rewrite twin_step, K2; auto.
  - (* Code *) destruct Hst as [-> | [_ []]]. apply (inc_code [] s l); auto. apply code_code. auto.
  - (* Number *) destruct Hst as [-> | [_ []]]. apply (inc_code [] s l); auto. apply number_code. auto.
  - (* Quoted *)
    destruct Hst as [-> | [_ []]]. destruct Hok as [Hq Hc]. simpl in Ht.
    assert (Hqn : q <> newline) by (destruct Hq as [-> | ->]; discriminate).
    assert (Hnn : ~ In newline (q :: s ++ [q])).
    { intros [X|X]; [congruence|]. apply in_app_or in X. destruct X as [X|[X|[]]]; [|congruence].
      revert X. eapply quoted_no_newline; eauto. }
    assert (Hh : harmless FSkipLine q) by (split; discriminate).
    destruct (text_run _ _ Hm Ht Hnn Hh) as (st' & R & _ & Hend).
    exists FSkipLine. split; auto. unfold render_item.
    rewrite (twin_text (q :: s ++ [q]) FSkipLine [] Hm Ht Hnn Hh), R. simpl fst.
    rewrite (Hend (q :: s) q eq_refl); [reflexivity| |]; destruct Hq as [-> | ->]; discriminate.
  - (* BlockComment *)
    destruct Hst as [-> | [_ []]]. exists FSkipLine. split; auto.
    change (render_item (BlockComment s)) with (lit "/*" ++ (s ++ lit "*/")).
    change (@nil (bool * str)) with (@nil (bool * str) ++ []).
    eapply include_run_run; [reflexivity|]. apply inc_block_end; auto.
  - (* RawString *)
    destruct Hst as [-> | [_ []]]. exists FSkipLine. split; auto. destruct Hok as [Hok _].
    unfold render_item. change (@nil (bool * str)) with (@nil (bool * str) ++ []).
    eapply include_run_run; [reflexivity|]. apply inc_raw_run; auto.
  - (* Directive *)
    destruct Hst as [-> | [_ []]]. exists FSkipLine. split; auto.
    destruct (directive_plain (Directive b1 name b2) l I Hok Ht) as (Hp & Hnn & _).
    rewrite (directive_hash (Directive b1 name b2) I).
    assert (Hp' : plain ("#" :: directive_text (Directive b1 name b2))) by (apply plain_add; auto; discriminate).
    assert (Hnn' : ~ In newline ("#" :: directive_text (Directive b1 name b2))) by (intros [X|X]; [discriminate|auto]).
    rewrite (twin_text _ FSkipLine [] Hm Hp' Hnn') by (split; discriminate).
    rewrite <- (directive_hash (Directive b1 name b2) I), (directive_run (Directive b1 name b2) l FSkipLine I Hok Ht (or_intror eq_refl)). reflexivity.
Qed.

(** From the beginning of a line, unless there is a number sign, the first character
    is treated as in the middle of it. *)
Lemma inc_first : forall c path, c <> "#" -> is_space c = false ->
    include_step INewline path c = include_step ISkipLine path c.
Proof.
  intros c path H1 H2. apply Ascii.eqb_neq in H1. simpl. rewrite H1, H2.
  destruct (Ascii.eqb c newline) eqn:E; [apply Ascii.eqb_eq in E; subst; discriminate|].
  destruct (Ascii.eqb c "/") eqn:E1; [apply Ascii.eqb_eq in E1; subst; reflexivity|].
  destruct (Ascii.eqb c "R"); reflexivity.
Qed.

Lemma inc_fresh : forall i l, item_ok i ->
    match i with
    | Newline | Blank _ | Include _ _ _ _ | Directive _ _ _ => False
    | Code s => ~ starts_with s (lit "#")
    | _ => True
    end ->
    include_loop INewline [] (render (i :: l)) = include_loop ISkipLine [] (render (i :: l)).
Proof.
  assert (H : forall c s, c <> "#" -> is_space c = false ->
            include_loop INewline [] (c :: s) = include_loop ISkipLine [] (c :: s)).
  { intros c s H1 H2. cbn [include_loop]. rewrite inc_first; auto. }
  intros i l Hok Hi. rewrite render_cons.
  destruct i as [| |c|s|s|q s|s|s|tag s|b1 b2 system name|b1 name b2]; try contradiction; try (apply H; [discriminate|reflexivity]).
  - destruct Hok as (Hne & Hc & _). destruct s as [|c s]; [congruence|]. destruct (Hc c) as (X1 & _); [simpl; auto|].
    apply H; auto. intros ->. apply Hi. exists s. reflexivity.
  - pose proof (number_code s Hok) as (_ & Hc & _). destruct Hok as ((c & s' & -> & Hd) & _).
    apply H; [intros ->; discriminate|]. apply Hc. simpl. auto.
  - destruct Hok as [[-> | ->] _]; apply H; try discriminate; reflexivity.
Qed.

Lemma includes_main : forall l,
    (forall b, source_ok b l -> tame_text l -> tame_directives AtStart l ->
       include_loop INewline [] (render l) = includes l) /\
    (forall b st, source_ok b l -> tame_text l -> tame_directives Rest l -> st = FSkipLine \/ (midline st /\ at_gap l) ->
       include_loop (twin st) [] (render l) = includes l) /\
    (forall b, source_ok b l -> tame_text l -> tame_directives ForOperand l ->
       include_loop IPreprocessorDirectivePreArg [] (render l) = includes l) /\
    (forall b name, source_ok b l -> tame_text l ->
       match l with [] => True | Newline :: l' => tame_directives ForOperand l' | _ => False end ->
       include_loop (IPreprocessorDirective name) [] (render l) = includes l).
Proof.
  induction l as [|i l (IH1 & IH2 & IH3 & IH4)]; [repeat split; intros; reflexivity|].
  assert (Hm : midline FSkipLine) by (left; auto).
  assert (Hmid : forall b st, source_ok b (i :: l) -> tame_text (i :: l) -> tame_directives Rest (i :: l) ->
             st = FSkipLine \/ (midline st /\ at_gap (i :: l)) ->
             include_loop (twin st) [] (render (i :: l)) = includes (i :: l)).
  { intros b st (Hok & Hn & Hf & Hrest) [Ht Htl] Hd Hst.
    assert (Hother : match i with Newline | Splice | Include _ _ _ _ | LineComment _ => False | _ => True end ->
              tame_directives Rest l -> include_loop (twin st) [] (render (i :: l)) = includes (i :: l)).
    { intros Hi' Hd'. destruct (inc_mid i l st Hok Ht Hn Hst Hi') as (st' & E & Hst'). rewrite render_cons.
      rewrite (include_run_app _ _ _ _ _ _ _ E). rewrite (IH2 _ st' Hrest); auto; destruct i; try contradiction; auto. }
    destruct i as [| |c|s|s|q s|s|s|tag s|b1 b2 system name|b1 name b2]; simpl in Hd; try (apply Hother; [exact I|tauto]).
    - rewrite include_eol; [|destruct Hst as [-> | [X _]]; auto|eauto]. apply (IH1 _ Hrest); auto.
    - assert (E : include_run (twin st) [] ("\" :: [newline]) = (INewline, [], []))
        by (destruct Hst as [-> | [[-> | [-> | ->]] _]]; reflexivity).
      rewrite render_cons, (include_run_app _ _ _ _ _ _ _ E). apply (IH1 _ Hrest); auto.
    - destruct Hst as [-> | [_ []]]. simpl in Ht, Hok. destruct Hok as [Hnn _].
      change (render (LineComment s :: l)) with (lit "//" ++ (s ++ render l)).
      assert (E : include_run (twin FSkipLine) [] (lit "//") = (ISkipLine, [], [])) by reflexivity.
      rewrite (include_run_app _ _ _ _ _ _ _ E).
      assert (Hh : match s with [] => True | c :: _ => harmless FSkipLine c end) by (destruct s; auto; split; discriminate).
      pose proof (twin_text s FSkipLine [] Hm Ht Hnn Hh) as E2. change (twin FSkipLine) with ISkipLine in E2.
      rewrite (include_run_app _ _ _ _ _ _ _ E2).
      destruct (text_end s FSkipLine Hm Ht Hnn Hh) as (M & _). rewrite include_eol; auto.
      + apply (IH2 _ FSkipLine Hrest); tauto.
      + eapply comment_eol; eauto.
    - destruct Hd. discriminate. }
  split; [|split; [exact Hmid|split]].
  - (* at the beginning of a line *)
    intros b Hso Htt Hd. pose proof Hso as (Hok & Hn & Hf & Hrest). pose proof Htt as [Ht Htl].
    assert (Hother : match i with
                     | Newline | Blank _ | Include _ _ _ _ | Directive _ _ _ => False
                     | Code s => ~ starts_with s (lit "#")
                     | _ => True end -> tame_directives Rest (i :: l) ->
              include_loop INewline [] (render (i :: l)) = includes (i :: l)).
    { intros Hi Hd'. rewrite inc_fresh by auto. apply (Hmid b FSkipLine); auto. }
    destruct i as [| |c|s|s|q s|s|s|tag s|b1 b2 system name|b1 name b2]; simpl in Hd.
    + rewrite render_cons. exact (IH1 _ Hrest Htl Hd).
    + apply Hother; auto.
    + destruct Hok as [Hsp Hnl]. destruct (blank_char_plain c Hsp) as (X1 & X2 & _ & _ & X3 & _).
      apply Ascii.eqb_neq in X1, X2, X3. rewrite render_cons. simpl. rewrite X1, X2, X3, Hsp. apply (IH1 _ Hrest); auto.
    + apply Hother; simpl; tauto.
    + apply Hother; simpl; auto.
    + apply Hother; simpl; auto. split; [discriminate|tauto].
    + apply Hother; simpl; auto. split; [discriminate|tauto].
    + apply Hother; simpl; auto. split; [discriminate|tauto].
    + apply Hother; simpl; auto. split; [discriminate|tauto].
    + rewrite render_cons. rewrite (include_run_app _ _ _ _ _ _ _ (inc_include _ _ _ _ Hok)).
      change (includes (Include b1 b2 system name :: l)) with ([(system, name)] ++ includes l). f_equal.
      apply (IH2 _ FSkipLine Hrest); auto. tauto.
    + destruct Hok as (B1 & B2 & Hne & Hlow & Hinc).
      rewrite render_cons. unfold render_item.
      rewrite (include_run_app _ _ _ _ _ _ _ (inc_directive b1 name b2 [] B1 B2 Hne Hlow)).
      destruct b2 as [|d b2]; [apply (IH4 _ _ Hrest)|apply (IH3 _ Hrest)]; auto.
  - (* after the name of a directive *)
    intros b (Hok & Hn & Hf & Hrest) [Ht Htl] Hd.
    assert (Hcode : forall s c, code_like (c :: s) -> c <> "<" -> c <> quote -> (ends_with (c :: s) (lit "R") -> at_gap l) ->
              tame_directives Rest l ->
              include_loop IPreprocessorDirectivePreArg [] ((c :: s) ++ render l) = includes l).
    { intros s c Hco X4 X2 Hr Hd'. pose proof Hco as (_ & Hc & _). destruct (Hc c) as [X1 _]; [simpl; auto|].
      assert (X3 : c <> newline) by (intros ->; discriminate).
      destruct (inc_code [c] s l [] Hco Hr) as (st' & E & Hst'). apply Ascii.eqb_neq in X2, X3, X4.
      simpl include_loop. rewrite X1, X2, X3, X4. simpl app.
      rewrite (include_run_app _ _ _ _ _ _ _ E). apply (IH2 _ st' Hrest); auto. }
    destruct i as [| |c|s|s|q s|s|s|tag s|b1 b2 system name|b1 name b2]; simpl in Hd; try contradiction.
    + rewrite render_cons. apply (IH1 _ Hrest); auto.
    + rewrite render_cons. apply (IH1 _ Hrest); auto.
    + destruct Hok as [Hsp Hnl]. destruct (blank_char_plain c Hsp) as (_ & _ & _ & Hq & _ & Hl & _).
      apply Ascii.eqb_neq in Hnl, Hq, Hl. rewrite render_cons. simpl. rewrite Hnl, Hq, Hl, Hsp. apply (IH3 _ Hrest); auto.
    + (* the first character is dropped *)
      destruct Hd as [Ha Hd]. pose proof (code_code s Hok) as Hco. pose proof Hco as (Hne & Hc & _).
      destruct s as [|c s]; [congruence|]. rewrite render_cons. apply Hcode; auto.
      * intros ->. apply Ha. exists s. reflexivity.
      * apply Hc. simpl. auto.
    + pose proof (number_code s Hok) as Hco. destruct Hok as ((c & s' & -> & Hdig) & _). rewrite render_cons.
      apply Hcode; auto; intros ->; discriminate.
    + destruct Hd as [Ha Hd]. specialize (Ha eq_refl). destruct Hok as [[-> | ->] Hc]; [congruence|]. simpl in Ht.
      assert (Hnn : ~ In newline (s ++ lit "'")).
      { intro X. apply in_app_or in X. destruct X as [X|[X|[]]]; [|discriminate]. revert X. eapply quoted_no_newline; eauto. }
      assert (Hps : plain (s ++ lit "'")) by (eapply plain_cons; eauto).
      assert (Hh : match s ++ lit "'" with [] => True | c :: _ => harmless FSkipLine c end) by (destruct s; split; discriminate).
      destruct (text_run _ _ Hm Hps Hnn Hh) as (st' & R & _ & Hend).
      change (render (Quoted "'" s :: l)) with ("'" :: (s ++ lit "'") ++ render l).
      pose proof (twin_text _ FSkipLine [] Hm Hps Hnn Hh) as E. rewrite R in E. simpl fst in E.
      rewrite (Hend s "'" eq_refl) in E by discriminate.
      cbn [include_loop]. change (include_step IPreprocessorDirectivePreArg [] "'") with (ISkipLine, @nil ascii, @nil (bool * str)).
      cbv iota. simpl app at 1. change ISkipLine with (twin FSkipLine). rewrite (include_run_app _ _ _ _ _ _ _ E).
      apply (IH2 _ FSkipLine Hrest); auto.
    + (* the first slash is dropped *)
      destruct Hd as [Ha Hd]. specialize (Ha eq_refl).
      simpl in Ht, Hok. destruct Hok as [Hnn _].
      change (render (LineComment s :: l)) with (lit "//" ++ (s ++ render l)).
      assert (E : include_run IPreprocessorDirectivePreArg [] (lit "//") = (twin FCommentFirstSkipLine, [], [])) by reflexivity.
      rewrite (include_run_app _ _ _ _ _ _ _ E).
      assert (Hcf : midline FCommentFirstSkipLine) by (right; right; auto).
      assert (Hh : match s with [] => True | c :: _ => harmless FCommentFirstSkipLine c end).
      { destruct s as [|c s]; auto. split; [discriminate|]. intros _ ->. apply Ha. exists s. reflexivity. }
      pose proof (twin_text s FCommentFirstSkipLine [] Hcf Ht Hnn Hh) as E2.
      rewrite (include_run_app _ _ _ _ _ _ _ E2).
      destruct (text_end s FCommentFirstSkipLine Hcf Ht Hnn Hh) as (M & _). rewrite include_eol; auto.
      * apply (IH2 _ FSkipLine Hrest); auto.
      * eapply comment_eol; eauto.
    + (* the comment is treated as text *)
      destruct Hd as [Ha Hd]. destruct (Ha eq_refl) as (Hnn & Hps & Hgap).
      set (t := lit "*" ++ (s ++ lit "*") ++ lit "/").
      assert (Hpt : plain t).
      { unfold t. apply plain_add; [discriminate|discriminate|]. apply plain_snoc; auto; discriminate. }
      assert (Hnt : ~ In newline t).
      { unfold t. rewrite !not_in_app. repeat split; auto; simpl; intuition discriminate. }
      assert (Hh : match t with [] => True | c :: _ => harmless FSkipLine c end) by (split; discriminate).
      replace (render (BlockComment s :: l)) with ("/" :: t ++ render l)
        by (unfold t; rewrite render_cons; unfold render_item; rewrite <- !app_assoc; reflexivity).
      destruct (text_run t FSkipLine Hm Hpt Hnt Hh) as (st' & R & M & _).
      pose proof (twin_text t FSkipLine [] Hm Hpt Hnt Hh) as E. rewrite R in E. simpl fst in E.
      cbn [include_loop]. change (include_step IPreprocessorDirectivePreArg [] "/") with (ISkipLine, @nil ascii, @nil (bool * str)).
      cbv iota. rewrite app_nil_l. change ISkipLine with (twin FSkipLine). rewrite (include_run_app _ _ _ _ _ _ _ E).
      apply (IH2 _ st' Hrest); auto.
    + destruct Hd; congruence.
    + destruct Hd; discriminate.
    + destruct (inc_mid (Directive b1 name b2) l FSkipLine Hok Ht Hn (or_introl eq_refl) I) as (st' & E & Hst').
      rewrite render_cons, (directive_hash (Directive b1 name b2) I). rewrite (directive_hash (Directive b1 name b2) I) in E.
      simpl in E. cbn [app include_loop].
      change (include_step IPreprocessorDirectivePreArg [] "#") with (ISkipLine, @nil ascii, @nil (bool * str)).
      cbv iota. rewrite app_nil_l.
      assert (E' : include_run ISkipLine [] (directive_text (Directive b1 name b2)) = (twin st', [], [])).
      { destruct (include_run ISkipLine [] (directive_text (Directive b1 name b2))) as [[x y] z]. exact E. }
      rewrite (include_run_app _ _ _ _ _ _ _ E'). apply (IH2 _ st' Hrest); auto.
  - (* right after the name *)
    intros b name (Hok & Hn & Hf & Hrest) [Ht Htl] Hd. destruct i; try contradiction.
    rewrite render_cons. simpl. apply (IH3 _ Hrest); auto.
Qed.

Theorem cxx_includes_found : forall l generated, cxx_source l -> tame l ->
    cxx_get_dependencies generated (render l) = map (include_dependency generated) (includes l).
Proof. intros l generated H [Ht Hd]. unfold cxx_get_dependencies. rewrite (proj1 (includes_main l) _ H Ht Hd). reflexivity. Qed.
