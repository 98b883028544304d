(** Proofs about the output of pkg-config. *)

From Coq Require Import Ascii String Bool Arith ZArith Lia.
From Coq Require Import List.
From Verif Require Import Str PkgModel PkgSpec.
Import ListNotations.

Lemma white_spec c : white c = true <-> white_space c.
Proof.
  unfold white, white_space. generalize (nat_of_ascii c). intro n. rewrite orb_true_iff, !andb_true_iff, !Nat.leb_le. cbn. lia.
Qed.

Lemma white_not c : white c = false <-> ~ white_space c.
Proof. rewrite <- white_spec. destruct (white c); split; congruence. Qed.

Lemma blank_white : white_space blank.
Proof. cbn. tauto. Qed.

Lemma consists_gap c s ws : white_space c -> consists s ws -> consists (c :: s) ws.
Proof.
  intros W [g G|g w s' ws' G Wd A C].
  - constructor. now constructor.
  - change (c :: g ++ w ++ s') with ((c :: g) ++ w ++ s'). constructor; auto. now constructor.
Qed.

Lemma split_consists s : consists s (split_white s []) /\
  forall cur, cur <> [] -> exists w s' ws, split_white s cur = (rev cur ++ w) :: ws /\ s = w ++ s' /\ Forall (fun c => ~ white_space c) w /\ apart_from_word s' /\ consists s' ws.
Proof.
  induction s as [|c s (IH & IH2)]; cbn [split_white].
  - split; [constructor; constructor|]. intros cur N. destruct cur as [|x cur]; [easy|]. exists [], [], []. rewrite app_nil_r.
    repeat split; [constructor|now left|constructor; constructor].
  - destruct (white c) eqn:W.
    + apply white_spec in W. split; [now apply consists_gap|]. intros cur N. destruct cur as [|x cur]; [easy|].
      exists [], (c :: s), (split_white s []). rewrite app_nil_r. repeat split; [constructor|right; eauto|now apply consists_gap].
    + apply white_not in W. split.
      * destruct (IH2 [c]) as (w & s' & ws & -> & -> & F & A & C); [easy|]. change (c :: w ++ s') with ([] ++ (c :: w) ++ s').
        constructor; [constructor|split; [easy|now constructor]|exact A|exact C].
      * intros cur N. destruct (IH2 (c :: cur)) as (w & s' & ws & E & -> & F & A & C); [easy|]. exists (c :: w), s', ws. rewrite E. cbn [rev]. rewrite <- app_assoc.
        repeat split; auto.
Qed.

Lemma split_gap g s : gap g -> split_white (g ++ s) [] = split_white s [].
Proof. induction 1 as [|c g W _ IH]; [reflexivity|]. cbn. apply white_spec in W. now rewrite W. Qed.

Lemma split_in_word w s : Forall (fun c => ~ white_space c) w -> forall cur, split_white (w ++ s) cur = split_white s (rev w ++ cur).
Proof.
  induction 1 as [|c w W _ IH]; intro cur; [reflexivity|]. cbn. apply white_not in W. rewrite W, IH. f_equal. now rewrite <- app_assoc.
Qed.

Lemma finished_word w : w <> [] -> finished (rev w) = [w].
Proof.
  intro N. unfold finished. rewrite <- (rev_involutive w) at 2. destruct (rev w) eqn:E; [|reflexivity]. apply (f_equal (@rev ascii)) in E. rewrite rev_involutive in E. now subst.
Qed.

Lemma consists_split s ws : consists s ws -> split_white s [] = ws.
Proof.
  induction 1 as [g G|g w s ws G (N & F) A C IH].
  - rewrite <- (app_nil_r g), (split_gap g [] G). reflexivity.
  - rewrite (split_gap _ _ G), (split_in_word _ _ F), app_nil_r. destruct A as [->|(c & s' & -> & W)].
    + cbn in *. now rewrite (finished_word w N), <- IH.
    + cbn in *. apply white_spec in W. rewrite W in IH |- *. rewrite (finished_word w N). cbn in *. now rewrite IH.
Qed.

(** * strip *)

Lemma strip_left_spec s : exists g, gap g /\ s = g ++ strip_left s /\ (forall c s', strip_left s = c :: s' -> ~ white_space c).
Proof.
  induction s as [|c s (g & G & E & H)]; cbn; [exists []; repeat split; [constructor|discriminate]|]. destruct (white c) eqn:W.
  - apply white_spec in W. exists (c :: g). repeat split; [now constructor|cbn; now rewrite <- E|exact H].
  - exists []. repeat split; [constructor|]. intros x s' Q. injection Q as <- <-. now apply white_not.
Qed.

Lemma gap_rev g : gap g -> gap (rev g).
Proof. unfold gap. rewrite !Forall_forall. intros H x I. apply H. now apply in_rev. Qed.

Lemma strip_spec s : exists g g', gap g /\ gap g' /\ s = g ++ strip s ++ g'.
Proof.
  destruct (strip_left_spec s) as (g & G & E & _). destruct (strip_left_spec (rev (strip_left s))) as (g' & G' & E' & _).
  exists g, (rev g'). split; [exact G|]. split; [now apply gap_rev|]. rewrite E at 1. f_equal. unfold strip.
  apply (f_equal (@rev ascii)) in E'. now rewrite rev_involutive, rev_app_distr in E'.
Qed.

Lemma strip_left_gap g s : gap g -> strip_left (g ++ s) = strip_left s.
Proof. induction 1 as [|c g W _ IH]; [reflexivity|]. cbn. apply white_spec in W. now rewrite W. Qed.

Lemma strip_left_word c s : ~ white_space c -> strip_left (c :: s) = c :: s.
Proof. intro W. cbn. apply white_not in W. now rewrite W. Qed.

Lemma strip_between g g' c m d : gap g -> gap g' -> ~ white_space c -> ~ white_space d -> forall s, s = c :: m -> (exists m', s = m' ++ [d]) -> strip (g ++ s ++ g') = s.
Proof.
  intros G G' C D s E (m' & E'). unfold strip. rewrite (strip_left_gap _ _ G).
  assert (S : strip_left (s ++ g') = s ++ g') by (rewrite E; exact (strip_left_word c (m ++ g') C)).
  rewrite S, rev_app_distr, (strip_left_gap _ _ (gap_rev _ G')), E', rev_app_distr. cbn [rev app].
  rewrite (strip_left_word _ _ D). cbn [rev]. now rewrite rev_involutive.
Qed.

Lemma strip_none g : gap g -> strip g = [].
Proof. intro G. unfold strip. rewrite <- (app_nil_r g), (strip_left_gap _ _ G). reflexivity. Qed.

(** Surrounding white space does not matter for words. *)
Lemma consists_strip s ws : consists (strip s) ws <-> consists s ws.
Proof.
  destruct (strip_spec s) as (g & g' & G & G' & E).
  assert (F : forall t l, consists t l -> forall e, gap e -> consists (t ++ e) l).
  { clear. intros t l C e Ge. induction C as [h H|h w t l H W A C IH].
    - constructor. now apply Forall_app.
    - rewrite <- !app_assoc. constructor; auto. destruct A as [->|(c & t' & -> & Wc)]; [|right; cbn; eauto].
      destruct e as [|c e]; [now left|]. right. inversion Ge; subst. cbn. eauto. }
  assert (H : forall h, gap h -> forall t l, consists t l -> consists (h ++ t) l).
  { clear. induction 1 as [|c h W _ IH]; intros t l C; [exact C|]. cbn. apply consists_gap; auto. }
  split; intro C.
  - rewrite E. apply (H g G), (F _ _ C g' G').
  - assert (C2 := proj1 (split_consists (strip s))). assert (C3 := H g G _ _ (F _ _ C2 g' G')). rewrite <- E in C3.
    apply consists_split in C. apply consists_split in C3. rewrite C in C3. rewrite C3. exact C2.
Qed.

(** * Words with one blank between them *)

Lemma split_blank_in w s : ~ In blank w -> forall cur, split_blank (w ++ s) cur = split_blank s (rev w ++ cur).
Proof.
  induction w as [|c w IH]; intros N cur; [reflexivity|]. cbn [app split_blank rev]. destruct (Ascii.eqb_spec c blank) as [->|Q]; [exfalso; apply N; now left|].
  rewrite IH by (intro I; apply N; now right). f_equal. now rewrite <- app_assoc.
Qed.

Lemma split_spaced ws : ws <> [] -> Forall (fun w => ~ In blank w) ws -> split_blank (spaced ws) [] = ws.
Proof.
  intros N F. induction F as [|w ws W F IH]; [easy|]. destruct ws as [|w' ws].
  - cbn. rewrite <- (app_nil_r w) at 1. rewrite (split_blank_in w [] W). cbn. now rewrite app_nil_r, rev_involutive.
  - change (spaced (w :: w' :: ws)) with (w ++ blank :: spaced (w' :: ws)). rewrite (split_blank_in w _ W). cbn [split_blank]. rewrite Ascii.eqb_refl, app_nil_r, rev_involutive.
    rewrite IH by discriminate. reflexivity.
Qed.

Lemma spaced_split s : forall cur, ~ In blank cur -> spaced (split_blank s cur) = rev cur ++ s /\ Forall (fun w => ~ In blank w) (split_blank s cur) /\ split_blank s cur <> [].
Proof.
  induction s as [|c s IH]; intros cur N; cbn [split_blank].
  - split; [cbn; now rewrite app_nil_r|]. split; [|discriminate]. constructor; [now rewrite <- in_rev|constructor].
  - destruct (Ascii.eqb_spec c blank) as [->|Q].
    + destruct (IH []) as (E & F & D); [easy|]. split; [|split; [|discriminate]].
      * destruct (split_blank s []) as [|w ws] eqn:S; [easy|]. change (spaced (rev cur :: w :: ws)) with (rev cur ++ blank :: spaced (w :: ws)). now rewrite E.
      * constructor; [now rewrite <- in_rev|exact F].
    + destruct (IH (c :: cur)) as (E & F & D); [cbn; intuition|]. split; [|now split]. rewrite E. cbn. now rewrite <- app_assoc.
Qed.

Lemma word_no_blank w : word w -> ~ In blank w.
Proof. intros (_ & F) I. rewrite Forall_forall in F. exact (F _ I blank_white). Qed.

Lemma spaced_first ws : ws <> [] -> Forall word ws -> exists c m, spaced ws = c :: m /\ ~ white_space c.
Proof.
  intros N F. destruct F as [|w ws (E & W) _]; [easy|]. destruct w as [|c w]; [easy|]. inversion W; subst. destruct ws; cbn; eauto.
Qed.

Lemma spaced_last ws : ws <> [] -> Forall word ws -> exists d m, spaced ws = m ++ [d] /\ ~ white_space d.
Proof.
  intros N F. induction F as [|w ws (E & W) F IH]; [easy|]. destruct ws as [|w' ws].
  - destruct (exists_last E) as (m & d & ->). apply Forall_app in W as (_ & W). inversion W; subst. cbn. eauto.
  - destruct IH as (d & m & E2 & D); [easy|]. exists d, (w ++ lit " " ++ m). split; [|exact D].
    change (spaced (w :: w' :: ws)) with (w ++ lit " " ++ spaced (w' :: ws)). now rewrite E2, <- !app_assoc.
Qed.

(** * The functions *)
Section Run.
  Variable run : list str -> option (Z * str).

  Lemma asked_spec o libname s : asked run (lit o) libname = Some s <-> exists out, says run o libname out /\ s = strip out.
  Proof.
    unfold asked, says. destruct (run [lit "pkg-config"; lit o; libname]) as [[st out]|].
    - destruct (Z.eqb_spec st 0) as [->|Q].
      + split; [intros [= <-]; eauto|]. intros (out' & E & ->). now injection E as <-.
      + split; [discriminate|]. intros (out' & E & _). now injection E as E _.
    - split; [discriminate|]. now intros (out' & E & _).
  Qed.

  Lemma libs_words o libname l :
    match asked run (lit o) libname with None => None | Some [] => Some [] | Some r => Some (rev (split_white r [])) end = Some l <->
    exists out ws, says run o libname out /\ consists out ws /\ l = rev ws.
  Proof.
    split.
    - destruct (asked run (lit o) libname) as [s|] eqn:A; [|discriminate]. apply asked_spec in A as (out & S & ->). intro H.
      exists out, (split_white (strip out) []). split; [exact S|]. split; [apply consists_strip, split_consists|].
      destruct (strip out); injection H as <-; reflexivity.
    - intros (out & ws & S & C & ->). rewrite (proj2 (asked_spec o libname (strip out))) by eauto.
      apply consists_strip, consists_split in C. destruct (strip out); [cbn in C; now subst|]. now rewrite C.
  Qed.

  Theorem libs_exact libname l : get_libs run libname = Some l <-> exists out ws, says run "--libs-only-l" libname out /\ consists out ws /\ l = rev ws.
  Proof. exact (libs_words "--libs-only-l" libname l). Qed.

  Theorem libdirs_exact libname l : get_libdirs run libname = Some l <-> exists out ws, says run "--libs-only-L" libname out /\ consists out ws /\ l = rev ws.
  Proof. exact (libs_words "--libs-only-L" libname l). Qed.

  Theorem cflags_words libname g ws g' : gap g -> gap g' -> Forall word ws -> says run "--cflags" libname (g ++ spaced ws ++ g') -> get_cflags run libname = Some ws.
  Proof.
    intros G G' F S. unfold get_cflags. rewrite (proj2 (asked_spec "--cflags" libname (strip (g ++ spaced ws ++ g')))) by eauto.
    destruct ws as [|w ws]; [cbn [spaced app]; now rewrite (strip_none (g ++ g')) by now apply Forall_app|].
    destruct (spaced_first (w :: ws)) as (c & m & E & C); [easy|exact F|]. destruct (spaced_last (w :: ws)) as (d & m' & E' & D); [easy|exact F|].
    rewrite (strip_between g g' c m d G G' C D _ E) by eauto. rewrite E at 1. cbv iota. f_equal.
    apply split_spaced; [easy|]. eapply Forall_impl; [|exact F]. exact word_no_blank.
  Qed.

  Theorem cflags_exact libname l : get_cflags run libname = Some l ->
    exists out g s g', says run "--cflags" libname out /\ out = g ++ s ++ g' /\ gap g /\ gap g' /\
      spaced l = s /\ Forall (fun w => ~ In " "%char w) l /\ (l = [] <-> s = []).
  Proof.
    unfold get_cflags. destruct (asked run (lit "--cflags") libname) as [r|] eqn:A; [|discriminate]. apply asked_spec in A as (out & S & ->). intro H.
    destruct (strip_spec out) as (g & g' & G & G' & E). exists out, g, (strip out), g'. split; [exact S|]. split; [exact E|]. split; [exact G|]. split; [exact G'|].
    destruct (strip out) as [|c r]; [injection H as <-; repeat split; constructor|]. injection H as <-.
    destruct (spaced_split (c :: r) []) as (A & F & N); [easy|]. split; [exact A|]. split; [exact F|]. split; [intro Q; contradiction|discriminate].
  Qed.

  Theorem fails o libname : (forall out, ~ says run o libname out) -> asked run (lit o) libname = None.
  Proof. intro N. destruct (asked run (lit o) libname) as [s|] eqn:A; [|reflexivity]. apply asked_spec in A as (out & S & _). now apply N in S. Qed.
End Run.

Lemma consists_unique s ws ws' : consists s ws -> consists s ws' -> ws = ws'.
Proof. intros A B. apply consists_split in A. apply consists_split in B. congruence. Qed.

Lemma consists_total s : exists ws, consists s ws.
Proof. eexists. apply split_consists. Qed.
