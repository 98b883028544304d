(** Proofs about the source archive. *)

From Coq Require Import Ascii String Bool Arith Lia.
From Coq Require Import List.
From Verif Require Import Str PathProofs SetupModel SetupSpec SetupProofs PackModel PackSpec.
Import ListNotations.
Local Open Scope string_scope.
Local Open Scope list_scope.

(** Induction over trees *)
Lemma tree_ind' (P : tree -> Prop) : (forall c r x, P (FileNode c r x)) ->
  (forall r x es, (forall n t, In (n, t) es -> P t) -> P (DirNode r x es)) -> forall t, P t.
Proof.
  intros F D. fix IH 1. intros [c r x|r x es]; [apply F|apply D].
  induction es as [|[n t] es IHe]; intros m u I; [destruct I|]. destruct I as [E|I]; [injection E as _ <-; apply IH|exact (IHe m u I)].
Qed.

Definition content (t : tree) : option str := match t with FileNode c _ _ => Some c | DirNode _ _ _ => None end.

Definition entries_members name := fix go (es : list (str * tree)) : list member := match es with [] => [] | (n, t') :: es' => members (name ++ [n]) t' ++ go es' end.

Lemma in_entries name es m : In m (entries_members name es) <-> exists n t, In (n, t) es /\ In m (members (name ++ [n]) t).
Proof.
  induction es as [|[n t] es IH]; cbn [entries_members].
  - split; [easy|]. now intros (n & t & [] & _).
  - rewrite in_app_iff, IH. split.
    + intros [H|(n' & t' & I & H)]; [exists n, t|exists n', t']; cbn; auto.
    + intros (n' & t' & [E|I] & H); [injection E as <- <-; now left|right; eauto].
Qed.

Lemma get_of n es t : NoDup (map fst es) -> In (n, t) es -> get n es = Some t.
Proof.
  induction es as [|[m u] es IH]; cbn; intros N I; [easy|]. inversion N as [|? ? A B]; subst. destruct (str_eqb m n) eqn:Q.
  - apply str_eqb_eq in Q. subst m. destruct I as [E|I]; [now injection E as <-|]. elim A. now apply (in_map fst) in I.
  - destruct I as [E|I]; [injection E as -> ->; now rewrite str_eqb_refl in Q|auto].
Qed.

Lemma members_spec t : proper t -> forall name p o, In (p, o) (members name t) <->
  exists rest u, p = name ++ rest /\ lookup t rest = Some u /\ o = content u.
Proof.
  induction t as [c r x|r x es IH] using tree_ind'; intros W name p o.
  - cbn. split.
    + intros [E|[]]. injection E as <- <-. exists [], (FileNode c r x). now rewrite app_nil_r.
    + intros ([|a rest] & u & -> & L & ->); [|discriminate]. injection L as <-. left. now rewrite app_nil_r.
  - change (members name (DirNode r x es)) with ((name, None) :: entries_members name es). inversion W as [|? ? ? N Ws]; subst. split.
    + intros [E|I].
      * injection E as <- <-. exists [], (DirNode r x es). now rewrite app_nil_r.
      * apply in_entries in I as (n & t & I & M). apply (IH n t I (Ws n t I)) in M as (rest & u & -> & L & ->).
        exists (n :: rest), u. split; [now rewrite <- app_assoc|]. split; [|reflexivity]. cbn. now rewrite (get_of n es t N I).
    + intros ([|n rest] & u & -> & L & ->).
      * injection L as <-. left. now rewrite app_nil_r.
      * cbn in L. destruct (get n es) as [t|] eqn:G; [|discriminate]. apply get_in in G. right. apply in_entries. exists n, t.
        split; [exact G|]. apply (IH n t G (Ws n t G)). exists rest, u. now rewrite <- app_assoc.
Qed.

Lemma proper_lookup p : forall t u, proper t -> lookup t p = Some u -> proper u.
Proof.
  induction p as [|c p IH]; intros t u W L; [now injection L as <-|]. cbn in L. destruct t as [|r x es]; [discriminate|].
  destruct (get c es) as [t'|] eqn:G; [|discriminate]. inversion W as [|? ? ? N Ws]; subst. eapply IH; [|exact L]. apply (Ws c). now apply get_in.
Qed.

Lemma stored_spec t name p o : proper t -> In (p, o) (stored t name) <-> under name p /\ exists u, lookup t p = Some u /\ o = content u.
Proof.
  intro W. unfold stored. destruct (lookup t name) as [v|] eqn:L.
  - rewrite (members_spec v (proper_lookup _ _ _ W L)). split.
    + intros (rest & u & -> & Lu & ->). split; [now exists rest|]. exists u. now rewrite lookup_app, L.
    + intros ((rest & ->) & u & Lu & ->). rewrite lookup_app, L in Lu. eauto.
  - split; [easy|]. intros ((rest & ->) & u & Lu & _). now rewrite lookup_app, L in Lu.
Qed.

Definition entries_directories name := fix go (es : list (str * tree)) : list place := match es with [] => [] | (n, t') :: es' => directories (name ++ [n]) t' ++ go es' end.

Lemma directories_spec t : proper t -> forall name p, In p (directories name t) -> exists rest u, p = name ++ rest /\ lookup t rest = Some u.
Proof.
  induction t as [c r x|r x es IH] using tree_ind'; intros W name p; [intros []|].
  change (directories name (DirNode r x es)) with (name :: entries_directories name es). inversion W as [|? ? ? N Ws]; subst.
  intros [<-|I]; [exists [], (DirNode r x es); now rewrite app_nil_r|].
  assert (H : exists n t, In (n, t) es /\ In p (directories (name ++ [n]) t)).
  { clear - I. induction es as [|[n t] es IHe]; [easy|]. cbn [entries_directories] in I. apply in_app_iff in I as [I|I]; [exists n, t; cbn; auto|].
    destruct (IHe I) as (n' & t' & J & K). exists n', t'. cbn. auto. }
  destruct H as (n & t & J & K). apply (IH n t J (Ws n t J)) in K as (rest & u & -> & L). exists (n :: rest), u. split; [now rewrite <- app_assoc|].
  cbn. now rewrite (get_of n es t N J).
Qed.

Section Make.
Variable build : tree -> nat * tree.
Variable dry_run : tree -> nat * str.
Variable ls_files : tree -> nat * list place.
Let make := make_source_archive build dry_run ls_files.

Lemma bootstrap_made t t' : make_bootstrap build dry_run t = (true, t') ->
  exists t1 t2, build t = (0, t1) /\ write script_place [] t1 = Some t2 /\ fst (dry_run t2) = 0 /\ write script_place (snd (dry_run t2)) t2 = Some t'.
Proof.
  unfold make_bootstrap. destruct (build t) as [st t1]. destruct (Nat.eqb_spec st 0) as [->|]; [|discriminate].
  destruct (write _ [] t1) as [t2|] eqn:W; [|discriminate]. destruct (dry_run t2) as [st out] eqn:D.
  destruct (write _ out t2) as [t3|] eqn:W2; [|discriminate]. intros [= E <-]. apply Nat.eqb_eq in E. subst st.
  exists t1, t2. rewrite D. cbn. auto.
Qed.

Lemma written p c t t' : write p c t = Some t' -> file_at t' p c.
Proof.
  unfold write. intro H. apply alter_same in H as (u & E & L). unfold file_at. rewrite L.
  destruct (lookup t p) as [[c0 r x|]|]; try discriminate; injection E as <-; eauto.
Qed.

(** Writing keeps directories proper. *)
Lemma set_nodup n (u : tree) es : NoDup (map fst es) -> NoDup (map fst (set n u es)).
Proof.
  induction es as [|[m v] es IH]; cbn; intro N; [constructor; [easy|constructor]|]. inversion N as [|? ? A B]; subst.
  destruct (str_eqb m n) eqn:Q; cbn; [now constructor|]. constructor; [|auto]. rewrite set_names. intros [->|I]; [now rewrite str_eqb_refl in Q|auto].
Qed.

Lemma set_in n (u : tree) es m v : In (m, v) (set n u es) -> v = u \/ In (m, v) es.
Proof.
  induction es as [|[k x] es IH]; cbn.
  - intros [E|[]]. injection E as _ <-. now left.
  - destruct (str_eqb k n); cbn.
    + intros [E|I]; [injection E as _ <-; now left|auto].
    + intros [E|I]; [auto|]. destruct (IH I); auto.
Qed.

Lemma alter_proper f p : (forall o u, (forall v, o = Some v -> proper v) -> f o = Some u -> proper u) ->
  forall o u, (forall v, o = Some v -> proper v) -> alter f p o = Some u -> proper u.
Proof.
  intro F. induction p as [|c p IH]; intros o u W H; [exact (F o u W H)|]. cbn in H. destruct o as [[|r x es]|]; try discriminate.
  destruct (alter f p (get c es)) as [u'|] eqn:A; [|discriminate]. injection H as <-.
  specialize (W _ eq_refl). inversion W as [|? ? ? N Ws]; subst. constructor; [now apply set_nodup|].
  intros n v I. apply set_in in I as [->|I]; [|now apply (Ws n)]. apply (IH (get c es) u'); [|exact A]. intros v G. apply (Ws c). now apply get_in.
Qed.

Lemma write_proper p c t t' : proper t -> write p c t = Some t' -> proper t'.
Proof.
  intros W H. unfold write in H. refine (alter_proper _ p _ (Some t) t' _ H).
  - intros [[|]|] u _ E; try discriminate; injection E as <-; constructor.
  - intros v E. injection E as <-. exact W.
Qed.

Lemma write_other p c t t' q : write p c t = Some t' -> apart p q -> lookup t' q = lookup t q.
Proof. intros H (A & B). exact (alter_other _ _ _ _ _ H A B). Qed.

Lemma made t t' ms : make t = (true, t', Some ms) ->
  make_bootstrap build dry_run t = (true, t') /\ tar t' (find_directories t' ++ snd (ls_files t')) = (true, ms).
Proof.
  unfold make, make_source_archive. destruct (make_bootstrap _ _ t) as [[] t1]; [|discriminate].
  destruct (lookup t1 _) as [[|]|]; try discriminate. destruct (tar _ _) as [ok l] eqn:E. intros [= -> -> ->]. now rewrite E.
Qed.

Lemma tree_made t t' : (forall u, proper (snd (build u))) -> make_bootstrap build dry_run t = (true, t') -> proper t'.
Proof.
  intros W H. apply bootstrap_made in H as (t1 & t2 & B & W1 & _ & W2).
  eapply write_proper; [|exact W2]. eapply write_proper; [|exact W1]. specialize (W t). now rewrite B in W.
Qed.

Lemma members_made t t' ms : (forall u, proper (snd (build u))) -> make t = (true, t', Some ms) -> forall p o,
  In (p, o) ms <-> exists q u, p = lit "maike-src" :: q /\ belongs (snd (ls_files t')) q /\ lookup t' q = Some u /\ o = content u.
Proof.
  intros W H p o. apply made in H as (B & T). assert (P : proper t') by exact (tree_made t t' W B). unfold tar in T. injection T as _ <-.
  assert (Bc : exists r x es, lookup t' buildcache = Some (DirNode r x es)).
  { apply bootstrap_made in B as (t1 & t2 & _ & _ & _ & W2). apply written in W2 as (r & x & L).
    change script_place with (buildcache ++ [lit "bootstrap.sh"]) in L. rewrite lookup_app in L. destruct (lookup t' buildcache) as [[|]|]; try discriminate. eauto. }
  rewrite in_map_iff. split.
  - intros ([q o'] & E & I). injection E as <- <-. apply in_flat_map in I as (n & In_n & S). apply (stored_spec t' n q o' P) in S as (U & u & L & ->).
    exists q, u. split; [reflexivity|]. split; [|now split]. apply in_app_iff in In_n as [In_n|In_n]; [left|right; eauto].
    unfold find_directories in In_n. destruct (lookup t' buildcache) as [v|] eqn:Lv; [|destruct In_n].
    apply (directories_spec v (proper_lookup _ _ _ P Lv)) in In_n as (rest & _ & -> & _). now apply under_app in U.
  - intros (q & u & -> & Be & L & ->). exists (q, content u). split; [reflexivity|]. apply in_flat_map. destruct Be as [U|(n & I & U)].
    + exists buildcache. split; [|apply (stored_spec t' _ _ _ P); eauto]. apply in_app_iff. left. unfold find_directories.
      destruct Bc as (r & x & es & ->). now left.
    + exists n. split; [apply in_app_iff; now right|]. apply (stored_spec t' _ _ _ P). eauto.
Qed.

Lemma place_eqb_eq a : forall b, place_eqb a b = true <-> a = b.
Proof.
  induction a as [|x a IH]; intros [|y b]; cbn; split; intro H; try reflexivity; try discriminate.
  - apply andb_true_iff in H as (A & B). apply str_eqb_eq in A. apply IH in B. now subst.
  - injection H as -> ->. now rewrite str_eqb_refl, (proj2 (IH b) eq_refl).
Qed.

(** Members with the same name have the same content. *)
Lemma unpacked_spec (ms : list member) : (forall p o o', In (p, o) ms -> In (p, o') ms -> o = o') -> forall p o, unpacked ms p = Some o <-> In (p, o) ms.
Proof.
  intros F p o. unfold unpacked. match goal with |- context [option_map snd ?f] => destruct f as [[q o']|] eqn:E end.
  - apply find_some in E as (I & Q). cbn in Q. apply place_eqb_eq in Q. subst q. apply in_rev in I. cbn. split.
    + intro X. inversion X. subst o. exact I.
    + intro J. f_equal. exact (F p o' o I J).
  - split; [discriminate|]. intro I. apply in_rev in I. apply (find_none _ _ E) in I. cbn in I. now rewrite (proj2 (place_eqb_eq p p) eq_refl) in I.
Qed.

Theorem archive_unpacked t t' ms : (forall u, proper (snd (build u))) -> make t = (true, t', Some ms) ->
  let names := snd (ls_files t') in
  (forall q c, unpacked ms (lit "maike-src" :: q) = Some (Some c) <-> belongs names q /\ file_at t' q c) /\
  (forall q, unpacked ms (lit "maike-src" :: q) = Some None <-> belongs names q /\ dir_at t' q) /\
  (forall p o, unpacked ms p = Some o -> exists q, p = lit "maike-src" :: q).
Proof.
  intros W H names. assert (M := members_made t t' ms W H).
  assert (F : forall p o o', In (p, o) ms -> In (p, o') ms -> o = o').
  { intros p o o' I J. apply M in I as (q & u & -> & _ & L & ->). apply M in J as (q' & u' & E & _ & L' & ->). injection E as <-. congruence. }
  split; [|split].
  - intros q c. rewrite (unpacked_spec ms F), M. split.
    + intros (q' & u & E & B & L & C). injection E as <-. split; [exact B|]. destruct u as [c' r x|]; [|discriminate]. injection C as ->. now exists r, x.
    + intros (B & r & x & L). exists q, (FileNode c r x). auto.
  - intros q. rewrite (unpacked_spec ms F), M. split.
    + intros (q' & u & E & B & L & C). injection E as <-. split; [exact B|]. destruct u as [|r x es]; [discriminate|]. now exists r, x, es.
    + intros (B & r & x & es & L). exists q, (DirNode r x es). auto.
  - intros p o U. apply (unpacked_spec ms F), M in U as (q & _ & -> & _). now exists q.
Qed.

Theorem archive_names t t' ms : make t = (true, t', Some ms) -> forall n, In n (snd (ls_files t')) -> exists u, lookup t' n = Some u.
Proof.
  intros H n I. apply made in H as (_ & T). unfold tar in T. injection T as A _. rewrite forallb_forall in A.
  specialize (A n (in_or_app _ _ _ (or_intror I))). destruct (lookup t' n); [eauto|discriminate].
Qed.

Theorem archive_script t t' ms : (forall u, proper (snd (build u))) -> make t = (true, t', Some ms) ->
  exists t1 t2 out, build t = (0, t1) /\ dry_run t2 = (0, out) /\ file_at t2 script_place [] /\
    (forall q, apart script_place q -> lookup t2 q = lookup t1 q /\ lookup t' q = lookup t1 q) /\
    unpacked ms [lit "maike-src"; lit "__buildcache"; lit "bootstrap.sh"] = Some (Some out).
Proof.
  intros W H. assert (U := archive_unpacked t t' ms W H). cbv zeta in U. destruct U as (U & _). apply made in H as (B & _).
  apply bootstrap_made in B as (t1 & t2 & Bt & W1 & D & W2). exists t1, t2, (snd (dry_run t2)).
  split; [exact Bt|]. split; [destruct (dry_run t2); cbn in D; now subst|]. split; [now apply written in W1|]. split.
  - intros q A. rewrite (write_other _ _ _ _ _ W2 A). split; now apply (write_other _ _ _ _ _ W1 A).
  - apply U. split; [|now apply written in W2]. left. now exists [lit "bootstrap.sh"].
Qed.

Lemma script_written c t : dir_at t buildcache -> ~ dir_at t script_place -> exists t', write script_place c t = Some t'.
Proof.
  unfold write, script_place, buildcache, dir_at. generalize (lit "__buildcache") (lit "bootstrap.sh"). intros b s (r & x & es & L) N.
  destruct t as [|r0 x0 es0]; [discriminate|]. cbn [lookup alter] in *.
  destruct (get b es0) as [[|r1 x1 es1]|]; try discriminate. cbn [lookup alter] in *.
  destruct (get s es1) as [[c2 r2 x2|r2 x2 es2]|]; cbn [lookup alter] in *; [eexists; reflexivity| |eexists; reflexivity]. exfalso. apply N. exists r2, x2, es2. reflexivity.
Qed.

Theorem archive_succeeds t t1 :
  proper t1 -> build t = (0, t1) -> dir_at t1 [lit "__buildcache"] -> ~ dir_at t1 [lit "__buildcache"; lit "bootstrap.sh"] -> dir_at t1 [lit "__targets"] ->
  (forall u, fst (dry_run u) = 0) -> (forall u n, In n (snd (ls_files u)) -> lookup u n <> None) ->
  exists t' ms, make t = (true, t', Some ms).
Proof.
  intros P B D N Ta R L. destruct (script_written [] t1 D N) as (t2 & W1). assert (F2 := written _ _ _ _ W1).
  assert (D2 : dir_at t2 buildcache).
  { destruct F2 as (r & x & L2). change script_place with (buildcache ++ [lit "bootstrap.sh"]) in L2. rewrite lookup_app in L2.
    destruct (lookup t2 buildcache) as [[|r' x' es]|] eqn:E; try discriminate. exists r', x', es. exact E. }
  assert (N2 : ~ dir_at t2 script_place). { intros (r & x & es & E). destruct F2 as (r' & x' & E'). congruence. }
  destruct (script_written (snd (dry_run t2)) t2 D2 N2) as (t3 & W2).
  assert (A : apart script_place [lit "__targets"]). { split; intros (rest & E); discriminate. }
  unfold make, make_source_archive, make_bootstrap. rewrite B. cbn [Nat.eqb]. rewrite W1. specialize (R t2). destruct (dry_run t2) as [st out]. cbn [fst snd] in R, W2. subst st. rewrite W2. cbn [Nat.eqb].
  rewrite (write_other _ _ _ _ _ W2 A), (write_other _ _ _ _ _ W1 A). destruct Ta as (r & x & es & ->). unfold tar.
  exists t3. eexists. rewrite (proj2 (forallb_forall _ _)); [reflexivity|]. intros n I. apply in_app_iff in I as [I|I].
  - unfold find_directories in I. destruct (lookup t3 buildcache) as [u|] eqn:Lu; [|destruct I].
    assert (P3 : proper t3) by (apply (write_proper _ _ _ _ (write_proper _ _ _ _ P W1) W2)).
    destruct (directories_spec u (proper_lookup _ _ _ P3 Lu) buildcache n I) as (rest & v & -> & Lv). now rewrite lookup_app, Lu, Lv.
  - specialize (L t3 n I). now destruct (lookup t3 n).
Qed.

Theorem archive_needs t t' ms : make t = (true, t', Some ms) ->
  exists t1, build t = (0, t1) /\ dir_at t1 [lit "__buildcache"] /\ ~ dir_at t1 [lit "__buildcache"; lit "bootstrap.sh"] /\ dir_at t1 [lit "__targets"].
Proof.
  intro H. assert (Ta : dir_at t' [lit "__targets"]).
  { revert H. unfold make, make_source_archive. destruct (make_bootstrap _ _ t) as [[] u]; [|discriminate].
    destruct (lookup u _) as [[|r x es]|] eqn:L; try discriminate. destruct (tar _ _). intros [= _ <- _]. now exists r, x, es. }
  apply made in H as (B & _). apply bootstrap_made in B as (t1 & t2 & Bt & W1 & _ & W2). exists t1. split; [exact Bt|].
  assert (A : apart script_place [lit "__targets"]). { split; intros (rest & E); discriminate. }
  split; [|split].
  - unfold write, script_place in W1. unfold dir_at. revert W1. generalize (lit "__buildcache") (lit "bootstrap.sh"). intros b s W1.
    destruct t1 as [|r0 x0 es0]; [discriminate|]. cbn [lookup alter] in *. destruct (get b es0) as [[|r x es]|]; try discriminate. now exists r, x, es.
  - intros (r & x & es & L). unfold write in W1. apply alter_same in W1 as (u & E & _). change script_place with [lit "__buildcache"; lit "bootstrap.sh"] in E. rewrite L in E. discriminate.
  - destruct Ta as (r & x & es & L). rewrite (write_other _ _ _ _ _ W2 A), (write_other _ _ _ _ _ W1 A) in L. now exists r, x, es.
Qed.
End Make.
