(** Proofs about scanning directories. *)

From Coq Require Import Ascii Bool Arith Lia Sorted.
From Coq Require Import List.
From Verif Require Import Str Path SMap PathProofs SchedModel SchedProofs LoadSpec LocProofs ScanModel ScanSpec.
Import ListNotations.

Lemma inside_self : forall s, directory_ok s -> inside s [] = s.
Proof.
  intros s Hs. unfold inside. destruct (path_eqb s (mk_path false [dot])) eqn:E.
  - apply path_eqb_eq in E. subst. reflexivity.
  - rewrite app_nil_r. destruct s; reflexivity.
Qed.

Lemma normal_entry : forall s d l, directory_ok s -> Forall ordinary d -> Forall ordinary l -> l <> [] ->
    lexically_normal (append (inside s d) (mk_path false l)) = inside s (d ++ l).
Proof.
  intros s d l Hs Hd Hl Hne. assert (Hdl : Forall ordinary (d ++ l)) by (apply Forall_app; auto).
  assert (Hi : is_nil (d ++ l) = false) by (destruct d, l; try reflexivity; congruence).
  destruct (path_eq_dec s (mk_path false [dot])) as [E|Hns].
  - rewrite E, !inside_dot, Hi. destruct d as [|c d'] eqn:Ed.
    + simpl is_nil. cbv iota. rewrite append_dot by auto. apply (normal_skip_dot false [] l); auto using normalised_ordinary.
    + rewrite <- Ed in *. replace (is_nil d) with false by (rewrite Ed; reflexivity).
      rewrite append_names by eauto using normalised_proper, (normalised_ordinary false). apply normal_ordinary. auto.
  - destruct (inside_plain s d Hs Hns) as [-> Hp]. assert (Hpd : normalised (absolute s) (comps s ++ d)) by (apply normalised_app; auto).
    rewrite append_names by eauto using normalised_proper. rewrite normal_normalised by (apply normalised_app; auto).
    destruct (inside_plain s (d ++ l) Hs Hns) as [-> _]. rewrite app_assoc. reflexivity.
Qed.

Section Scan.
Variable Info : Type.
Variable is_directory : path -> option bool.
Variable directory_entries : path -> list str * bool.
Variable loads : path -> option Info.
Variables filter_name filter_path : str -> bool.
Variable recursive : bool.
Variable root : path.
Variable workers : nat.
Hypothesis Hroot : directory_ok (lexically_normal root).
Hypothesis Hentries : proper_entries directory_entries.

Local Notation skipped := (skipped is_directory filter_name filter_path recursive root).
Local Notation ignored := (ignored is_directory filter_name filter_path recursive root).
Local Notation unreadable := (unreadable is_directory recursive root).
Local Notation found := (found Info is_directory directory_entries loads filter_name filter_path recursive root).
Local Notation belongs := (belongs Info is_directory directory_entries loads filter_name filter_path recursive root).
Local Notation faulty := (faulty Info is_directory directory_entries loads filter_name filter_path recursive root).
Local Notation after_insert := (after_insert Info is_directory directory_entries).
Local Notation scan_task_step := (scan_task_step Info is_directory directory_entries loads filter_name filter_path recursive root workers).
Local Notation scan_step := (scan_step Info is_directory directory_entries loads filter_name filter_path recursive root workers).
Local Notation scan_run := (scan_run Info is_directory directory_entries loads filter_name filter_path recursive root workers).
Local Notation scan_init := (scan_init Info root).
Local Notation scan_state := (scan_state Info).
Local Notation scan_task := (scan_task Info).

Definition child (p : path) (name : str) : path := append (lexically_normal p) (mk_path false [name]).

(** * What is skipped *)

Lemma skipped_false : forall p, skipped p = Some false <-> ~ ignored p /\ ~ unreadable p.
Proof.
  intros p. unfold ScanModel.skipped, ScanSpec.ignored, ScanSpec.unreadable. destruct (path_eqb p root) eqn:E.
  - apply path_eqb_eq in E. tauto.
  - apply path_eqb_neq in E.
    destruct recursive, (filter_name (filename p)), (filter_path (path_string (lexically_relative p root))), (is_directory p) as [[|]|];
      simpl; split; intro H; try discriminate; try (split; intro X; intuition congruence); try reflexivity;
      exfalso; intuition congruence.
Qed.

Lemma skipped_none : forall p, skipped p = None <-> unreadable p.
Proof.
  intros p. unfold ScanModel.skipped, ScanSpec.unreadable. destruct (path_eqb p root) eqn:E.
  - apply path_eqb_eq in E. split; [discriminate|tauto].
  - apply path_eqb_neq in E. destruct recursive, (is_directory p) as [[|]|]; split; intro H; try discriminate; intuition congruence.
Qed.

Definition fault (p : path) : Prop :=
  skipped p = None \/
  (skipped p = Some false /\
   (loads p = None \/
    (loads p <> None /\ (is_directory (lexically_normal p) = None \/
       (is_directory (lexically_normal p) = Some true /\ snd (directory_entries (lexically_normal p)) = true))))).

Lemma fault_faulty : forall p, found p -> (fault p <-> faulty p).
Proof.
  intros p Hf. unfold fault, ScanSpec.faulty, ScanSpec.belongs. rewrite skipped_none, skipped_false.
  destruct (loads p); intuition congruence.
Qed.

(** * Different files have different names *)

Lemma found_location : forall p, found p -> exists d, Forall ordinary d /\ lexically_normal p = inside (lexically_normal root) d /\
    (d = [] -> p = root) /\ (forall d' n, d = d' ++ [n] -> p = append (inside (lexically_normal root) d') (mk_path false [n])).
Proof.
  intros p H. induction H as [|p i name Hp IH H1 H2 H3 H4 H5].
  - exists []. split; [constructor|]. split; [symmetry; apply inside_self; auto|]. split; auto. intros d' n E. destruct d'; discriminate.
  - destruct IH as (d & Hd & En & _ & _). destruct (Hentries (lexically_normal p)) as [Ho _]. rewrite Forall_forall in Ho.
    exists (d ++ [name]). assert (Hn : Forall ordinary [name]) by (constructor; auto).
    split; [apply Forall_app; auto|]. rewrite En. split; [apply normal_entry; auto; discriminate|].
    split; [intro E; destruct d; discriminate|]. intros d' n E. apply app_inj_tail in E. destruct E as [-> ->]. reflexivity.
Qed.

Lemma location_unique : forall p q, found p -> found q -> lexically_normal p = lexically_normal q -> p = q.
Proof.
  intros p q Hp Hq E. destruct (found_location p Hp) as (d & Hd & Ed & H1 & H2). destruct (found_location q Hq) as (d' & Hd' & Ed' & H1' & H2').
  rewrite Ed, Ed' in E. apply inside_inj in E; auto. subst d'.
  destruct d as [|x d] using rev_ind; [rewrite H1, H1'; auto|]. rewrite (H2 _ _ eq_refl), (H2' _ _ eq_refl). reflexivity.
Qed.

Lemma child_normal : forall p n, found p -> ordinary n -> exists d, Forall ordinary d /\
    lexically_normal p = inside (lexically_normal root) d /\ lexically_normal (child p n) = inside (lexically_normal root) (d ++ [n]).
Proof.
  intros p n Hp Hn. destruct (found_location p Hp) as (d & Hd & Ed & _). exists d. repeat split; auto.
  unfold child. rewrite Ed. apply normal_entry; auto. discriminate.
Qed.

Lemma child_unique : forall p q n m, found p -> found q -> ordinary n -> ordinary m -> child p n = child q m -> p = q /\ n = m.
Proof.
  intros p q n m Hp Hq Hn Hm E. destruct (child_normal p n Hp Hn) as (d & Hd & E1 & E2). destruct (child_normal q m Hq Hm) as (d' & Hd' & E1' & E2').
  rewrite E in E2. rewrite E2 in E2'. apply inside_inj in E2'; try (apply Forall_app; auto).
  apply app_inj_tail in E2'. destruct E2' as [-> ->]. split; auto. apply location_unique; auto. congruence.
Qed.

Lemma child_not_root : forall p n, found p -> ordinary n -> child p n <> root.
Proof.
  intros p n Hp Hn E. destruct (child_normal p n Hp Hn) as (d & Hd & _ & E2). rewrite E in E2.
  rewrite <- (inside_self _ Hroot) in E2 at 1. apply inside_inj in E2; auto; [destruct d; discriminate|apply Forall_app; auto].
Qed.

(** * The invariant *)

Definition task_path (t : scan_task) : path :=
  match t with
  | Queued p | Looking p | Loading p | Inserting p _ | Listing p _ _ | Failing p | Ending p => p
  end.

(** What there is to know about [p] *)
Record view := mk_view { v_file : option Info; v_loaded : Prop; v_error : Prop; v_children : str -> Prop }.

Definition view_of (s : scan_state) (p : path) : view :=
  mk_view (map_find (lexically_normal p) (scan_files s)) (In p (scan_loaded s)) (In p (scan_errors s))
          (fun n => ordinary n /\ In (child p n) (scan_submitted s)).

Definition same_view (v w : view) : Prop :=
  v_file v = v_file w /\ (v_loaded v <-> v_loaded w) /\ (v_error v <-> v_error w) /\ (forall n, v_children v n <-> v_children w n).

Definition untouched (v : view) : Prop :=
  v_file v = None /\ ~ v_loaded v /\ ~ v_error v /\ (forall n, ~ v_children v n).

(** Everything has been done, except for reporting an error. *)
Definition done (p : path) (v : view) : Prop :=
  (skipped p <> Some false /\ v_file v = None /\ ~ v_loaded v /\ (forall n, ~ v_children v n)) \/
  (skipped p = Some false /\ loads p = None /\ v_file v = None /\ v_loaded v /\ (forall n, ~ v_children v n)) \/
  (skipped p = Some false /\ loads p <> None /\ v_file v = loads p /\ v_loaded v /\
   (is_directory (lexically_normal p) <> Some true -> forall n, ~ v_children v n) /\
   (is_directory (lexically_normal p) = Some true ->
      forall n, v_children v n <-> In n (fst (directory_entries (lexically_normal p))))).

Definition task_ok (t : scan_task) (v : view) : Prop :=
  match t with
  | Queued p | Looking p => untouched v
  | Loading p => untouched v /\ skipped p = Some false
  | Inserting p i => skipped p = Some false /\ loads p = Some i /\ v_file v = None /\ v_loaded v /\ ~ v_error v /\
      (forall n, ~ v_children v n)
  | Listing p names fails => skipped p = Some false /\ loads p <> None /\ v_file v = loads p /\ v_loaded v /\ ~ v_error v /\
      is_directory (lexically_normal p) = Some true /\
      exists before, directory_entries (lexically_normal p) = (before ++ names, fails) /\ (forall n, v_children v n <-> In n before)
  | Failing p => done p v /\ fault p /\ ~ v_error v
  | Ending p => done p v /\ (fault p <-> v_error v)
  end.

Lemma done_same : forall p v w, same_view v w -> done p v -> done p w.
Proof.
  intros p [f l e c] [f' l' e' c'] (H1 & H2 & H3 & H4) H. unfold done in *. simpl in *. subst f'.
  assert (Hc : (forall n, ~ c n) -> forall n, ~ c' n) by (intros X n Y; apply (X n); apply H4; exact Y).
  destruct H as [(A & B & C & D)|[(A & B & C & D & F)|(A & B & C & D & F & G)]].
  - left. repeat split; auto. tauto.
  - right. left. repeat split; auto. tauto.
  - right. right. split; [exact A|]. split; [exact B|]. split; [exact C|]. split; [tauto|]. split; [auto|].
    intros X n. rewrite <- H4. auto.
Qed.

Lemma untouched_same : forall v w, same_view v w -> untouched v -> untouched w.
Proof.
  intros [f l e c] [f' l' e' c'] (H1 & H2 & H3 & H4) (A & B & C & D). simpl in *. subst f'.
  repeat split; simpl; auto; try tauto. intros n X. apply (D n). apply H4. exact X.
Qed.

Lemma task_ok_same : forall t v w, same_view v w -> task_ok t v -> task_ok t w.
Proof.
  intros t v w Hv H. pose proof (untouched_same v w Hv) as Hu. pose proof (fun p => done_same p v w Hv) as Hd.
  destruct Hv as (H1 & H2 & H3 & H4).
  destruct t as [p|p|p|p info|p names fails|p|p]; simpl in *; auto.
  - tauto.
  - destruct H as (A & B & C & D & F & G). rewrite <- H1. split; [exact A|]. split; [exact B|]. split; [exact C|]. split; [tauto|]. split; [tauto|].
    intros n X. apply (G n). apply H4. exact X.
  - destruct H as (A & B & C & D & F & G & b & K & L). rewrite <- H1. split; [exact A|]. split; [exact B|]. split; [exact C|]. split; [tauto|]. split; [tauto|].
    split; [exact G|]. exists b. split; auto. intros n. rewrite <- H4. apply L.
  - destruct H as (A & B & C). split; [auto|]. tauto.
  - destruct H as (A & B). split; [auto|]. tauto.
Qed.

Record inv (s : scan_state) : Prop := {
  inv_sorted : sorted_map (scan_files s);
  inv_tasks : NoDup (map task_path (scan_tasks s));
  inv_submitted : NoDup (scan_submitted s);
  inv_root : In root (scan_submitted s);
  inv_found : forall p, In p (scan_submitted s) -> found p;
  inv_parent : forall c, In c (scan_submitted s) -> c = root \/ exists p n, In p (scan_submitted s) /\ ordinary n /\ c = child p n;
  inv_ok : forall t, In t (scan_tasks s) -> In (task_path t) (scan_submitted s) /\ task_ok t (view_of s (task_path t));
  inv_done : forall p, In p (scan_submitted s) -> ~ In p (map task_path (scan_tasks s)) -> task_ok (Ending p) (view_of s p);
  inv_files : forall k i, In (k, i) (scan_files s) -> exists p, In p (scan_submitted s) /\ k = lexically_normal p;
  inv_loaded : NoDup (scan_loaded s) /\ forall p, In p (scan_loaded s) -> In p (scan_submitted s);
  inv_errors : NoDup (scan_errors s) /\ forall p, In p (scan_errors s) -> In p (scan_submitted s);
  inv_counter : scan_counter s = length (scan_tasks s)
}.

Lemma init_inv : inv scan_init.
Proof.
  constructor; simpl; auto.
  - constructor.
  - repeat constructor; auto.
  - repeat constructor; auto.
  - intros p [<-|[]]. constructor.
  - intros c [<-|[]]. auto.
  - intros t [<-|[]]. simpl. split; auto. repeat split; simpl; auto.
    intros n (Hn & [E|[]]). apply (child_not_root root n); auto. constructor.
  - intros p [<-|[]] H. exfalso. apply H. auto.
  - contradiction.
  - split; [constructor|contradiction].
  - split; [constructor|contradiction].
Qed.

(** A task goes on, and possibly submits another one. *)
Lemma inv_update : forall s s' i t t' (new : list path),
    inv s -> nth_error (scan_tasks s) i = Some t -> task_path t' = task_path t ->
    scan_tasks s' = update i t' (scan_tasks s) ++ map Queued new ->
    scan_submitted s' = new ++ scan_submitted s ->
    (new = [] \/ exists c, new = [c] /\ ~ In c (scan_submitted s) /\ found c /\ exists n, ordinary n /\ c = child (task_path t) n) ->
    sorted_map (scan_files s') ->
    (forall q, In q (scan_submitted s) -> q <> task_path t -> same_view (view_of s q) (view_of s' q)) ->
    (forall q, In q new -> untouched (view_of s' q)) ->
    task_ok t' (view_of s' (task_path t)) ->
    (forall k j, In (k, j) (scan_files s') -> In (k, j) (scan_files s) \/ k = lexically_normal (task_path t)) ->
    (scan_loaded s' = scan_loaded s \/ (scan_loaded s' = task_path t :: scan_loaded s /\ ~ In (task_path t) (scan_loaded s))) ->
    (scan_errors s' = scan_errors s \/ (scan_errors s' = task_path t :: scan_errors s /\ ~ In (task_path t) (scan_errors s))) ->
    scan_counter s' = scan_counter s + length new ->
    inv s'.
Proof.
  intros s s' i t t' new I Hi Hp Et Es Hnew Hsorted Hview Hfresh Hok Hfiles Hl He Hc.
  destruct (update_split _ i t t' _ Hi) as (l1 & l2 & E1 & E2 & _). rewrite E2 in Et.
  assert (Hpt : In (task_path t) (scan_submitted s)) by (apply (inv_ok s I); rewrite E1; apply in_or_app; simpl; auto).
  assert (Hsub : forall x, In x (scan_submitted s) -> In x (scan_submitted s')) by (intros; rewrite Es; apply in_or_app; auto).
  assert (Hnd : NoDup (map task_path (l1 ++ t :: l2))) by (rewrite <- E1; apply (inv_tasks s I)).
  assert (Hpaths : map task_path (l1 ++ t' :: l2) = map task_path (scan_tasks s)) by (rewrite E1, !map_app; simpl; rewrite Hp; reflexivity).
  assert (Hmq : map task_path (map Queued new) = new) by (rewrite map_map; simpl; apply map_id).
  assert (Hother : forall x, In x l1 \/ In x l2 -> task_path x <> task_path t).
  { intros x Hx E. rewrite map_app in Hnd. simpl in Hnd. apply NoDup_remove_2 in Hnd. apply Hnd. rewrite <- E.
    apply in_or_app. destruct Hx; [left|right]; apply in_map; auto. }
  constructor.
  - exact Hsorted.
  - rewrite Et, map_app, Hpaths, Hmq. destruct Hnew as [->|(c & -> & Hc1 & _)]; [rewrite app_nil_r; apply (inv_tasks s I)|].
    apply NoDup_Add with (l := map task_path (scan_tasks s)) (a := c); [|split; [apply (inv_tasks s I)|]].
    + rewrite <- (app_nil_r (map task_path (scan_tasks s))) at 1. apply Add_app.
    + intro X. apply in_map_iff in X. destruct X as (x & <- & Hx). apply Hc1. apply (inv_ok s I x Hx).
  - rewrite Es. destruct Hnew as [->|(c & -> & Hc1 & _)]; [apply (inv_submitted s I)|]. constructor; auto. apply (inv_submitted s I).
  - apply Hsub. apply (inv_root s I).
  - intros p X. rewrite Es in X. apply in_app_or in X. destruct X as [X|X]; [|apply (inv_found s I); auto].
    destruct Hnew as [->|(c & -> & _ & Hf & _)]; [contradiction|]. destruct X as [<-|[]]. exact Hf.
  - intros x X. rewrite Es in X. apply in_app_or in X. destruct X as [X|X].
    + destruct Hnew as [->|(c & -> & _ & _ & n & Hn & Ec)]; [contradiction|]. destruct X as [<-|[]]. right. exists (task_path t), n. auto.
    + destruct (inv_parent s I x X) as [->|(p & n & Y & Z)]; auto. right. exists p, n. auto.
  - intros x Hx. rewrite Et in Hx. apply in_app_or in Hx. destruct Hx as [Hx|Hx].
    + assert (Hcase : x = t' \/ In x l1 \/ In x l2) by (apply in_app_or in Hx; destruct Hx as [Hx|[Hx|Hx]]; auto).
      destruct Hcase as [->|Hcase]; [rewrite Hp; split; [apply Hsub; exact Hpt|exact Hok]|].
      assert (Hin : In x (scan_tasks s)) by (rewrite E1; apply in_or_app; destruct Hcase; simpl; auto).
      destruct (inv_ok s I x Hin) as [X1 X2]. split; [auto|]. eapply task_ok_same; [|exact X2]. apply Hview; auto.
    + apply in_map_iff in Hx. destruct Hx as (c & <- & Hx). simpl. split; [rewrite Es; apply in_or_app; auto|]. apply Hfresh. exact Hx.
  - intros p Hps Hpn. rewrite Et, map_app, Hpaths, Hmq in Hpn. rewrite Es in Hps. apply in_app_or in Hps.
    destruct Hps as [Hps|Hps]; [exfalso; apply Hpn; apply in_or_app; auto|].
    assert (Hpn' : ~ In p (map task_path (scan_tasks s))) by (intro; apply Hpn; apply in_or_app; auto).
    eapply task_ok_same; [|apply (inv_done s I p Hps Hpn')]. apply Hview; auto.
    intros ->. apply Hpn'. rewrite E1. apply in_map. apply in_or_app. simpl. auto.
  - intros k j X. destruct (Hfiles k j X) as [Y|Y].
    + destruct (inv_files s I k j Y) as (p & Hp1 & Hp2). exists p. auto.
    + exists (task_path t). auto.
  - destruct (inv_loaded s I) as [X Y]. destruct Hl as [->|[-> Hl]]; split; auto; [constructor; auto|]. intros p [<-|Z]; auto.
  - destruct (inv_errors s I) as [X Y]. destruct He as [->|[-> He]]; split; auto; [constructor; auto|]. intros p [<-|Z]; auto.
  - rewrite Hc, Et, (inv_counter s I), E1, !app_length, map_length. simpl. lia.
Qed.

Lemma remove_at_split : forall A i (x : A) l, nth_error l i = Some x ->
    exists l1 l2, l = l1 ++ x :: l2 /\ remove_at i l = l1 ++ l2.
Proof.
  induction i as [|i IH]; intros x [|a l] H; simpl in *; try discriminate.
  - inversion H; subst. exists [], l. auto.
  - destruct (IH x l H) as (l1 & l2 & -> & ->). exists (a :: l1), l2. auto.
Qed.

Lemma same_view_refl : forall v, same_view v v.
Proof. intros v. repeat split; auto. Qed.

Lemma step_inv : forall i s s', inv s -> scan_task_step i s = Some s' -> inv s'.
Proof.
  intros i s s' I E. unfold ScanModel.scan_task_step in E. destruct (nth_error (scan_tasks s) i) as [t|] eqn:Ei; [|discriminate].
  assert (Hin : In t (scan_tasks s)) by (eapply nth_error_In; eauto).
  destruct (inv_ok s I t Hin) as [Hsub Hok]. pose proof (inv_found s I _ Hsub) as Hf. pose proof (inv_sorted s I) as Hs.
  assert (Hstay : forall t', task_path t' = task_path t -> task_ok t' (view_of s (task_path t)) -> inv (scan_become Info i t' s)).
  { intros t' Hp Hok'. apply (inv_update s (scan_become Info i t' s) i t t' []); simpl; auto.
    - rewrite app_nil_r. reflexivity.
    - intros q _ _. apply same_view_refl.
    - contradiction. }
  destruct t as [p|p|p|p info|p [|name names] fails|p|p]; simpl in Hsub, Hok, Hf, Hstay.
  - destruct (Nat.ltb (active Info (scan_tasks s)) workers); [|discriminate]. inversion E; subst. apply Hstay; auto.
  - destruct Hok as (U1 & U2 & U3 & U4). simpl in *. destruct (skipped p) as [[|]|] eqn:Esk.
    + inversion E; subst. apply Hstay; auto. simpl. split.
      * left. simpl. repeat split; auto. congruence.
      * split; [|tauto]. intros [X|[X _]]; congruence.
    + rewrite U1 in E. inversion E; subst. apply Hstay; auto. simpl. repeat split; auto.
    + inversion E; subst. apply Hstay; auto. simpl. repeat split; auto.
      * left. simpl. repeat split; auto. congruence.
      * left. exact Esk.
  - destruct Hok as [(U1 & U2 & U3 & U4) Esk]. simpl in *. inversion E; subst; clear E.
    eapply (inv_update s _ i (Loading p) (match loads p with Some info => Inserting p info | None => Failing p end) []); simpl; eauto.
    + destruct (loads p); reflexivity.
    + rewrite app_nil_r. reflexivity.
    + intros q _ Hq. split; [reflexivity|]. split; [|split]; simpl; [|tauto|intros; tauto]. split; auto. intros [<-|X]; [congruence|auto].
    + contradiction.
    + destruct (loads p) as [info|] eqn:El; simpl; unfold view_of; simpl; repeat split; auto.
      * right. left. simpl. repeat split; auto.
      * right. split; auto.
  - destruct Hok as (Esk & El & U1 & U2 & U3 & U4). simpl in *. rewrite U1 in E. inversion E; subst; clear E.
    eapply (inv_update s _ i (Inserting p info) (after_insert p) []); simpl; eauto.
    + unfold ScanModel.after_insert. destruct (is_directory (lexically_normal p)) as [[|]|]; auto.
      destruct (directory_entries (lexically_normal p)); reflexivity.
    + rewrite app_nil_r. reflexivity.
    + apply map_insert_sorted. exact Hs.
    + intros q Hq Hne. split; [|split; [|split]]; simpl; [|tauto|tauto|intros; tauto]. symmetry. apply map_find_insert_other; auto.
      intro X. apply Hne. apply location_unique; auto. apply (inv_found s I). exact Hq.
    + contradiction.
    + assert (Efind : map_find (lexically_normal p) (map_insert (lexically_normal p) info (scan_files s)) = Some info)
        by (apply map_find_insert_same; auto).
      unfold ScanModel.after_insert. destruct (is_directory (lexically_normal p)) as [[|]|] eqn:Edir.
      * destruct (directory_entries (lexically_normal p)) as [names fails] eqn:Een. simpl. rewrite El, Efind.
        repeat split; auto; [congruence|]. exists []. split; [exact Een|]. intros n. split; [apply U4|contradiction].
      * simpl. split.
        -- right. right. simpl. rewrite El, Efind. repeat split; auto; congruence.
        -- split; [|tauto]. unfold fault. rewrite El. intuition congruence.
      * simpl. split; [|split; auto].
        -- right. right. simpl. rewrite El, Efind. repeat split; auto; congruence.
        -- right. split; auto. right. split; [congruence|auto].
    + intros k j X. apply map_insert_in in X; auto. tauto.
  - inversion E; subst; clear E. destruct Hok as (Esk & El & U1 & U2 & U3 & Edir & before & Een & U4).
    rewrite app_nil_r in Een.
    assert (Hd : done p (view_of s p)).
    { right. right. split; [exact Esk|]. split; [exact El|]. split; [exact U1|]. split; [exact U2|].
      split; [congruence|]. intros _ n. rewrite Een. apply U4. }
    destruct fails; apply Hstay; auto; simpl.
    + split; [exact Hd|]. split; [|exact U3]. right. split; auto. right. split; auto. right. rewrite Een. auto.
    + split; auto. split; [|intro X; contradiction]. unfold fault. rewrite Een. simpl. intuition congruence.
  - inversion E; subst; clear E. destruct Hok as (Esk & El & U1 & U2 & U3 & Edir & before & Een & U4).
    destruct (Hentries (lexically_normal p)) as [Hord Hnodup]. rewrite Een in Hord, Hnodup. simpl in Hord, Hnodup.
    assert (Hname : ordinary name) by (rewrite Forall_forall in Hord; apply Hord; apply in_or_app; simpl; auto).
    assert (Hfresh : ~ In (child p name) (scan_submitted s)).
    { intro X. assert (Y : In name before) by (apply U4; split; auto). apply NoDup_remove_2 in Hnodup. apply Hnodup. apply in_or_app. auto. }
    assert (Hfc : found (child p name)).
    { apply skipped_false in Esk. destruct (loads p) as [info|] eqn:El'; [|congruence].
      eapply found_entry; eauto; try tauto. rewrite Een. simpl. apply in_or_app. simpl. auto. }
    fold (child p name). eapply (inv_update s _ i (Listing p (name :: names) fails) (Listing p names fails) [child p name]); simpl; eauto.
    + right. exists (child p name). repeat split; auto. exists name. auto.
    + intros q Hq Hne. split; [|split; [|split]]; simpl; [reflexivity|tauto|tauto|]. intros n. split; [tauto|].
      intros [Hn [X|X]]; [|auto]. exfalso. apply Hne. apply (child_unique p q name n) in X; auto.
      * symmetry. tauto.
      * apply (inv_found s I). exact Hq.
    + intros q [<-|[]]. destruct (inv_loaded s I) as [_ Hl]. destruct (inv_errors s I) as [_ He]. repeat split; simpl.
      * apply map_find_none; auto. intro X. apply in_map_iff in X. destruct X as ([k j] & X1 & X2). simpl in X1. subst k.
        destruct (inv_files s I _ _ X2) as (q & Hq & Eq). apply location_unique in Eq; auto.
        -- subst q. auto.
        -- apply (inv_found s I). exact Hq.
      * auto.
      * auto.
      * intros n [Hn [X|X]].
        -- (* an entry of the new directory is not the directory itself *)
           destruct (child_normal (child p name) n Hfc Hn) as (d & Hd & E1 & E2). rewrite <- X in E2. rewrite E1 in E2.
           apply inside_inj in E2; auto; [|apply Forall_app; auto].
           apply (f_equal (@length _)) in E2. rewrite app_length in E2. simpl in E2. lia.
        -- (* nor has any of them been submitted: the directory would have been *)
           destruct (inv_parent s I _ X) as [Y|(q & m & Hq & Hm & Y)]; [apply child_not_root in Y; auto|].
           apply child_unique in Y; auto; [|apply (inv_found s I); exact Hq]. destruct Y as [Y _]. subst q. auto.
    + repeat split; auto. exists (before ++ [name]). rewrite <- app_assoc. split; auto. intros n. rewrite in_app_iff. simpl. split.
      * intros [Hn [X|X]]; [apply child_unique in X; auto; right; left; tauto|]. left. apply U4. split; auto.
      * intros [X|[<-|[]]]; [apply U4 in X; destruct X; auto|auto].
    + lia.
  - inversion E; subst; clear E. destruct Hok as (Hd & Hfault & He). simpl in *.
    eapply (inv_update s _ i (Failing p) (Ending p) []); simpl; eauto.
    + rewrite app_nil_r. reflexivity.
    + intros q _ Hq. split; [|split; [|split]]; simpl; [reflexivity|tauto| |intros; tauto]. split; auto. intros [<-|X]; [congruence|auto].
    + contradiction.
    + split; [exact Hd|]. simpl. tauto.
  - inversion E; subst; clear E. destruct (remove_at_split _ i _ _ Ei) as (l1 & l2 & E1 & E2).
    constructor; simpl; try apply I.
    + rewrite E2. pose proof (inv_tasks s I) as X. rewrite E1, map_app in X. simpl in X. rewrite map_app. eapply NoDup_remove_1. exact X.
    + intros x Hx. rewrite E2 in Hx. apply (inv_ok s I). rewrite E1. apply in_app_or in Hx. apply in_or_app. simpl. tauto.
    + intros q Hq Hn. destruct (path_eq_dec q p) as [->|Hne]; [exact Hok|].
      apply (inv_done s I q Hq). intro X. apply Hn. rewrite E2, map_app. rewrite E1, map_app in X. apply in_or_app.
      apply in_app_or in X. simpl in X. destruct X as [X|[X|X]]; auto. congruence.
    + rewrite E2, (inv_counter s I), E1, !app_length. simpl. lia.
Qed.

Definition main_ok (s : scan_state) : Prop :=
  match scan_owner s with
  | MainChecking => True
  | MainSleeping => scan_tasks s <> []
  | MainReturned files => scan_tasks s = [] /\ files = scan_files s /\ scan_errors s = []
  | MainThrew errors => scan_tasks s = [] /\ errors = scan_errors s /\ errors <> []
  end.

Lemma notify_ok : forall m, match scan_notify Info m with MainSleeping => False | _ => True end.
Proof. intros []; exact I. Qed.

Lemma step_main : forall c s s', inv s -> main_ok s -> scan_step c s = Some s' -> inv s' /\ main_ok s'.
Proof.
  intros c s s' I M E. destruct c as [i| |].
  - split; [eapply step_inv; eauto|]. simpl in E. unfold ScanModel.scan_task_step in E.
    destruct (nth_error (scan_tasks s) i) as [t|] eqn:Ei; [|discriminate].
    assert (Hne : scan_tasks s <> []) by (destruct (scan_tasks s); [destruct i; discriminate|discriminate]).
    assert (Hup : forall t', update i t' (scan_tasks s) <> []).
    { intros t' X. apply (f_equal (@length _)) in X. rewrite update_length in X. destruct (scan_tasks s); [congruence|discriminate]. }
    assert (Hm : match scan_owner s with MainChecking | MainSleeping => True | _ => False end).
    { unfold main_ok in M. destruct (scan_owner s); auto; destruct M; congruence. }
    assert (Hb : forall f c e t' sub ld, main_ok (mk_scan Info f c e (update i t' (scan_tasks s)) (scan_owner s) sub ld)).
    { intros. unfold main_ok. simpl. destruct (scan_owner s); auto; contradiction. }
    destruct t as [p|p|p|p info|p [|name names] fails|p|p].
    + destruct (Nat.ltb _ _); [|discriminate]. inversion E; subst. apply Hb.
    + destruct (skipped p) as [[|]|]; [| |]; try (inversion E; subst; apply Hb).
      destruct (map_find _ _); inversion E; subst; apply Hb.
    + inversion E; subst. apply Hb.
    + destruct (map_find _ _); inversion E; subst; apply Hb.
    + inversion E; subst. apply Hb.
    + inversion E; subst. unfold main_ok. simpl. destruct (scan_owner s); simpl; auto; contradiction.
    + inversion E; subst. apply Hb.
    + inversion E; subst. unfold main_ok. simpl. destruct (scan_owner s); simpl; auto; contradiction.
  - simpl in E. unfold scan_main_step in E. unfold main_ok in M. destruct (scan_owner s) eqn:Eo; try discriminate.
    destruct (Nat.eqb (scan_counter s) 0) eqn:Ec.
    + apply Nat.eqb_eq in Ec. rewrite (inv_counter s I) in Ec. apply length_zero_iff_nil in Ec.
      destruct (scan_errors s) as [|e es] eqn:Ee; inversion E; subst.
      * split; [|unfold main_ok; simpl; auto]. destruct I as [A1 A2 A3 A4 A5 A6 A7 A8 A9 A10 A11 A12]. rewrite Ee in *. constructor; simpl; auto; unfold view_of in *; simpl in *; rewrite ?Ee in *; auto.
      * split; [|unfold main_ok; simpl; repeat split; auto; discriminate]. destruct I as [A1 A2 A3 A4 A5 A6 A7 A8 A9 A10 A11 A12]. rewrite Ee in *. constructor; simpl; auto; unfold view_of in *; simpl in *; rewrite ?Ee in *; auto.
    + inversion E; subst. split; [destruct I; constructor; auto|]. unfold main_ok. simpl. intro X. apply Nat.eqb_neq in Ec. apply Ec.
      rewrite (inv_counter s I), X. reflexivity.
  - simpl in E. destruct (scan_owner s) eqn:Eo; try discriminate. inversion E; subst. split; [destruct I; constructor; auto|]. exact Logic.I.
Qed.

Lemma run_inv : forall cs s s', inv s -> main_ok s -> scan_run cs s = Some s' -> inv s' /\ main_ok s'.
Proof.
  induction cs as [|c cs IH]; intros s s' I M E; simpl in E; [inversion E; subst; auto|].
  destruct (scan_step c s) as [s1|] eqn:E1; [|discriminate]. destruct (step_main c s s1 I M E1). eauto.
Qed.

Lemma all_found : forall s, inv s -> scan_tasks s = [] -> forall p, found p -> In p (scan_submitted s).
Proof.
  intros s I E p H. induction H as [|p i name Hp IH H1 H2 H3 H4 H5]; [apply (inv_root s I)|].
  assert (Hd : task_ok (Ending p) (view_of s p)) by (apply (inv_done s I); auto; rewrite E; simpl; auto).
  destruct Hd as [[Hd|[Hd|Hd]] _].
  - destruct Hd as (X & _). exfalso. apply X. apply skipped_false. auto.
  - destruct Hd as (_ & X & _). congruence.
  - destruct Hd as (_ & _ & _ & _ & _ & X). apply (X H4) in H5. destruct H5 as [_ H5]. exact H5.
Qed.

(** What is known when all tasks are done *)
Lemma finished : forall s, inv s -> scan_tasks s = [] ->
    (NoDup (scan_loaded s) /\ forall p, In p (scan_loaded s) <-> belongs p) /\
    (NoDup (scan_errors s) /\ forall p, In p (scan_errors s) <-> faulty p) /\
    (sorted_map (scan_files s) /\ forall k i, In (k, i) (scan_files s) <-> exists p, belongs p /\ k = lexically_normal p /\ loads p = Some i).
Proof.
  intros s I E. assert (Hd : forall p, In p (scan_submitted s) -> task_ok (Ending p) (view_of s p)).
  { intros p Hp. apply (inv_done s I); auto. rewrite E. simpl. auto. }
  destruct (inv_loaded s I) as [L1 L2]. destruct (inv_errors s I) as [E1 E2].
  repeat split; auto.
  - apply L2 in H. apply (inv_found s I). exact H.
  - destruct (Hd p (L2 p H)) as [[X|[X|X]] _]; simpl in X.
    + tauto.
    + destruct X as (X & _). apply skipped_false in X. tauto.
    + destruct X as (X & _). apply skipped_false in X. tauto.
  - destruct (Hd p (L2 p H)) as [[X|[X|X]] _]; simpl in X.
    + tauto.
    + destruct X as (X & _). apply skipped_false in X. tauto.
    + destruct X as (X & _). apply skipped_false in X. tauto.
  - intros (Hf & Hb). pose proof (proj2 (skipped_false p) Hb) as Hs.
    destruct (Hd p (all_found s I E p Hf)) as [[X|[X|X]] _]; simpl in X; tauto.
  - intro H. apply fault_faulty; [apply (inv_found s I); auto|]. destruct (Hd p (E2 p H)) as [_ X]. apply X. exact H.
  - intro H. assert (Hf : found p) by (destruct H as [[H _]|[[H _] _]]; exact H). apply fault_faulty in H; auto.
    destruct (Hd p (all_found s I E p Hf)) as [_ X]. apply X. exact H.
  - apply (inv_sorted s I).
  - intro H. destruct (inv_files s I k i H) as (p & Hp & ->). exists p. apply map_find_in in H; [|apply (inv_sorted s I)].
    destruct (Hd p Hp) as [[X|[X|X]] _]; simpl in X; rewrite H in X.
    + exfalso. destruct X as (_ & X & _). discriminate.
    + exfalso. destruct X as (_ & _ & X & _). discriminate.
    + destruct X as (X & _ & Y & _). apply skipped_false in X. pose proof (inv_found s I p Hp). repeat split; auto; tauto.
  - intros (p & (Hf & Hb) & -> & Hl). apply map_find_in; [apply (inv_sorted s I)|].
    pose proof (proj2 (skipped_false p) Hb) as Hs.
    destruct (Hd p (all_found s I E p Hf)) as [[X|[X|X]] _]; simpl in X.
    + tauto.
    + destruct X as (_ & X & _). congruence.
    + destruct X as (_ & _ & X & _). congruence.
Qed.

Theorem scan_returns_all : forall cs s files, scan_run cs scan_init = Some s -> scan_owner s = MainReturned files ->
    scan_tasks s = [] /\ (forall p, ~ faulty p) /\
    sorted_map files /\ (forall k i, In (k, i) files <-> exists p, belongs p /\ k = lexically_normal p /\ loads p = Some i) /\
    NoDup (scan_loaded s) /\ (forall p, In p (scan_loaded s) <-> belongs p).
Proof.
  intros cs s files H Ho. destruct (run_inv cs scan_init s init_inv Logic.I H) as [I M]. unfold main_ok in M. rewrite Ho in M.
  destruct M as (M1 & -> & M2). destruct (finished s I M1) as ((F1 & F2) & (_ & F3) & F4 & F5). 
  split; [exact M1|]. split; [|auto]. intros p X. apply F3 in X. rewrite M2 in X. exact X.
Qed.

Theorem scan_reports_all : forall cs s errors, scan_run cs scan_init = Some s -> scan_owner s = MainThrew errors ->
    scan_tasks s = [] /\ errors <> [] /\ NoDup errors /\ forall p, In p errors <-> faulty p.
Proof.
  intros cs s errors H Ho. destruct (run_inv cs scan_init s init_inv Logic.I H) as [I M]. unfold main_ok in M. rewrite Ho in M.
  destruct M as (M1 & -> & M2). destruct (finished s I M1) as (_ & (F1 & F2) & _). auto.
Qed.

(** * Termination *)

Theorem scan_not_stuck : forall cs s, 0 < workers -> scan_run cs scan_init = Some s ->
    (exists files, scan_owner s = MainReturned files) \/ (exists errors, scan_owner s = MainThrew errors) \/
    (exists i s', scan_step (TaskStep i) s = Some s') \/ (exists s', scan_tasks s = [] /\ scan_step MainStep s = Some s').
Proof.
  intros cs s Hw H. destruct (run_inv cs scan_init s init_inv Logic.I H) as [I M].
  destruct (scan_tasks s) as [|t ts] eqn:E.
  - unfold main_ok in M. destruct (scan_owner s) as [| |f|e] eqn:Eo; eauto; [|congruence].
    right. right. right. simpl. unfold scan_main_step. rewrite Eo, (inv_counter s I), E. simpl. destruct (scan_errors s); eauto.
  - right. right. left.
    (* a task that is active can go on, and if there is none, any of them can start *)
    assert (Hgo : forall i t', nth_error (scan_tasks s) i = Some t' -> is_queued Info t' = false -> exists s', scan_step (TaskStep i) s = Some s').
    { intros i t' Hi Hq. simpl. unfold ScanModel.scan_task_step. rewrite Hi. destruct t' as [p|p|p|p info|p [|name names] fails|p|p]; eauto; try discriminate.
      - destruct (skipped p) as [[|]|]; eauto. destruct (map_find _ _); eauto.
      - destruct (map_find _ _); eauto. }
    destruct (existsb (fun x => negb (is_queued Info x)) (scan_tasks s)) eqn:Ex.
    + apply existsb_exists in Ex. destruct Ex as (x & Hx & Hq). apply In_nth_error in Hx. destruct Hx as [i Hi]. exists i.
      eapply Hgo; eauto. destruct (is_queued Info x); [discriminate|reflexivity].
    + assert (Ha : active Info (scan_tasks s) = 0).
      { unfold active. replace (filter (fun t0 => negb (is_queued Info t0)) (scan_tasks s)) with (@nil scan_task); auto.
        clear - Ex. induction (scan_tasks s) as [|x l IH]; auto. simpl in *. apply orb_false_iff in Ex. destruct Ex as [-> Ex]. auto. }
      exists 0. assert (Hq : is_queued Info t = true).
      { rewrite E in Ex. simpl in Ex. destruct (is_queued Info t); auto. }
      destruct t; try discriminate. simpl. unfold ScanModel.scan_task_step. rewrite Ha, E. simpl.
      rewrite (proj2 (Nat.ltb_lt 0 workers) Hw). eauto.
Qed.

Variable size : path -> nat.
Hypothesis Hsize : finite_tree directory_entries size.

Definition rest (p : path) (names : list str) : nat := sum (map (fun n => S (size (child p n))) names).

Definition weight (t : scan_task) : nat :=
  match t with
  | Queued p => size p
  | Looking p => size p - 1
  | Loading p => size p - 2
  | Inserting p _ => size p - 3
  | Listing p names _ => 3 + rest p names
  | Failing _ => 2
  | Ending _ => 1
  end.

Lemma size_rest : forall p, 8 + rest p (fst (directory_entries (lexically_normal p))) <= size p.
Proof. intros p. apply Hsize. Qed.

Lemma sum_app : forall a b, sum (a ++ b) = sum a + sum b.
Proof. induction a as [|x a IH]; intros b; simpl; auto. unfold sum in *. simpl. rewrite IH. lia. Qed.

Lemma weight_decreases : forall i s s', scan_task_step i s = Some s' ->
    S (sum (map weight (scan_tasks s'))) <= sum (map weight (scan_tasks s)).
Proof.
  intros i s s' E. unfold ScanModel.scan_task_step in E. destruct (nth_error (scan_tasks s) i) as [t|] eqn:Ei; [|discriminate].
  assert (Hup : forall t', S (weight t') <= weight t -> S (sum (map weight (update i t' (scan_tasks s)))) <= sum (map weight (scan_tasks s))).
  { intros t' Hw. destruct (update_split _ i t t' _ Ei) as (l1 & l2 & E1 & E2 & _). rewrite E1 at 2. rewrite E2, !map_app, !sum_app. unfold sum. simpl. lia. }
  destruct t as [p|p|p|p info|p [|name names] fails|p|p]; try (pose proof (size_rest p) as Hr).
  - destruct (Nat.ltb _ _); [|discriminate]. inversion E; subst. apply Hup. simpl. lia.
  - destruct (skipped p) as [[|]|]; [| |]; try (inversion E; subst; apply Hup; simpl; lia).
    destruct (map_find _ _); inversion E; subst; apply Hup; simpl; lia.
  - inversion E; subst. simpl. apply Hup. destruct (loads p); simpl; lia.
  - destruct (map_find _ _); inversion E; subst; apply Hup; [simpl; lia|]. unfold ScanModel.after_insert.
    destruct (is_directory (lexically_normal p)) as [[|]|]; [|simpl; lia|simpl; lia].
    destruct (directory_entries (lexically_normal p)) as [names fails]. simpl in *. lia.
  - inversion E; subst. apply Hup. destruct fails; simpl; lia.
  - inversion E; subst. cbn [scan_tasks]. destruct (update_split _ i _ (Listing p names fails) _ Ei) as (l1 & l2 & E1 & E2 & _).
    assert (Hw : weight (Listing p (name :: names) fails) = weight (Listing p names fails) + S (size (child p name))).
    { simpl. unfold rest. simpl. lia. }
    rewrite E2, E1, !map_app, !sum_app. cbn [map]. unfold sum. cbn [fold_right]. rewrite Hw. unfold child. simpl. lia.
  - inversion E; subst. apply Hup. simpl. lia.
  - inversion E; subst. destruct (remove_at_split _ i _ _ Ei) as (l1 & l2 & E1 & E2). cbn [scan_tasks]. rewrite E1 at 2. rewrite E2, !map_app, !sum_app.
    unfold sum. simpl. lia.
Qed.

Theorem scan_terminates : forall cs s, scan_run cs scan_init = Some s -> task_steps cs <= size root.
Proof.
  assert (H : forall cs s s', scan_run cs s = Some s' -> task_steps cs + sum (map weight (scan_tasks s')) <= sum (map weight (scan_tasks s))).
  { induction cs as [|c cs IH]; intros s s' E; simpl in E; [inversion E; subst; simpl; lia|].
    destruct (scan_step c s) as [s1|] eqn:E1; [|discriminate]. specialize (IH s1 s' E). destruct c as [i| |]; simpl in *.
    - apply weight_decreases in E1. lia.
    - unfold scan_main_step in E1. destruct (scan_owner s); try discriminate. destruct (Nat.eqb _ _); [destruct (scan_errors s)|]; inversion E1; subst; exact IH.
    - destruct (scan_owner s); try discriminate. inversion E1; subst. exact IH. }
  intros cs s E. specialize (H cs _ _ E). simpl in H. unfold sum in H. simpl in H. lia.
Qed.
End Scan.
