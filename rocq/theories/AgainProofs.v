(** Proofs about scanning a project again after it has been built. *)

From Coq Require Import Ascii ZArith Bool Arith Lia.
From Coq Require Import List Sorted.
From Verif Require Import Str Path SMap PathProofs DbModel JsonModel LoadModel LoadSpec LoadProofs LocProofs ScanModel ScanSpec ScanProofs.
From Verif Require Import DepGraphSpec FileListModel FileListSpec SchedModel SchedSpec.
From Verif Require Import TaskListModel TaskListSpec BuildModel BuildSpec TreeModel TreeSpec TreeProofs AgainSpec.
Import ListNotations.

Lemma sorted_same : forall (V : Type) (a b : smap V), sorted_map a -> sorted_map b ->
  (forall k v, In (k, v) a <-> In (k, v) b) -> a = b.
Proof.
  unfold sorted_map, keys. intros V. induction a as [|[k v] a IH]; intros b Ha Hb H.
  - destruct b as [|[k v] b]; [reflexivity|]. destruct (proj2 (H k v) (or_introl eq_refl)).
  - destruct b as [|[k' v'] b]; [destruct (proj1 (H k v) (or_introl eq_refl))|].
    cbn [map fst] in Ha, Hb. inversion Ha as [|? ? Ha1 Ha2]; inversion Hb as [|? ? Hb1 Hb2]; subst.
    rewrite Forall_forall in Ha2, Hb2.
    assert (E : (k, v) = (k', v')).
    { destruct (proj1 (H k v) (or_introl eq_refl)) as [E|E]; [symmetry; exact E|].
      destruct (proj2 (H k' v') (or_introl eq_refl)) as [E'|E']; [exact E'|]. exfalso.
      apply (in_map fst) in E. apply (in_map fst) in E'. apply Hb2 in E. apply Ha2 in E'. cbn [fst] in *.
      exact (path_lt_irrefl _ (path_lt_trans _ _ _ E E')). }
    injection E as -> ->. f_equal. apply IH; [assumption|assumption|]. intros x y. split; intro Q.
    + destruct (proj1 (H x y) (or_intror Q)) as [E|E]; [|exact E]. injection E as <- <-.
      apply (in_map fst) in Q. apply Ha2 in Q. destruct (path_lt_irrefl _ Q).
    + destruct (proj2 (H x y) (or_intror Q)) as [E|E]; [|exact E]. injection E as <- <-.
      apply (in_map fst) in Q. apply Hb2 in Q. destruct (path_lt_irrefl _ Q).
Qed.

Section Again.
Variables s t : path.
Variable parse : str -> option compound.
Variable resolve : path -> option (path * origin).
Variable configure : path -> compound -> option compound.
Variable script_tags : compiler -> path -> option compound.
Variable dir_compiler : compiler.
Variable loaders : list (str * loader).
Variables filter_name filter_path : str -> bool.
Variable recursive : bool.
Hypothesis Hs : directory_ok s.
Hypothesis Hout : left_out s t filter_name filter_path.

Notation load_file D content := (load_file s t D content parse resolve configure script_tags dir_compiler loaders).
Notation ignored D := (ignored (file_is_directory D) filter_name filter_path recursive s).
Notation unreadable D := (unreadable (file_is_directory D) recursive s).
Notation found D entries content :=
  (found source_file_info (file_is_directory D) entries (load_file D content) filter_name filter_path recursive s).
Notation belongs D entries content :=
  (belongs source_file_info (file_is_directory D) entries (load_file D content) filter_name filter_path recursive s).

Let root_ok : directory_ok (lexically_normal s).
Proof. rewrite (source_normal s Hs). exact Hs. Qed.

Lemma location : forall D entries content, proper_entries entries -> forall p, found D entries content p ->
  exists d, Forall ordinary d /\ lexically_normal p = inside s d /\
    (d = [] -> p = s) /\ (forall d' n, d = d' ++ [n] -> p = append (inside s d') (mk_path false [n])).
Proof.
  intros D entries content He p H. destruct (found_location _ _ _ _ _ _ _ _ root_ok He p H) as (d & A & B & C & E).
  rewrite (source_normal s Hs) in B, E. eauto.
Qed.

(** No directory on the way to a file that belongs to the project is filtered out. *)
Lemma unfiltered : forall D entries content, proper_entries entries -> forall p, found D entries content p -> ~ ignored D p ->
  forall d, Forall ordinary d -> lexically_normal p = inside s d -> forall d1 n d2, d = d1 ++ n :: d2 ->
  filter_name n = false /\ filter_path (path_string (lexically_relative (append (inside s d1) (mk_path false [n])) s)) = false.
Proof.
  intros D entries content He p H. induction H as [|p0 i name Hp0 IH Hig Hun Hl Hdir Hname]; intros Hni d Ho Ed d1 n d2 Esplit.
  - rewrite (source_normal s Hs), <- (inside_self s Hs) in Ed. rewrite (inside_self s Hs) in Ed at 2.
    apply inside_inj in Ed; [|constructor|exact Ho]. rewrite <- Ed in Esplit. destruct d1; discriminate Esplit.
  - destruct (location D entries content He p0 Hp0) as (d0 & Hd0 & E0 & _).
    assert (On : ordinary name).
    { destruct (He (lexically_normal p0)) as (Q & _). rewrite Forall_forall in Q. apply Q, Hname. }
    assert (Hroot : append (lexically_normal p0) (mk_path false [name]) <> s).
    { apply (child_not_root _ _ _ _ _ _ _ _ root_ok He p0 name Hp0 On). }
    rewrite E0 in Ed. rewrite normal_entry in Ed; [|exact Hs|exact Hd0|constructor; [exact On|constructor]|discriminate].
    apply inside_inj in Ed; [|apply Forall_app; auto|exact Ho]. rewrite <- Ed in Esplit.
    destruct d2 as [|x d2'] using rev_ind.
    + apply app_inj_tail in Esplit. destruct Esplit as [-> ->].
      unfold ScanSpec.ignored in Hni. rewrite E0 in Hni, Hroot.
      assert (Ef : filename (append (inside s d1) (mk_path false [n])) = n).
      { unfold filename, append. cbn [absolute comps]. cbn. apply last_last. }
      rewrite Ef in Hni. split.
      * destruct (filter_name n); [|reflexivity]. destruct Hni. auto.
      * destruct (filter_path _); [|reflexivity]. destruct Hni. auto.
    + clear IHd2'. rewrite app_comm_cons, app_assoc in Esplit. apply app_inj_tail in Esplit. destruct Esplit as [-> ->].
      eapply IH; eauto.
Qed.

Section Worlds.
Variables D D' : disk.
Variables entries entries' : path -> list str * bool.
Variables content content' : path -> option str.
Hypothesis He : proper_entries entries.
Hypothesis He' : proper_entries entries'.
Hypothesis Hlist : listing s D entries.
Hypothesis Hlist' : listing s D' entries'.
Hypothesis Hsame : forall p, ~ below t p -> untouched D D' p.
Hypothesis Hcontent : forall p, ~ below t (lexically_normal p) -> content' p = content p.

Lemma not_below : forall p, found D entries content p -> ~ ignored D p -> ~ below t (lexically_normal p).
Proof.
  intros p H Hni Hb. destruct (location D entries content He p H) as (d & Hd & Ed & _). rewrite Ed in Hb.
  destruct (Hout d Hd Hb) as (d1 & n & d2 & E & Hf).
  destruct (unfiltered D entries content He p H Hni d Hd Ed d1 n d2 E) as (F1 & F2). rewrite F1, F2 in Hf. destruct Hf; discriminate.
Qed.

Lemma kind_same : forall p, ~ below t (lexically_normal p) -> file_is_directory D' p = file_is_directory D p.
Proof.
  intros p H. unfold file_is_directory, is_directory_or_throw.
  destruct (Hsame _ H) as [E|[(a & E1) (b & E2)]]; [rewrite E; reflexivity|]. rewrite E1, E2. reflexivity.
Qed.

Lemma load_same : forall p, ~ below t (lexically_normal p) -> load_file D' content' p = load_file D content p.
Proof.
  intros p H. unfold TreeModel.load_file. rewrite (kind_same p H), (Hcontent p H). reflexivity.
Qed.

Lemma belongs_again : forall p, belongs D entries content p -> belongs D' entries' content' p.
Proof.
  assert (Main : forall p, found D entries content p -> ~ ignored D p -> found D' entries' content' p).
  { intros p H. induction H as [|p0 i name Hp0 IH Hig Hun Hl Hdir Hname]; intro Hni; [constructor|].
    pose proof (not_below p0 Hp0 Hig) as Hnb.
    destruct (location D entries content He p0 Hp0) as (d0 & Hd0 & E0 & _).
    assert (On : ordinary name).
    { destruct (He (lexically_normal p0)) as (Q & _). rewrite Forall_forall in Q. apply Q, Hname. }
    assert (Hd : Forall ordinary (d0 ++ [name])) by (apply Forall_app; auto).
    assert (En : lexically_normal (inside s d0) = inside s d0) by (apply (inside_is_normal s d0 []); assumption).
    assert (Hnb2 : ~ below t (lexically_normal (lexically_normal p0))) by (rewrite E0, En, <- E0; exact Hnb).
    assert (Hchild : ~ below t (inside s (d0 ++ [name]))).
    { rewrite <- (normal_entry s d0 [name] Hs Hd0) by (try constructor; try assumption; try constructor; discriminate).
      rewrite <- E0. apply not_below; [|exact Hni]. eapply found_entry; eassumption. }
    eapply found_entry; [apply IH; exact Hig| | | | |].
    - unfold ScanSpec.ignored in *. rewrite (kind_same p0 Hnb). exact Hig.
    - unfold ScanSpec.unreadable in *. rewrite (kind_same p0 Hnb). exact Hun.
    - rewrite (load_same p0 Hnb). exact Hl.
    - rewrite (kind_same _ Hnb2). exact Hdir.
    - rewrite E0 in *. assert (HdirD : directory D (inside s d0)).
      { apply is_directory_exists. unfold file_is_directory in Hdir. rewrite En in Hdir. exact Hdir. }
      assert (HdirD' : directory D' (inside s d0)).
      { destruct (Hsame _ Hnb) as [E|[_ E]]; [unfold directory; rewrite E; exact HdirD|exact E]. }
      apply (Hlist' d0 name Hd HdirD'). apply (Hlist d0 name Hd HdirD) in Hname.
      destruct (Hsame _ Hchild) as [E|[_ (b & E)]]; [rewrite E; exact Hname|rewrite E; discriminate]. }
  intros p (H1 & H2 & H3). pose proof (not_below p H1 H2) as Hnb. split; [apply Main; assumption|].
  unfold ScanSpec.ignored, ScanSpec.unreadable in *. rewrite (kind_same p Hnb). split; assumption.
Qed.
End Worlds.

Lemma untouched_sym : forall D D' p, untouched D D' p -> untouched D' D p.
Proof. intros D D' p [H|[H1 H2]]; [left; congruence|right; split; assumption]. Qed.

Theorem scan_again : forall D D' entries entries' content content' workers workers' cs cs' st st' fs fs',
  proper_entries entries -> proper_entries entries' -> listing s D entries -> listing s D' entries' ->
  (forall p, ~ below t p -> untouched D D' p) ->
  (forall p, ~ below t (lexically_normal p) -> content' p = content p) ->
  scan_tree s t D entries content parse resolve configure script_tags dir_compiler loaders filter_name filter_path recursive workers cs = Some st ->
  scan_tree s t D' entries' content' parse resolve configure script_tags dir_compiler loaders filter_name filter_path recursive workers' cs' = Some st' ->
  scan_owner st = MainReturned fs -> scan_owner st' = MainReturned fs' -> fs' = fs.
Proof.
  intros D D' entries entries' content content' workers workers' cs cs' st st' fs fs' He He' Hl Hl' Hsame Hc R R' O O'.
  destruct (scan_returns_all _ _ _ _ _ _ _ _ _ root_ok He cs st fs R O) as (_ & _ & S1 & F1 & _).
  destruct (scan_returns_all _ _ _ _ _ _ _ _ _ root_ok He' cs' st' fs' R' O') as (_ & _ & S2 & F2 & _).
  assert (Hsame' : forall p, ~ below t p -> untouched D' D p) by (intros p Q; apply untouched_sym, Hsame, Q).
  assert (Hc' : forall p, ~ below t (lexically_normal p) -> content p = content' p) by (intros p Q; symmetry; apply Hc, Q).
  apply sorted_same; [exact S2|exact S1|]. intros k v. rewrite F1, F2. split; intros (p & Hb & Ek & Hload); exists p.
  - split; [apply (belongs_again D' D entries' entries content' content); assumption|]. split; [exact Ek|].
    rewrite (load_same D' D content' content) ; try assumption. destruct Hb as (A & B & _). eapply not_below; [exact He'|exact A|exact B].
  - split; [apply (belongs_again D D' entries entries' content content'); assumption|]. split; [exact Ek|].
    rewrite (load_same D D' content content') ; try assumption. destruct Hb as (A & B & _). eapply not_below; [exact He|exact A|exact B].
Qed.

Theorem scan_again_succeeds : recursive = true ->
  forall D D' entries entries' content content' workers workers' cs cs' st st' fs errors,
  proper_entries entries -> proper_entries entries' -> listing s D entries -> listing s D' entries' ->
  (forall p, ~ below t p -> untouched D D' p) ->
  (forall p, ~ below t (lexically_normal p) -> content' p = content p) ->
  (forall p, ~ below t p -> snd (entries' p) = snd (entries p)) ->
  scan_tree s t D entries content parse resolve configure script_tags dir_compiler loaders filter_name filter_path recursive workers cs = Some st ->
  scan_tree s t D' entries' content' parse resolve configure script_tags dir_compiler loaders filter_name filter_path recursive workers' cs' = Some st' ->
  scan_owner st = MainReturned fs -> scan_owner st' <> MainThrew errors.
Proof.
  intros Hrec D D' entries entries' content content' workers workers' cs cs' st st' fs errors He He' Hl Hl' Hsame Hc Hend R R' O O'.
  destruct (scan_returns_all _ _ _ _ _ _ _ _ _ root_ok He cs st fs R O) as (_ & F & _).
  destruct (scan_reports_all _ _ _ _ _ _ _ _ _ root_ok He' cs' st' errors R' O') as (_ & Hne & _ & Hin).
  destruct errors as [|p errors]; [congruence|]. apply (F p). destruct (proj1 (Hin p) (or_introl eq_refl)) as [(_ & Hu)|(Hb & Hf)].
  - destruct Hu as (_ & E & _). congruence.
  - assert (Hsame' : forall q, ~ below t q -> untouched D' D q) by (intros q Q; apply untouched_sym, Hsame, Q).
    assert (Hc' : forall q, ~ below t (lexically_normal q) -> content q = content' q) by (intros q Q; symmetry; apply Hc, Q).
    assert (Hnb : ~ below t (lexically_normal p)) by (destruct Hb as (A & B & _); eapply not_below; [exact He'|exact A|exact B]).
    right. split; [apply (belongs_again D' D entries' entries content' content); assumption|].
    destruct Hb as (A & _). destruct (location D' entries' content' He' p A) as (d & Hd & Ed & _).
    assert (En : lexically_normal (lexically_normal p) = lexically_normal p).
    { rewrite Ed. apply (inside_is_normal s d []); assumption. }
    rewrite (load_same D D' content content' Hsame Hc p Hnb) in Hf.
    rewrite (kind_same D D' Hsame (lexically_normal p)) in Hf by (rewrite En; exact Hnb).
    rewrite (Hend _ Hnb) in Hf. exact Hf.
Qed.
End Again.

(** * What a build changes *)

Theorem build_touches_targets : forall scan g force D0 tr D dec made, building_tree scan g force D0 tr D dec made ->
  forall p, (forall v, ~ target_of g v p) -> untouched D0 D p.
Proof.
  intros scan g force D0 tr D dec made H p Hp.
  assert (T : forall A B C, untouched A B p -> untouched B C p -> untouched A C p).
  { intros A B C [E1|[H1 H2]] [E2|[H3 H4]]; unfold untouched, directory in *.
    - left. congruence.
    - right. rewrite <- E1. auto.
    - right. rewrite E2. auto.
    - right. auto. }
  induction H as [|tr D dec made v H IH|tr D dec made v H IH
    |tr D D2 dec made v H IH Hi Hpr Hn Hw|tr D D2 dec made v q' H IH Hi Hpr Hd Hv Hm|tr D dec made v o H IH Hpr Hs1 Hs2]; auto.
  - left. reflexivity.
  - eapply T; [exact IH|]. destruct (Hw p (Hp v)) as [E|[A B]]; [left; exact E|right; auto].
  - eapply T; [exact IH|]. destruct Hm as [_ E|_ _ E]; [left; apply E|].
    destruct (path_eq_dec p q') as [->|N]; [destruct (Hp v Hv)|].
    destruct (E p N) as [E1|(a & b & E1 & E2)]; [left; exact E1|right; split; eexists; eassumption].
Qed.

(** Putting both together *)
Theorem build_and_scan : forall c s t D entries content fs g scan force tr D1 dec made D' entries' content',
  directory_ok s -> left_out s t (set_filter_name c) (set_filter_path c) ->
  proper_entries entries -> proper_entries entries' -> listing s D entries -> listing s D' entries' ->
  (forall v q, target_of g v q -> below t q) ->
  building_tree scan g force D tr D1 dec made ->
  (forall p, ~ below t p -> untouched D1 D' p) ->
  (forall p, ~ below t (lexically_normal p) -> content' p = content p) ->
  scan_result c s t D entries content (MainReturned fs) ->
  (forall fs', scan_result c s t D' entries' content' (MainReturned fs') -> fs' = fs) /\
  (set_recursive c = true -> (forall p, ~ below t p -> snd (entries' p) = snd (entries p)) ->
   forall errors, ~ scan_result c s t D' entries' content' (MainThrew errors)).
Proof.
  intros c s t D entries content fs g scan force tr D1 dec made D' entries' content' Hs Hout He He' Hl Hl' Hbelow Hb Hafter Hc
    (w & cs & st & R & O).
  assert (Hsame : forall p, ~ below t p -> untouched D D' p).
  { intros p Hp. assert (H1 : untouched D D1 p).
    { eapply build_touches_targets; [exact Hb|]. intros v Q. exact (Hp (Hbelow v p Q)). }
    specialize (Hafter p Hp). unfold untouched, directory in *.
    destruct H1 as [E1|[H1 H2]], Hafter as [E2|[H3 H4]].
    - left. congruence.
    - right. rewrite <- E1. auto.
    - right. rewrite E2. auto.
    - right. auto. }
  split.
  - intros fs' (w' & cs' & st' & R' & O').
    eapply scan_again; [exact Hs|exact Hout|exact He|exact He'|exact Hl|exact Hl'|exact Hsame|exact Hc|exact R|exact R'|exact O|exact O'].
  - intros Hrec Hend errors (w' & cs' & st' & R' & O').
    eapply scan_again_succeeds; [exact Hs|exact Hout|exact Hrec|exact He|exact He'|exact Hl|exact Hl'|exact Hsame|exact Hc|exact Hend|exact R|exact R'|exact O|exact O'].
Qed.

(** * When the target directory is left out *)

Lemma inside_app : forall s a b, directory_ok s -> Forall ordinary (a ++ b) -> a <> [] -> inside (inside s a) b = inside s (a ++ b).
Proof.
  intros s a b Hs Ho Ha. apply Forall_app in Ho. destruct Ho as (Hoa & Hob).
  destruct a as [|x a]; [congruence|]. inversion Hoa as [|? ? Hx _]; subst.
  assert (Hd : forall abs l, mk_path abs (l ++ x :: a) <> mk_path false [dot]).
  { intros abs l Q. injection Q as _ Q. destruct l as [|y l].
    - cbn in Q. injection Q as Q _. destruct Hx as (_ & N & _). exact (N Q).
    - cbn in Q. injection Q as _ Q. destruct l; discriminate Q. }
  unfold inside at 2 3. destruct (path_eqb s (mk_path false [dot])) eqn:E.
  - cbn [is_nil app]. unfold inside. specialize (Hd false []). cbn [app] in Hd. rewrite (proj2 (path_eqb_neq _ _) Hd).
    reflexivity.
  - unfold inside. rewrite (proj2 (path_eqb_neq _ _) (Hd _ _)). cbn [absolute comps]. rewrite <- app_assoc. reflexivity.
Qed.

Lemma inside_names : forall s l, directory_ok s -> Forall ordinary l -> l <> [] ->
  exists abs a, inside s l = mk_path abs (a ++ l) /\ normalised abs a.
Proof.
  intros s l Hs Hl Hne. destruct (path_eq_dec s (mk_path false [dot])) as [->|N].
  - exists false, []. split; [destruct l; [congruence|reflexivity]|exists 0, []; repeat split; constructor].
  - destruct (inside_plain s l Hs N) as (E & H). eauto.
Qed.

Lemma place_root : forall s d n, directory_ok s -> Forall ordinary (d ++ [n]) ->
  exists abs cs, place (inside s (d ++ [n])) [] = mk_path abs (cs ++ [[]]).
Proof.
  intros s d n Hs Hl. destruct (inside_names s (d ++ [n]) Hs Hl) as (abs & a & E & Ha); [destruct d; discriminate|].
  assert (Hn : normalised abs (a ++ d ++ [n])) by (apply normalised_app; assumption).
  assert (On : ordinary n) by (apply Forall_app in Hl; destruct Hl as (_ & Q); inversion Q; assumption).
  exists abs, (a ++ d ++ [n]). unfold place. cbn [is_nil]. rewrite E. unfold append. cbn [absolute comps].
  rewrite strip_proper by (eapply normalised_proper; eassumption).
  assert (F : fold_left (normal_step abs) ((a ++ d ++ [n]) ++ [dot]) ([], false) = (rev (a ++ d ++ [n]), true)).
  { rewrite fold_left_app, fold_normalised by exact Hn. reflexivity. }
  unfold lexically_normal. cbn [absolute comps].
  assert (R : rev (a ++ d ++ [n]) = n :: rev (a ++ d)) by (rewrite app_assoc, rev_app_distr; reflexivity).
  assert (Dn : str_eqb n dotdot = false) by (apply str_eqb_neq; destruct On as (_ & _ & Q & _); exact Q).
  destruct ((a ++ d ++ [n]) ++ [dot]) as [|x xs] eqn:X; [destruct a; discriminate|].
  destruct abs; rewrite F, R; cbn [andb]; rewrite Dn; cbn [negb]; rewrite <- R, rev_involutive; reflexivity.
Qed.

Theorem left_out_named : forall s d n filter_name filter_path, directory_ok s -> Forall ordinary (d ++ [n]) ->
  filter_name n = true -> left_out s (inside s (d ++ [n])) filter_name filter_path.
Proof.
  intros s d n fn fp Hs Ho Hf l Hl [H|(l' & Hl' & H)].
  - exfalso. destruct (place_root s d n Hs Ho) as (abs & cs & E). rewrite E in H.
    pose proof (inside_proper s l [] Hs Hl) as P. rewrite H in P. cbn [comps] in P. apply Forall_app in P. destruct P as (_ & P).
    inversion P as [|? ? Q _]. discriminate Q.
  - rewrite inside_app in H; [|exact Hs|apply Forall_app; auto|destruct d; discriminate].
    apply inside_inj in H; [|exact Hl|apply Forall_app; auto].
    exists d, n, l'. rewrite H, <- app_assoc. auto.
Qed.

Theorem left_out_elsewhere : forall s t filter_name filter_path, (forall l, Forall ordinary l -> ~ below t (inside s l)) ->
  left_out s t filter_name filter_path.
Proof. intros s t fn fp H l Hl Q. destruct (H l Hl Q). Qed.
