(** Proofs about directories for targets. *)

From Coq Require Import Ascii ZArith Bool Arith Lia.
From Coq Require Import List.
From Verif Require Import Str Path SMap PathProofs DbModel JsonModel LoadModel LoadSpec LoadProofs LocProofs ScanModel ScanSpec ScanProofs.
From Verif Require Import DepGraphSpec DepGraphProofs FileListModel FileListSpec FileListProofs SchedModel SchedSpec SchedProofs.
From Verif Require Import TaskListModel TaskListSpec TaskListProofs BuildModel BuildSpec BuildProofs TreeModel TreeSpec.
Import ListNotations.

(** * Names *)

Lemma split_name : forall c cur, ~ In "/"%char c -> split_slash c cur = [rev cur ++ c].
Proof.
  induction c as [|a c IH]; intros cur H; cbn [split_slash]; [rewrite app_nil_r; reflexivity|].
  destruct (Ascii.eqb_spec a "/") as [->|N]; [destruct H; left; reflexivity|].
  rewrite IH by (intro Q; apply H; right; exact Q). cbn [rev]. rewrite <- app_assoc. reflexivity.
Qed.

Lemma parse_name : forall c, c <> [] -> ~ In "/"%char c -> parse_path c = mk_path false [c].
Proof.
  intros c N H. unfold parse_path. rewrite split_name by exact H. cbn [rev app].
  destruct c as [|a c]; [congruence|]. cbn.
  destruct (Ascii.eqb_spec a "/") as [->|M]; [destruct H; left; reflexivity|reflexivity].
Qed.

Lemma relative_self : forall p, lexically_relative p p = mk_path false [dot].
Proof.
  intro p. unfold lexically_relative. rewrite Bool.eqb_reflx. cbn [negb].
  assert (E : mismatch (comps p) (comps p) = ([], [])).
  { rewrite <- (app_nil_r (comps p)) at 1. apply mismatch_prefix. }
  rewrite E. reflexivity.
Qed.

Lemma root_target : forall s t, directory_ok s -> make_target_name s s t (parse_path (filename s)) = place t [].
Proof.
  intros s t Hs. unfold make_target_name, place. cbn [is_nil].
  assert (E : append (source_file_dir s) (parse_path (filename s)) = s); [|rewrite E, relative_self; reflexivity].
  destruct Hs as [-> | ((n & m & Ec & Hm & Hn) & Hne)]; [reflexivity|].
  destruct s as [abs cs]. cbn [comps absolute] in *.
  destruct cs as [|c0 cs0] eqn:Ecs.
  - destruct Hne as [->|Hne]; [reflexivity|congruence].
  - assert (X : exists l c, c0 :: cs0 = l ++ [c]).
    { destruct (@exists_last _ (c0 :: cs0)) as (l & c & E); [discriminate|]. eauto. }
    destruct X as (l & c & El). rewrite El in *. clear c0 cs0 El Ecs.
    assert (Hc : c <> [] /\ ~ In "/"%char c /\ normalised abs l).
    { destruct m as [|c1 m1] eqn:Em.
      - rewrite app_nil_r in Ec. destruct n as [|n]; [destruct l; discriminate Ec|].
        assert (Er : repeat dotdot (S n) = repeat dotdot n ++ [dotdot]).
        { clear. induction n as [|n IH]; [reflexivity|]. cbn [repeat app] in *. rewrite <- IH. reflexivity. }
        rewrite Er in Ec. apply app_inj_tail in Ec. destruct Ec as [-> ->].
        split; [discriminate|]. split; [intros [Q|[Q|[]]]; discriminate Q|].
        exists n, []. rewrite app_nil_r. split; [reflexivity|]. split; [constructor|]. intro Q. specialize (Hn Q). discriminate Hn.
      - destruct (@exists_last _ (c1 :: m1)) as (l' & c' & E); [discriminate|]. rewrite E in *.
        rewrite app_assoc in Ec. apply app_inj_tail in Ec. destruct Ec as [-> ->].
        apply Forall_app in Hm. destruct Hm as (Hl' & Hc'). inversion Hc' as [|? ? Ho _]; subst.
        destruct Ho as (A & _ & _ & B). split; [exact A|]. split; [exact B|]. exists n, l'. auto. }
    destruct Hc as (Hc1 & Hc2 & Hl). unfold filename. cbn [comps]. rewrite last_last.
    rewrite (parse_name c Hc1 Hc2). unfold source_file_dir, parent_path. cbn [comps absolute]. rewrite removelast_last.
    rewrite normal_normalised by exact Hl. apply append_names; [eapply normalised_proper; eassumption|discriminate].
Qed.

(** * The tree *)

Section Tree.
Variables s t : path.
Variable D : disk.
Variable entries : path -> list str * bool.
Variable content : path -> option str.
Variable parse : str -> option compound.
Variable resolve : path -> option (path * origin).
Variable configure : path -> compound -> option compound.
Variable script_tags : compiler -> path -> option compound.
Variable dir_compiler : compiler.
Variable loaders : list (str * loader).
Variables filter_name filter_path : str -> bool.
Variable recursive : bool.
Variable workers : nat.
Hypothesis Hs : directory_ok s.
Hypothesis Ht : directory_ok t.
Hypothesis Hentries : proper_entries entries.

Notation load_file := (load_file s t D content parse resolve configure script_tags dir_compiler loaders).
Notation scan_tree := (scan_tree s t D entries content parse resolve configure script_tags dir_compiler loaders
                                 filter_name filter_path recursive workers).
Notation found := (found source_file_info (file_is_directory D) entries load_file filter_name filter_path recursive s).
Notation belongs := (belongs source_file_info (file_is_directory D) entries load_file filter_name filter_path recursive s).

Lemma source_normal : lexically_normal s = s.
Proof. rewrite <- (inside_self s Hs). apply (inside_is_normal s [] []); [exact Hs|constructor]. Qed.

(** What is known about a file of the project other than the source directory *)
Lemma tree_entry : forall fs cs st, scan_tree cs = Some st -> scan_owner st = MainReturned fs ->
  forall d f info, Forall ordinary (d ++ [f]) -> In (inside s (d ++ [f]), info) fs ->
  let p := append (inside s d) (mk_path false [f]) in
  load_file p = Some info /\
  exists dinfo, In (inside s d, dinfo) fs /\ map ti_name (targets dinfo) = [place t d] /\
    file_is_directory D (inside s d) = Some true.
Proof.
  intros fs cs st Hrun Hret d f info Ho Hin p.
  assert (Hroot : directory_ok (lexically_normal s)) by (rewrite source_normal; exact Hs).
  destruct (scan_returns_all _ _ _ _ _ _ _ _ _ Hroot Hentries cs st fs Hrun Hret) as (_ & _ & _ & Hfs & _).
  apply Forall_app in Ho. destruct Ho as (Hd & Hf). inversion Hf as [|? ? Hf1 _]; subst.
  apply Hfs in Hin. destruct Hin as (p' & (Hfound & Hni & Hnu) & Ek & Hl).
  destruct Hfound as [|p0 i name Hp0 Hig Hun Hl0 Hdir Hname].
  { exfalso. rewrite source_normal in Ek. rewrite <- (inside_self s Hs) in Ek at 2.
    apply inside_inj in Ek; [destruct d; discriminate Ek|apply Forall_app; auto|constructor]. }
  destruct (found_location _ _ _ _ _ _ _ _ Hroot Hentries p0 Hp0) as (d0 & Hd0 & E0 & R1 & R2).
  rewrite source_normal in E0, R2.
  assert (On : ordinary name).
  { destruct (Hentries (lexically_normal p0)) as (Q & _). rewrite Forall_forall in Q. apply Q, Hname. }
  rewrite E0 in Ek. rewrite normal_entry in Ek; [|exact Hs|exact Hd0|constructor; [exact On|constructor]|discriminate].
  apply inside_inj in Ek; [|apply Forall_app; auto|apply Forall_app; auto].
  apply app_inj_tail in Ek. destruct Ek as [-> ->]. rewrite E0 in Hl. split; [exact Hl|].
  assert (Hb : belongs p0) by (split; [exact Hp0|split; assumption]).
  exists i. split; [apply Hfs; exists p0; rewrite E0; auto|]. split.
  2: { unfold file_is_directory in *. rewrite E0 in Hdir. rewrite (inside_is_normal s _ []) in * by assumption; exact Hdir. }
  clear Hl Hname. unfold TreeModel.load_file in Hl0.
  assert (Hd2 : file_is_directory D p0 = Some true).
  { unfold file_is_directory in *. rewrite E0 in Hdir |- *. rewrite (inside_is_normal s _ []) in Hdir by assumption; exact Hdir. }
  rewrite Hd2 in Hl0. cbn [LoadModel.load] in Hl0. injection Hl0 as <-. cbn [targets map ti_name]. f_equal.
  destruct d0 as [|n0 d0'] eqn:Ed0 using rev_ind.
  - rewrite (R1 eq_refl). apply root_target, Hs.
  - clear IHd0'. rewrite (R2 _ _ eq_refl). apply Forall_app in Hd0. destruct Hd0 as (Hd1 & Hn0). inversion Hn0 as [|? ? Hn1 _]; subst.
    assert (Ef : filename (append (inside s d0') (mk_path false [n0])) = n0).
    { unfold filename, append. cbn [absolute comps]. cbn. apply last_last. }
    rewrite Ef. assert (Hn2 := Hn1). destruct Hn1 as (A & _ & _ & B). rewrite (parse_name n0 A B).
    destruct (locations s t d0' n0 Hs Ht Hd1 [n0]) as (_ & _ & E & _); [constructor; [exact Hn2|constructor]|discriminate|].
    etransitivity; [exact E|]. unfold place. destruct d0'; reflexivity.
Qed.


(** * The build *)

Lemma is_directory_exists : forall q, is_directory_or_throw D q = Some true -> directory D q.
Proof.
  intros q H. unfold is_directory_or_throw in H. unfold directory. destruct (D q); try discriminate H. eauto.
Qed.

Section Build.
Variables fs g : file_list.
Hypothesis Hload : loaded fs g.
Hypothesis Hnames : proper_names fs g.

Section Node.
Variable u : nat.
Variable q : path.
Hypothesis Hu : is_dir D g u.
Hypothesis Hq : target_of g u q.
Hypothesis Hone : forall q', target_of g u q' -> q' = q.

Lemma directory_made : forall force D0, nothing_in_the_way D g D0 ->
  forall tr D1 dec made, building_tree D g force D0 tr D1 dec made ->
  (D1 q = Missing \/ directory D1 q) /\ (In u made -> directory D1 q) /\
  (In (u, Some false) dec -> directory D1 q) /\ (In (Start u) tr -> exists x, In (u, x) dec) /\
  (In (Finish u Succeeds) tr -> directory D1 q).
Proof.
  intros force D0 H0 tr D1 dec made H. induction H as [|tr D1 dec made v H IH|tr D1 dec made v H IH
    |tr D1 D2 dec made v H IH Hi Hp Hn Hw|tr D1 D2 dec made v q' H IH Hi Hp Hd Hv Hm|tr D1 dec made v o H IH Hp Hs1 Hs2].
  - split; [apply (H0 u q Hu Hq)|]. cbn [In]. tauto.
  - destruct IH as (I1 & I2 & I3 & I4 & I5). repeat split; try assumption;
      intro Q; apply in_app_or in Q; destruct Q as [Q|[Q|[]]]; try discriminate Q; auto.
  - destruct IH as (I1 & I2 & I3 & I4 & I5). split; [exact I1|]. split; [exact I2|]. split; [|split].
    + intros [Q|Q]; [|auto]. injection Q as -> Q. apply not_needed_current in Q.
      destruct Q as (p & info & Hnth & Hup). destruct Hq as (p' & info' & t' & Hnth' & Ht' & Eq).
      rewrite Hnth in Hnth'. injection Hnth' as <- <-. destruct (Hup t' Ht') as [Q|[(ta & Q & _) _]]; rewrite Eq in Q; [exact Q|].
      destruct I1 as [I1|I1]; [|exact I1]. destruct Q as [Q|Q]; rewrite I1 in Q; discriminate Q.
    + intro Q. apply in_app_or in Q. destruct Q as [Q|[Q|[]]].
      * destruct (I4 Q) as (x & Hx). exists x. right. exact Hx.
      * injection Q as ->. eexists. left. reflexivity.
    + intro Q. apply in_app_or in Q. destruct Q as [Q|[Q|[]]]; [auto|discriminate Q].
  - destruct IH as (I1 & I2 & I3 & I4 & I5).
    assert (Hnot : ~ target_of g v q).
    { intro Q. apply Hn. rewrite <- (target_owner fs g Hload Hnames u v q Hq Q). exact Hu. }
    assert (K : directory D1 q -> directory D2 q).
    { intro Q. destruct (Hw q Hnot) as [E|[_ E]]; [|exact E]. unfold directory. rewrite E. exact Q. }
    split; [|tauto]. destruct (Hw q Hnot) as [E|[_ E]]; [|right; exact E]. destruct I1 as [I1|I1]; [left; congruence|auto].
  - destruct IH as (I1 & I2 & I3 & I4 & I5).
    assert (K : directory D1 q -> directory D2 q).
    { intro Q. destruct Hm as [_ E|Em (t' & Et) E]; [unfold directory; rewrite E; exact Q|].
      destruct (path_eq_dec q q') as [->|N]; [exists t'; exact Et|].
      destruct (E q N) as [E1|(a & b & _ & E1)]; [unfold directory; rewrite E1; exact Q|exists b; exact E1]. }
    assert (M : v = u -> directory D2 q).
    { intros ->. rewrite (Hone q' Hv) in Hm. destruct Hm as [(t' & Et) E|_ Et _]; [|exact Et].
      destruct I1 as [I1|I1]; [destruct Et as [Et|Et]; rewrite I1 in Et; discriminate Et|auto]. }
    split; [|split; [intros [Q|Q]; auto|tauto]].
    destruct (Nat.eq_dec v u) as [E|N]; [right; auto|].
    destruct I1 as [I1|I1]; [|right; auto].
    destruct (path_eq_dec q q') as [->|Nq].
    + destruct N. apply (target_owner fs g Hload Hnames v u q' Hv Hq).
    + destruct Hm as [_ E|_ _ E]; [left; rewrite E; exact I1|].
      destruct (E q Nq) as [E1|(a & b & _ & E1)]; [left; congruence|right; exists b; exact E1].
  - destruct IH as (I1 & I2 & I3 & I4 & I5). split; [exact I1|]. split; [exact I2|]. split; [exact I3|]. split.
    + intro Q. apply in_app_or in Q. destruct Q as [Q|[Q|[]]]; [auto|discriminate Q].
    + intro Q. apply in_app_or in Q. destruct Q as [Q|[Q|[]]]; [auto|]. injection Q as -> ->.
      destruct (I4 (proj1 Hp)) as ([[|]|] & Hx).
      * apply I2. apply Hs1; auto.
      * apply I3, Hx.
      * destruct (Hs2 Hx). reflexivity.
Qed.
End Node.

Variable cs0 : list scan_choice.
Variable st0 : scan_state source_file_info.
Hypothesis Hscan : scan_tree cs0 = Some st0.
Hypothesis Hreturned : scan_owner st0 = MainReturned fs.

Theorem directory_exists : forall rs tasks, task_list g rs tasks -> forall ws, idle_pool ws ->
  forall force D0 cs tr st D1 dec made,
  run (task_reads g) cs (init rs tasks ws) = Some (tr, st) ->
  building_tree D g force D0 tr D1 dec made -> nothing_in_the_way D g D0 ->
  forall v d f info, Forall ordinary (d ++ [f]) ->
  append (inside s d) (mk_path false [f]) <> recipe dir_compiler ->
  numbered g v (inside s (d ++ [f])) -> In (inside s (d ++ [f]), info) fs -> targets info <> [] ->
  In (Start v) tr -> directory D1 (place t d).
Proof.
  intros rs tasks Htl ws Hws force D0 cs tr st D1 dec made Hrun Hb H0 v d f info Ho Hrec Hnum Hin Htar Hst.
  destruct (tree_entry fs cs0 st0 Hscan Hreturned d f info Ho Hin) as (Hl & dinfo & Hdin & Etar & Hdir).
  assert (Ho2 := Ho). apply Forall_app in Ho2. destruct Ho2 as (Hd & Hf).
  destruct (graph_facts fs g Hload Hnames) as ((Hsort & Hknown & _ & Hsrc & _) & _).
  destruct (Hsrc _ _ Hdin) as (di' & Hdg & Hdk & _).
  destruct (Hsrc _ _ Hin) as (i' & Hg & _ & _ & _ & _ & _ & _ & _ & Huse & _).
  assert (Hsp : append (inside s d) (mk_path false [f]) <> s).
  { intro Q. assert (R : lexically_normal (append (inside s d) (mk_path false [f])) = inside s []).
    { rewrite Q, inside_self by exact Hs. apply source_normal. }
    rewrite normal_entry in R; [|exact Hs|exact Hd|exact Hf|discriminate].
    apply inside_inj in R; [destruct d; discriminate R|exact Ho|constructor]. }
  assert (Hdep : In (inside s d) (map dep_name (use_deps info))).
  { unfold TreeModel.load_file in Hl.
    assert (X : forall c, load (append (inside s d) (mk_path false [f])) s t parse resolve configure script_tags dir_compiler loaders c = Some info ->
                In (inside s d) (map dep_name (use_deps info))).
    { intros c Hc.
      assert (Y : c = None \/ match_longest_extension (append (inside s d) (mk_path false [f])) loaders <> None).
      { destruct c as [text|]; [right|left; reflexivity]. intro M. apply Htar. eapply unknown_extension; eauto. }
      pose proof (depends_on_directory _ _ _ _ _ _ _ _ _ _ _ Hc Y Hsp Hrec) as Z.
      apply (in_map dep_name) in Z. cbn [dep_name] in Z.
      pose proof (file_dir s d f Hs Hd) as W. unfold source_file_dir in W. rewrite W in Z. exact Z. }
    destruct (file_is_directory D (append (inside s d) (mk_path false [f]))) as [[|]|]; [eauto| |discriminate].
    destruct (content (append (inside s d) (mk_path false [f]))); [eauto|discriminate]. }
  assert (Hk : known g (inside s d)).
  { apply In_nth_error in Hdg. destruct Hdg as (k & Hk). exists k. eapply node_numbered; eauto. }
  destruct Hk as (u & Hunum).
  assert (Hu : is_dir D g u).
  { exists (inside s d). split; [exact Hunum|]. apply is_directory_exists. unfold file_is_directory in Hdir.
    rewrite (inside_is_normal s d []) in Hdir; assumption. }
  assert (Hnth : exists i2, nth_error g u = Some (inside s d, i2) /\ map ti_name (targets i2) = [place t d]).
  { unfold numbered in Hunum. rewrite nth_error_map in Hunum. destruct (nth_error g u) as [[p2 i2]|] eqn:E; [|discriminate].
    cbn in Hunum. injection Hunum as ->. exists i2. split; [reflexivity|].
    assert (i2 = di') by (eapply sorted_in_unique; [exact Hsort|eapply nth_error_In; eauto|exact Hdg]). subst i2.
    rewrite Hdk. exact Etar. }
  destruct Hnth as (i2 & Hnth & E2).
  assert (Hq : target_of g u (place t d)).
  { destruct (targets i2) as [|t1 [|]] eqn:E; try discriminate E2. exists (inside s d), i2, t1.
    split; [exact Hnth|]. rewrite E. split; [left; reflexivity|]. cbn in E2. congruence. }
  assert (Hone : forall q', target_of g u q' -> q' = place t d).
  { intros q' (p3 & i3 & t3 & Hn3 & Ht3 & <-). rewrite Hnth in Hn3. injection Hn3 as <- <-.
    apply (in_map ti_name) in Ht3. rewrite E2 in Ht3. destruct Ht3 as [Q|[]]; congruence. }
  destruct (directory_made u (place t d) Hu Hq Hone force D0 H0 tr D1 dec made Hb) as (_ & _ & _ & _ & K). apply K.
  apply in_split in Hst. destruct Hst as (tr1 & tr2 & ->). apply in_or_app. left.
  apply (project_started_ready fs g Hload rs tasks Htl ws Hws cs _ _ Hrun tr1 v tr2 _ eq_refl Hnum u (inside s d) Hunum).
  - split.
    + apply reach_step with (q := inside s d); [|constructor]. split; [exists u; exact Hunum|].
      apply Huse in Hdep. apply in_map_iff in Hdep. destruct Hdep as (dd & Ed & Hdd).
      exists dd. split; [exists i'; auto|exact Ed].
    + intro Q. apply inside_inj in Q; [|exact Hd|exact Ho]. apply (f_equal (@length str)) in Q. rewrite app_length in Q. cbn in Q. lia.
  - exists i2. split; [eapply nth_error_In; eauto|]. intro E. rewrite E in E2. discriminate E2.
Qed.

End Build.

End Tree.

Theorem project_directory_exists : forall s t D r fs g D0 tr D1, project_build s t D r fs g D0 tr D1 ->
  nothing_in_the_way D g D0 ->
  forall v d f info, Forall ordinary (d ++ [f]) -> append (inside s d) (mk_path false [f]) <> r ->
  numbered g v (inside s (d ++ [f])) -> In (inside s (d ++ [f]), info) fs -> targets info <> [] ->
  In (Start v) tr -> directory D1 (place t d).
Proof.
  intros s t D r fs g D0 tr D1 (Hs & Ht & Hscan & Hload & Hnames & Hb) H0 v d f info Ho Hr Hn Hin Ht' Hst.
  destruct Hscan as (entries & content & parse & resolve & configure & script_tags & dc & loaders & fn & fp & rec & w & cs0 & st0 & He & <- & H1 & H2).
  destruct Hb as (rs & tasks & ws & force & cs & st & dec & made & B1 & B2 & B3 & B4).
  exact (directory_exists s t D entries content parse resolve configure script_tags dc loaders fn fp rec w Hs Ht He
           fs g Hload Hnames cs0 st0 H1 H2 rs tasks B1 ws B2 force D0 cs tr st D1 dec made B3 B4 H0 v d f info Ho Hr Hn Hin Ht' Hst).
Qed.
