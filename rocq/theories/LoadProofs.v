(** Proofs about loading source files. *)

From Coq Require Import Ascii String Bool Arith Lia.
From Coq Require Import List.
From Verif Require Import Str Path SMap PathProofs JsonModel JsonSpec JsonProofs DbModel LoadModel LoadSpec.
Import ListNotations.

(** * C29 *)

Lemma split_dot_spec : forall s, match split_at_last_dot s with
    | Some (a, b) => exists w, b = "."%char :: w /\ s = a ++ b /\ ~ In "."%char w
    | None => ~ In "."%char s
    end.
Proof.
  induction s as [|c s IH]; simpl; auto. destruct (split_at_last_dot s) as [[a b]|].
  - destruct IH as (w & -> & -> & H). exists w. auto.
  - destruct (Ascii.eqb c ".") eqn:E.
    + apply Ascii.eqb_eq in E. subst. exists s. auto.
    + apply Ascii.eqb_neq in E. intros [H|H]; auto.
Qed.

Lemma split_extension_some : forall name stem ext, split_extension name = Some (stem, ext) ->
    exists w, ext = "."%char :: w /\ name = stem ++ ext /\ ~ In "."%char w /\ stem <> [] /\ (stem = lit "." -> w <> []).
Proof.
  intros name stem ext H. unfold split_extension in H.
  destruct (Nat.leb (length name) 2 && match name with c :: _ => Ascii.eqb c "." | [] => false end) eqn:E; [discriminate|].
  pose proof (split_dot_spec name) as Hs. destruct (split_at_last_dot name) as [[a b]|]; [|discriminate].
  destruct a as [|x a]; [discriminate|]. inversion H; subst. destruct Hs as (w & -> & Hn & Hw).
  exists w. repeat split; auto; [discriminate|]. intros Hst ->. rewrite Hst in Hn. subst name. discriminate.
Qed.

Lemma split_extension_none : forall name, split_extension name = None ->
    name = lit ".." \/ (forall a b, name = a ++ "."%char :: b -> a = []).
Proof.
  intros name H. unfold split_extension in H.
  destruct (Nat.leb (length name) 2 && match name with c :: _ => Ascii.eqb c "." | [] => false end) eqn:E.
  - apply andb_true_iff in E. destruct E as [E1 E2]. apply Nat.leb_le in E1.
    destruct name as [|c name]; [discriminate|]. apply Ascii.eqb_eq in E2. subst c.
    destruct name as [|d [|? ?]]; [right|destruct (Ascii.eqb d ".") eqn:Ed; [left; apply Ascii.eqb_eq in Ed; subst; reflexivity|right]|simpl in E1; lia].
    + intros [|x [|y a]] b X; [reflexivity|simpl in X; discriminate|discriminate].
    + apply Ascii.eqb_neq in Ed. intros [|x [|y a]] b X; [reflexivity|simpl in X; inversion X; subst; congruence|].
      simpl in X. inversion X. destruct a; discriminate.
  - right. pose proof (split_dot_spec name) as Hs. destruct (split_at_last_dot name) as [[a b]|].
    + destruct a as [|x a]; [|discriminate]. destruct Hs as (w & -> & -> & Hw). intros [|y a'] b X; auto.
      exfalso. simpl in X. inversion X. subst. apply Hw. apply in_or_app. simpl. auto.
    + intros a b ->. exfalso. apply Hs. apply in_or_app. simpl. auto.
Qed.

(** The name is split at the beginning of the full extension. *)
Lemma full_extension_split : forall fuel name, length name <= fuel ->
    exists stem, name = stem ++ full_extension_loop fuel name /\ split_extension stem = None /\
      (full_extension_loop fuel name = [] \/
       (stem <> [] /\ exists w r, full_extension_loop fuel name = "."%char :: w ++ r /\ ~ In "."%char w /\ (stem = lit "." -> w <> []))).
Proof.
  induction fuel as [|fuel IH]; intros name Hl.
  - destruct name; [|simpl in Hl; lia]. exists []. simpl. auto.
  - simpl. destruct (split_extension name) as [[stem ext]|] eqn:E.
    + destruct (split_extension_some _ _ _ E) as (w & -> & Hn & Hw & Hne & Hd).
      destruct (IH stem) as (stem' & H1 & H2 & H3).
      { rewrite Hn in Hl. rewrite app_length in Hl. simpl in Hl. lia. }
      exists stem'. rewrite Hn. split; [rewrite app_assoc, <- H1; reflexivity|]. split; auto. right.
      destruct H3 as [H3|(H3 & w' & r & H4 & H5 & H6)].
      * rewrite H3 in *. rewrite app_nil_r in H1. subst stem'. split; auto. exists w, []. simpl. rewrite app_nil_r. auto.
      * split; auto. exists w', (r ++ "."%char :: w). rewrite H4. simpl. rewrite <- app_assoc. auto.
    + exists name. rewrite app_nil_r. auto.
Qed.

Lemma app_split : forall (A : Type) (a b c d : list A), a ++ b = c ++ d ->
    (exists e, a = c ++ e /\ d = e ++ b) \/ (exists e, c = a ++ e /\ b = e ++ d /\ e <> []).
Proof.
  intros A a. induction a as [|x a IH]; intros b c d E.
  - destruct c as [|y c].
    + left. exists []. simpl in *. auto.
    + right. exists (y :: c). simpl in E. repeat split; auto. discriminate.
  - destruct c as [|y c].
    + left. exists (x :: a). simpl in *. auto.
    + simpl in E. inversion E; subst. destruct (IH _ _ _ H1) as [(e & -> & ->)|(e & -> & -> & He)].
      * left. exists e. auto.
      * right. exists e. auto.
Qed.

Lemma extension_suffix : forall p e, extension_of (filename p) e <->
    (exists a r, full_extension p = a ++ e /\ e = "."%char :: r).
Proof.
  intros p e. unfold full_extension.
  destruct (full_extension_split (length (filename p)) (filename p) (Nat.le_refl _)) as (stem & Hn & Hs & Hf).
  set (fe := full_extension_loop (length (filename p)) (filename p)) in *. set (name := filename p) in *. clearbody fe name.
  split.
  - intros (st & rest & H1 & H2 & H3 & H4 & H5). subst e. rewrite H1 in Hn.
    destruct (app_split _ _ _ _ _ Hn) as [(x & Hx & Hfe)|(x & Hx & He & Hne)]; [exists x, rest; auto|].
    exfalso. destruct x as [|y x]; [congruence|]. simpl in He. inversion He; subst.
    destruct (split_extension_none _ Hs) as [Hd|Hd].
    + (* the stem is dot-dot *)
      destruct st as [|s1 st]; [congruence|]. simpl in Hd. inversion Hd as [[E1 E2]].
      destruct st as [|s2 st]; [|destruct st; discriminate]. simpl in E2. inversion E2; subst.
      destruct Hf as [->|(_ & w & r & -> & _)].
      * apply H4. reflexivity.
      * apply H5. split; [reflexivity|]. simpl. eauto.
    + specialize (Hd st x). rewrite Hd in H3; [congruence|]. reflexivity.
  - intros (a & r & Hfe & ->). destruct Hf as [Hf|(Hne & w & r' & Hf & Hw & Hd)].
    + exfalso. rewrite Hf in Hfe. destruct a; discriminate.
    + exists (stem ++ a), r. rewrite Hn, Hfe, app_assoc. repeat split; auto.
      * destruct stem; [congruence|discriminate].
      * intro X. rewrite <- app_assoc in X. destruct stem as [|x stem]; [congruence|]. simpl in X. inversion X as [[X1 X2]].
        destruct stem as [|y stem]; [|destruct stem; [destruct a; discriminate|discriminate]].
        simpl in X2. destruct a as [|z a]; [|simpl in X2; inversion X2; destruct a; discriminate].
        simpl in X2, Hfe. inversion X2 as [X3]. rewrite Hf, X3 in Hfe. inversion Hfe as [X4].
        destruct w; [|discriminate]. rewrite X1 in Hd. apply Hd; reflexivity.
      * intros [X (r0 & ->)]. destruct stem as [|x stem]; [congruence|]. simpl in X. inversion X as [[X1 X2]].
        destruct stem; [|discriminate]. simpl in X2. rewrite X2 in Hfe. rewrite Hf in Hfe. simpl in Hfe. inversion Hfe as [X3].
        rewrite X1 in Hd.
        destruct w as [|c w]; [apply Hd; reflexivity|]. simpl in X3. inversion X3 as [[X4 X5]]. apply Hw. rewrite X4. simpl. auto.
Qed.

Lemma match_suffixes_spec : forall V (dict : list (str * V)) s,
    match match_suffixes s dict with
    | Some v => exists a e r, s = a ++ e /\ e = "."%char :: r /\ lookup e dict = Some v /\
        (forall a' e' r', s = a' ++ e' -> e' = "."%char :: r' -> lookup e' dict <> None -> length e' <= length e)
    | None => forall a e r, s = a ++ e -> e = "."%char :: r -> lookup e dict = None
    end.
Proof.
  intros V dict. induction s as [|c s IH]; simpl.
  - intros a e r H ->. destruct a; discriminate.
  - assert (Hskip : Ascii.eqb c "." = false \/ lookup (c :: s) dict = None ->
      match match_suffixes s dict with
      | Some v => exists a e r, c :: s = a ++ e /\ e = "."%char :: r /\ lookup e dict = Some v /\
          (forall a' e' r', c :: s = a' ++ e' -> e' = "."%char :: r' -> lookup e' dict <> None -> length e' <= length e)
      | None => forall a e r, c :: s = a ++ e -> e = "."%char :: r -> lookup e dict = None
      end).
    { intro Hc. destruct (match_suffixes s dict) as [v|].
      - destruct IH as (a & e & r & -> & He & Hl & Hmax). exists (c :: a), e, r. repeat split; auto.
        intros a' e' r' E E' Hl'. destruct a' as [|x a'].
        + simpl in E. destruct Hc as [Hc|Hc]; [|rewrite <- E in Hl'; congruence].
          rewrite E' in E. inversion E as [[X1 X2]]. rewrite X1 in Hc. discriminate.
        + simpl in E. inversion E as [[X1 X2]]. eapply Hmax; eauto.
      - intros a e r E E'. destruct a as [|x a].
        + simpl in E. destruct Hc as [Hc|Hc]; [|rewrite <- E; exact Hc].
          rewrite E' in E. inversion E as [[X1 X2]]. rewrite X1 in Hc. discriminate.
        + simpl in E. inversion E as [[X1 X2]]. eapply IH; eauto. }
    destruct (Ascii.eqb c ".") eqn:Ec; [|apply Hskip; auto].
    destruct (lookup (c :: s) dict) as [v|] eqn:El; [|apply Hskip; auto].
    apply Ascii.eqb_eq in Ec. subst c. exists [], ("."%char :: s), s. repeat split; auto.
    intros a' e' r' E _ _. rewrite E, app_length. lia.
Qed.

Theorem longest_extension : forall V p (dict : list (str * V)),
    match match_longest_extension p dict with
    | Some v => exists e, extension_of (filename p) e /\ lookup e dict = Some v /\
        (forall e', extension_of (filename p) e' -> lookup e' dict <> None -> length e' <= length e)
    | None => forall e, extension_of (filename p) e -> lookup e dict = None
    end.
Proof.
  intros V p dict. unfold match_longest_extension. pose proof (match_suffixes_spec V dict (full_extension p)) as H.
  destruct (match_suffixes (full_extension p) dict) as [v|].
  - destruct H as (a & e & r & H1 & H2 & H3 & H4). exists e. split; [apply extension_suffix; eauto|]. split; auto.
    intros e' He' Hl. apply extension_suffix in He'. destruct He' as (a' & r' & E1 & E2). eauto.
  - intros e He. apply extension_suffix in He. destruct He as (a & r & E1 & E2). eauto.
Qed.

(** * C30 *)

Lemma find_assign_same : forall V k (v : V) m, map_find k (map_assign k v m) = Some v.
Proof.
  intros V k v. induction m as [|[k' v'] m IH]; simpl.
  - rewrite path_compare_refl. reflexivity.
  - destruct (path_compare k k') eqn:E; simpl.
    + rewrite E. reflexivity.
    + rewrite path_compare_refl. reflexivity.
    + rewrite E. exact IH.
Qed.

Lemma find_assign_other : forall V k (v : V) m k2, k2 <> k -> map_find k2 (map_assign k v m) = map_find k2 m.
Proof.
  intros V k v m k2 Hk. induction m as [|[k' v'] m IH]; simpl.
  - destruct (path_compare k2 k) eqn:E; auto. apply path_compare_eq in E. congruence.
  - destruct (path_compare k k') eqn:E; simpl.
    + apply path_compare_eq in E. subst. destruct (path_compare k2 k') eqn:E2; auto. apply path_compare_eq in E2. congruence.
    + destruct (path_compare k2 k) eqn:E2; auto.
      * apply path_compare_eq in E2. congruence.
      * assert (H : path_lt k2 k') by (eapply path_lt_trans; [exact E2|exact E]). unfold path_lt in H. rewrite H. reflexivity.
    + destruct (path_compare k2 k'); auto.
Qed.

Lemma find_command_refers : forall regular P S cmd, cmd <> empty_path ->
    match find_command regular P S cmd with
    | Some r => refers_to regular P S cmd r
    | None => refers_to_nothing regular P S cmd
    end.
Proof.
  intros regular P S cmd Hc. unfold find_command.
  destruct (regular (append P cmd)) eqn:E1; [constructor; auto|].
  destruct (regular (append S cmd)) eqn:E2; [constructor; auto|].
  intros r H. inversion H; congruence.
Qed.

Definition cache_agrees (cache : command_cache) (past : list (query * option (path * origin))) : Prop :=
  forall cmd, cmd <> empty_path -> map_find cmd cache = first_success cmd past.

Lemma first_success_app : forall cmd a b, first_success cmd (a ++ b) =
    match first_success cmd a with Some r => Some r | None => first_success cmd b end.
Proof.
  intros cmd. induction a as [|[q [r|]] a IH]; intros b; simpl; auto. destruct (path_eqb (snd q) cmd); auto.
Qed.

Lemma get_command_agrees : forall P S cache past q cache' a, cache_agrees cache past ->
    get_command (fst q) P S cache (snd q) = (cache', a) -> cache_agrees cache' (past ++ [(q, a)]).
Proof.
  intros P S cache past [reg cmd] cache' a H E k Hk. simpl in E. rewrite first_success_app.
  unfold get_command, cached_command in E. destruct (path_eqb cmd empty_path) eqn:Ee.
  - inversion E; subst. apply path_eqb_eq in Ee. subst. rewrite H by auto. destruct (first_success k past); auto.
    simpl. replace (path_eqb empty_path k) with false; auto. symmetry. apply path_eqb_neq. congruence.
  - apply path_eqb_neq in Ee. destruct (map_find cmd cache) as [r|] eqn:Ef.
    + inversion E; subst. rewrite H by auto. destruct (first_success k past) eqn:Ep; auto. simpl.
      destruct (path_eqb cmd k) eqn:Ek; auto. apply path_eqb_eq in Ek. subst. rewrite H in Ef by auto. congruence.
    + destruct (find_command reg P S cmd) as [r|]; inversion E; subst; simpl.
      * destruct (path_eqb cmd k) eqn:Ek.
        -- apply path_eqb_eq in Ek. subst. rewrite find_assign_same. rewrite H in Ef by auto. rewrite Ef. reflexivity.
        -- apply path_eqb_neq in Ek. rewrite find_assign_other by congruence. rewrite H by auto. destruct (first_success k past); auto.
      * rewrite H by auto. destruct (first_success k past); auto.
Qed.

Lemma answer_all_agrees : forall P S h cache past cache' l, cache_agrees cache past ->
    answer_all P S cache h = (cache', l) -> cache_agrees cache' (past ++ l).
Proof.
  intros P S. induction h as [|q h IH]; intros cache past cache' l H E; simpl in E.
  - inversion E; subst. rewrite app_nil_r. exact H.
  - destruct (get_command (fst q) P S cache (snd q)) as [c1 a] eqn:E1.
    destruct (answer_all P S c1 h) as [c2 l2] eqn:E2. inversion E; subst.
    pose proof (IH _ _ _ _ (get_command_agrees _ _ _ _ _ _ _ H E1) E2) as H3. rewrite <- app_assoc in H3. exact H3.
Qed.

Theorem query_answer : forall P S h regular cmd,
    let (cache, past) := answer_all P S [] h in
    match snd (get_command regular P S cache cmd), first_success cmd past with
    | a, Some r => a = Some r
    | Some r, None => refers_to regular P S cmd r
    | None, None => refers_to_nothing regular P S cmd
    end.
Proof.
  intros P S h regular cmd. destruct (answer_all P S [] h) as [cache past] eqn:E.
  assert (Ha : cache_agrees cache past).
  { apply (answer_all_agrees P S h [] [] cache past); auto. intros k _. reflexivity. }
  assert (Hempty : forall h0 cache0 cache1 past1, answer_all P S cache0 h0 = (cache1, past1) ->
    match first_success empty_path past1 with Some r => r = (empty_path, Project) | None => True end).
  { induction h0 as [|[reg0 c0] h0 IH]; intros cache0 cache1 past1 E0; simpl in E0; [inversion E0; exact I|].
    destruct (get_command reg0 P S cache0 c0) as [c1 a] eqn:E1.
    destruct (answer_all P S c1 h0) as [c2 l2] eqn:E2. inversion E0; subst. simpl.
    destruct a as [r|]; [|eapply IH; eauto]. destruct (path_eqb c0 empty_path) eqn:Ee; [|eapply IH; eauto].
    unfold get_command, cached_command in E1. rewrite Ee in E1. apply path_eqb_eq in Ee. inversion E1; subst. reflexivity. }
  unfold get_command, cached_command. destruct (path_eqb cmd empty_path) eqn:Ee.
  - apply path_eqb_eq in Ee. subst. simpl. pose proof (Hempty _ _ _ _ E) as H.
    destruct (first_success empty_path past); [congruence|constructor].
  - apply path_eqb_neq in Ee. rewrite (Ha cmd Ee). destruct (first_success cmd past) as [r|]; simpl; auto.
    pose proof (find_command_refers regular P S cmd Ee) as H. destruct (find_command regular P S cmd) as [r|]; simpl; exact H.
Qed.

(** Any number of threads *)

Definition dict_ok (regular : path -> bool) (P S : path) (s : dict_state) : Prop :=
  (forall k r, k <> empty_path -> map_find k (dict_cache s) = Some r -> refers_to regular P S k r) /\
  (forall k r, In (k, r) (dict_waiting s) -> k <> empty_path /\ refers_to regular P S k r) /\
  (forall k a, In (k, a) (dict_answers s) ->
     match a with Some r => refers_to regular P S k r | None => refers_to_nothing regular P S k end).

Lemma remove_nth_in : forall A n (l : list A) x, In x (remove_nth n l) -> In x l.
Proof.
  induction n as [|n IH]; intros [|y l] x H; simpl in *; auto. destruct H as [H|H]; auto.
Qed.

Lemma dict_step_ok : forall regular P S s e, dict_ok regular P S s -> dict_ok regular P S (dict_step regular P S s e).
Proof.
  intros regular P S s e (H1 & H2 & H3). destruct e as [cmd|n]; simpl.
  - unfold cached_command. destruct (path_eqb cmd empty_path) eqn:Ee.
    + apply path_eqb_eq in Ee. subst. repeat split; simpl; auto; try (eapply H2; eauto); try (eapply H1; eauto).
      intros k a [X|X]; [inversion X; constructor|]. apply H3. exact X.
    + apply path_eqb_neq in Ee. destruct (map_find cmd (dict_cache s)) as [r|] eqn:Ef.
      * split; [|split]; simpl; auto. intros k a [X|X]; [inversion X; subst; apply H1; auto|]. apply H3. exact X.
      * pose proof (find_command_refers regular P S cmd Ee) as Hf. destruct (find_command regular P S cmd) as [r|].
        -- split; [|split]; simpl; auto. intros k r' [X|X]; [inversion X; subst; auto|]. apply H2. exact X.
        -- split; [|split]; simpl; auto. intros k a [X|X]; [inversion X; subst; auto|]. apply H3. exact X.
  - destruct (nth_error (dict_waiting s) n) as [[cmd r]|] eqn:En; [|split; [|split]; auto].
    apply nth_error_In in En. destruct (H2 _ _ En) as [Hc Hr]. split; [|split]; simpl.
    + intros k r' Hk E. destruct (path_eq_dec k cmd) as [->|Hne].
      * rewrite find_assign_same in E. inversion E; subst. exact Hr.
      * rewrite find_assign_other in E by exact Hne. auto.
    + intros k r' X. apply H2. eapply remove_nth_in; eauto.
    + intros k a [X|X]; [inversion X; subst; exact Hr|]. apply H3. exact X.
Qed.

Theorem dict_answers_ok : forall regular P S es k a, In (k, a) (dict_answers (dict_run regular P S es)) ->
    match a with Some r => refers_to regular P S k r | None => refers_to_nothing regular P S k end.
Proof.
  intros regular P S es. assert (H : dict_ok regular P S (dict_run regular P S es)).
  { unfold dict_run. assert (H0 : dict_ok regular P S dict_init) by (split; [|split]; simpl; intros; try discriminate; contradiction).
    revert H0. generalize dict_init. induction es as [|e es IH]; intros s Hs; simpl; auto. apply IH. apply dict_step_ok. exact Hs. }
  exact (proj2 (proj2 H)).
Qed.

(** * C42 *)

Theorem combine_spec : forall a b, well_formed (JObject (comp_config a)) -> well_formed (JObject (comp_config b)) ->
    match combine a b with
    | Some c =>
        recipe c = (if path_eqb (recipe b) empty_path then recipe a else recipe b) /\
        comp_origin c = (match comp_origin b with Some o => Some o | None => comp_origin a end) /\
        merged (JObject (comp_config a)) (JObject (comp_config b)) (JObject (comp_config c)) /\
        use_get_tags c = use_get_tags b
    | None => clash (JObject (comp_config a)) (JObject (comp_config b))
    end.
Proof.
  intros a b Ha Hb. unfold combine. destruct (compound_or_spec _ _ Ha Hb) as [(c & -> & Hm & _)|[-> Hc]]; simpl; auto.
Qed.

(** * C51, C52 *)

Definition sees_directory (source_path source_dir : path) (dir_compiler : compiler) : list dependency :=
  if path_eqb source_dir source_path || path_eqb source_path (recipe dir_compiler) then []
  else [mk_dependency None (source_file_dir source_path) Project []].

Lemma load_source_file_builtin : forall sp sd td parse resolve configure script_tags builtin l text info,
    load_source_file sp sd td parse resolve configure script_tags builtin l text = Some info ->
    forall x, In x builtin -> In x (use_deps info).
Proof.
  intros sp sd td parse resolve configure script_tags builtin l text info H x Hx. unfold load_source_file in H.
  destruct (filter_input l text) as [source tag_text]. destruct (parse tag_text) as [tags|]; [|discriminate].
  repeat match type of H with
  | (match ?e with _ => _ end) = _ => destruct e; try discriminate
  end.
  inversion H; subst. simpl. apply in_or_app. auto.
Qed.

Theorem depends_on_directory : forall sp sd td parse resolve configure script_tags dir_compiler loaders content info,
    load sp sd td parse resolve configure script_tags dir_compiler loaders content = Some info ->
    content = None \/ match_longest_extension sp loaders <> None ->
    sp <> sd -> sp <> recipe dir_compiler ->
    In (mk_dependency None (lexically_normal (parent_path sp)) Project []) (use_deps info).
Proof.
  intros sp sd td parse resolve configure script_tags dir_compiler loaders content info H Hc H1 H2.
  unfold load in H. fold (sees_directory sp sd dir_compiler) in H. cbv zeta in H.
  assert (Hd : In (mk_dependency None (lexically_normal (parent_path sp)) Project []) (sees_directory sp sd dir_compiler)).
  { unfold sees_directory. rewrite (proj2 (path_eqb_neq sd sp)) by congruence. rewrite (proj2 (path_eqb_neq _ _) H2). simpl. auto. }
  destruct content as [text|].
  - destruct Hc as [Hc|Hc]; [discriminate|]. destruct (match_longest_extension sp loaders) as [l|]; [|congruence].
    eapply load_source_file_builtin; eauto.
  - inversion H; subst. simpl. apply in_or_app. auto.
Qed.

Theorem unknown_extension : forall sp sd td parse resolve configure script_tags dir_compiler loaders text info,
    load sp sd td parse resolve configure script_tags dir_compiler loaders (Some text) = Some info ->
    match_longest_extension sp loaders = None ->
    use_deps info = [] /\ targets info = [].
Proof.
  intros sp sd td parse resolve configure script_tags dir_compiler loaders text info H Hm.
  unfold load in H. cbv zeta in H. rewrite Hm in H. inversion H; subst. auto.
Qed.

Theorem depends_on_recipe : forall sp sd td parse resolve configure script_tags builtin l text info tags c d,
    load_source_file sp sd td parse resolve configure script_tags builtin l text = Some info ->
    parse (snd (filter_input l text)) = Some tags ->
    obj_get (lit "compiler") tags = None \/ recipe (si_compiler info) <> empty_path ->
    compiler_default info = Some d -> combine d (si_compiler info) = Some c -> recipe c <> empty_path ->
    exists dep, In dep (use_deps info) /\ dep_name dep = recipe c.
Proof.
  intros sp sd td parse resolve configure script_tags builtin l text info tags c d H Hp Hown Hd Hc Hr.
  unfold load_source_file in H. destruct (filter_input l text) as [source tag_text]. simpl in Hp. rewrite Hp in H.
  destruct (get_targets sp sd td tags) as [ts|]; [|discriminate]. destruct (get_use_deps sp sd td tags) as [use|]; [|discriminate].
  destruct (get_child_target_use_deps sp sd td tags) as [extra|]; [|discriminate].
  destruct (get_if compiler_of_json (lit "compiler") tags) as [own|] eqn:Eown; [|discriminate].
  destruct (match own with None => Some None | Some c => option_map Some (resolve_recipe resolve configure c) end) as [own'|] eqn:Er; [|discriminate].
  match type of H with (match ?e with _ => _ end) = _ => destruct e as [[[x y] z]|]; [|discriminate] end.
  destruct (get_if _ (lit "rebuild") tags) as [policy|]; [|discriminate].
  inversion H; subst; clear H. simpl in *. inversion Hd; subst; clear Hd.
  assert (Hrec : recipe c = recipe (match own' with Some c0 => c0 | None => loader_compiler l end)).
  { unfold combine in Hc. destruct (compound_or _ _); [|discriminate]. inversion Hc; subst; clear Hc. simpl in *.
    destruct own' as [k|]; [|reflexivity].
    destruct Hown as [Hown|Hown].
    - unfold get_if in Eown. rewrite Hown in Eown. inversion Eown; subst. discriminate.
    - rewrite (proj2 (path_eqb_neq _ _) Hown). reflexivity. }
  exists (compiler_dependency (match own' with Some c0 => c0 | None => loader_compiler l end)). split; [|simpl; auto].
  rewrite <- Hrec in *. rewrite (proj2 (path_eqb_neq _ _) Hr).
  repeat (apply in_or_app; right). simpl. auto.
Qed.

Theorem combine_recipe : forall a b, well_formed (JObject (comp_config a)) -> well_formed (JObject (comp_config b)) ->
    (recipe b <> empty_path <-> comp_origin b <> None) ->
    match combine a b with
    | Some c =>
        (recipe b <> empty_path -> recipe c = recipe b /\ comp_origin c = comp_origin b) /\
        (recipe b = empty_path -> recipe c = recipe a /\ comp_origin c = comp_origin a) /\
        merged (JObject (comp_config a)) (JObject (comp_config b)) (JObject (comp_config c))
    | None => clash (JObject (comp_config a)) (JObject (comp_config b))
    end.
Proof.
  intros a b Ha Hb Ho. pose proof (combine_spec a b Ha Hb) as H. destruct (combine a b) as [c|]; auto.
  destruct H as (H1 & H2 & H3 & _). rewrite H1, H2. split; [|split]; auto.
  - intro E. rewrite (proj2 (path_eqb_neq _ _) E). split; auto. apply Ho in E. destruct (comp_origin b); congruence.
  - intro E. rewrite (proj2 (path_eqb_eq _ _) E). split; auto. destruct (comp_origin b) eqn:X; auto.
    exfalso. apply (proj2 Ho); [congruence|exact E].
Qed.

Theorem combine_origin_refuted : exists a b own c,
    resolve_recipe (fun cmd => snd (get_command (fun _ => false) (mk_path false [dot]) (mk_path true [lit "usr"]) [] cmd))
                   (fun _ cfg => Some cfg) own = Some b /\
    combine a b = Some c /\ recipe b = empty_path /\ recipe c = recipe a /\
    comp_origin a = Some System /\ comp_origin c = Some Project.
Proof.
  exists (mk_compiler (mk_path true [lit "usr"; lit "cc.py"]) (Some System) [] false),
         (mk_compiler empty_path (Some Project) [(lit "std", JString (lit "c++17"))] false),
         (mk_compiler empty_path None [(lit "std", JString (lit "c++17"))] false),
         (mk_compiler (mk_path true [lit "usr"; lit "cc.py"]) (Some Project) [(lit "std", JString (lit "c++17"))] false).
  repeat split; reflexivity.
Qed.

Theorem recipe_dependency_refuted :
  exists src s t parse resolve configure script_tags l text info d c,
    load_source_file src s t parse resolve configure script_tags [] l text = Some info /\
    compiler_default info = Some d /\ combine d (si_compiler info) = Some c /\
    recipe c <> empty_path /\ use_deps info = [].
Proof.
  set (d := mk_compiler (mk_path true [lit "usr"; lit "cc.py"]) (Some System) [] false).
  set (cfg := [(lit "std", JString (lit "c++17"))]).
  exists (mk_path false [dot; lit "a.cpp"]), (mk_path false [dot]), (mk_path false [lit "out"]),
    (fun _ => Some [(lit "compiler", JObject [(lit "config", JObject cfg)])]),
    (fun p => Some (p, Project)), (fun _ c => Some c), (fun _ _ => None),
    (mk_loader (fun text => ([], text)) (fun _ => []) d false), [],
    (mk_source_file_info [] [] [] [] (Some d) (mk_compiler empty_path (Some Project) cfg false) Project OnlyIfOutOfDate false),
    d, (mk_compiler (recipe d) (Some Project) cfg false).
  repeat split; try reflexivity. discriminate.
Qed.
