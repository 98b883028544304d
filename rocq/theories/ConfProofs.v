(** Where the configuration comes from, and what it says: proofs. *)

From Coq Require Import Ascii String Bool ZArith.
From Coq Require Import List Sorted.
From Verif Require Import Str Path SMap JsonModel DbModel ValueModel FileListModel LoadModel RecipeModel CfgModel CfgSpec CfgProofs CmdModel CmdSpec CmdProofs.
From Verif Require Import PathProofs MainModel MainSpec MainProofs JsonSpec JsonProofs MeanProofs ConfSpec.
Import ListNotations.

(** * Options *)

Theorem option_table_documented accepts x : In x (option_table accepts) <->
  exists o name use, In (o, (name, use)) documented /\ x = mk_opt_item (lit name) (match use with Required => true | _ => false end) (option_convert accepts o).
Proof.
  rewrite table_items. split.
  - intros (o & ->). unfold option_item. destruct o;
      match goal with |- exists o' name use, _ /\ mk_opt_item _ _ (_ _ ?o) = _ =>
        exists o; let d := eval cbv [documented] in documented in
        match d with context [(o, (?n, ?u))] => exists n, u end end;
      (split; [cbn; tauto|reflexivity]).
  - intros (o & name & use & I & ->). exists o. unfold option_item. cbn in I.
    repeat (destruct I as [I | I]; [injection I as <- <- <-; reflexivity|]). destruct I.
Qed.

Theorem without_value accepts o name : In (o, (name, Without)) documented -> forall s, option_convert accepts o s <> None <-> s = [].
Proof.
  intros I s. cbn in I.
  repeat (destruct I as [I | I]; [first [discriminate I | injection I as <- <-; cbn; destruct s; split; congruence]|]). destruct I.
Qed.

(** * Where the configuration comes from *)

Section Program.
Variables (env : environment) (accepts : cmd_option -> str -> bool) (argv : list str) (a : arguments).
Hypothesis parsed : command_line (option_table accepts) argv = Some a.

Lemma given_dec o : given accepts argv o \/ ~ given accepts argv o.
Proof.
  destruct (has_option a o) eqn:H.
  - left. now apply (has_option_iff accepts argv a o parsed).
  - right. now apply (has_option_not accepts argv a o parsed).
Qed.

Lemma none_given o : ~ given accepts argv o -> option_given a o = None.
Proof.
  intro H. apply (has_option_not accepts argv a o parsed) in H. unfold has_option in H.
  destruct (option_given a o); [discriminate|reflexivity].
Qed.

(** Values have the type of the option. *)
Lemma value_of o v : option_given a o = Some v -> exists text, option_convert accepts o text = Some v.
Proof.
  intro H. apply (given_value accepts argv a parsed) in H. destruct H as (l1 & arg & text & l2 & _ & _ & T & _).
  destruct T as [_ T]. exists text. exact T.
Qed.

Lemma given_some o : given accepts argv o -> exists v, option_given a o = Some v.
Proof.
  intro H. apply (has_option_iff accepts argv a o parsed) in H. unfold has_option in H.
  destruct (option_given a o) as [v|]; [now exists v|discriminate].
Qed.

Lemma source_is_project : project_directory accepts argv (source_directory a).
Proof.
  unfold project_directory, source_directory. destruct (given_dec SourceDir) as [G | G].
  - left. destruct (given_some _ G) as (v & E). destruct (value_of _ _ E) as (text & C). cbn in C. injection C as <-.
    rewrite E. now apply (given_value accepts argv a parsed).
  - right. split; [exact G|]. now rewrite (none_given _ G).
Qed.

Definition files_to_read : list path :=
  if has_option a ConfigDefault then []
  else match option_given a ConfigFiles with
       | Some (PathsValue l) => l
       | _ => [append (source_directory a) (mk_path false [lit "maikeconfig.json"])]
       end.

Lemma files_chosen : chosen_files accepts argv files_to_read.
Proof.
  unfold chosen_files, files_to_read. destruct (has_option a ConfigDefault) eqn:D.
  - left. split; [|reflexivity]. now apply (has_option_iff accepts argv a _ parsed).
  - right. apply (has_option_not accepts argv a _ parsed) in D. destruct (given_dec ConfigFiles) as [G | G].
    + left. split; [exact D|]. destruct (given_some _ G) as (v & E). destruct (value_of _ _ E) as (text & C). cbn in C.
      destruct (list_of_string (fun t => Some (parse_path t)) text) as [l|]; [|discriminate]. injection C as <-.
      rewrite E. now apply (given_value accepts argv a parsed).
    + right. split; [exact D|]. split; [exact G|]. exists (source_directory a). split; [apply source_is_project|].
      now rewrite (none_given _ G).
Qed.

Lemma read_form : exists c, chosen_config accepts argv env c /\ read_configuration env a = (map ConfigRead files_to_read, Some c).
Proof.
  pose proof files_chosen as F. unfold read_configuration. unfold files_to_read in *.
  destruct (has_option a ConfigDefault) eqn:D.
  - exists default_config. split; [|reflexivity]. left. split; [|reflexivity]. now apply (has_option_iff accepts argv a _ parsed).
  - eexists. split; [|reflexivity]. right. apply (has_option_not accepts argv a _ parsed) in D. split; [exact D|].
    eexists. split; [exact F|reflexivity].
Qed.

(** Other events *)
Definition no_read (l : list event) : Prop := forall e, In e l -> ~ is_config_read e.

Lemma no_read_nil : no_read [].
Proof. intros e []. Qed.

Lemma no_read_then A B (x : io A) (f : A -> io B) : no_read (fst x) -> (forall y, no_read (fst (f y))) -> no_read (fst (and_then x f)).
Proof. intros H1 H2 e I. apply then_in in I. destruct I as [I | (y & _ & I)]; [exact (H1 e I)|exact (H2 y e I)]. Qed.

Lemma no_read_map A B (f : A -> io B) l : (forall x, no_read (fst (f x))) -> no_read (fst (map_io f l)).
Proof. intros H e I. apply map_io_in in I. destruct I as (x & _ & I). exact (H x e I). Qed.

Lemma no_read_one e : ~ is_config_read e -> no_read [e].
Proof. intros H x [<- | []]. exact H. Qed.

Lemma no_read_resolve s c : no_read (fst (resolve_recipe_io env s c)).
Proof.
  unfold resolve_recipe_io. destruct (env_resolve env s (recipe c)) as [[p o]|]; [|exact no_read_nil].
  destruct (path_eqb p empty_path); [exact no_read_nil|].
  apply no_read_then; [now apply no_read_one|]. intros _. apply no_read_then; [exact no_read_nil|]. intro. exact no_read_nil.
Qed.

Lemma no_read_resolve_all s c : no_read (fst (resolve_recipes_io env s c)).
Proof.
  unfold resolve_recipes_io. apply no_read_then; [apply no_read_resolve|]. intros d.
  apply no_read_then; [|intro; exact no_read_nil]. apply no_read_map. intro x.
  apply no_read_then; [apply no_read_resolve|]. intro. exact no_read_nil.
Qed.

Lemma no_read_tree c l : no_read (fst (load_tree env a c l)).
Proof.
  unfold load_tree. destruct (env_scan _ _ _ _ _ _) as [runs r]. apply no_read_then.
  - intros e I. cbn [fst] in I. apply in_map_iff in I. destruct I as (p & <- & _). now cbn.
  - intro fs. apply no_read_then; [now apply no_read_one|]. intro. exact no_read_nil.
Qed.

Lemma no_read_build ts g : no_read (fst (build_phase env a ts g)).
Proof. intros e I. apply build_in in I. destruct I as (rs & tasks & -> & _). now cbn. Qed.

Lemma no_read_finish ts g : no_read (fst (finish_phase env a ts g)).
Proof.
  unfold finish_phase. destruct (has_option a ListTargets); [now apply no_read_one|].
  destruct (has_option a PrintDepGraph); [now apply no_read_one|]. apply no_read_build.
Qed.
End Program.

Theorem files_read env accepts argv : valid accepts argv ->
  (forall o, In o [Help; Version; About] -> ~ given accepts argv o) ->
  exists l rest, chosen_files accepts argv l /\ fst (main env accepts argv) = map ConfigRead l ++ rest /\
    forall e, In e rest -> ~ is_config_read e.
Proof.
  intros V N. destruct (command_line (option_table accepts) argv) as [a|] eqn:E.
  2:{ exfalso. apply (accepted_valid accepts argv) in V. contradiction. }
  exists (files_to_read a). rewrite (main_accepted env accepts argv a E). cbn [fst]. unfold main_body.
  rewrite !(proj2 (has_option_not accepts argv a _ E)) by (apply N; cbn; tauto).
  destruct (read_form env accepts argv a E) as (c & _ & ->). rewrite then_done.
  eexists. split; [exact (files_chosen accepts argv a E)|]. cbn [fst]. split; [reflexivity|].
  change (no_read (fst (if has_option a ConfigDump then emit (Shown None (ConfigText (dump_config c))) else
    and_then (resolve_recipes_io env (source_directory a) c) (fun cfg => and_then (lift (map_loaders cfg)) (fun loaders =>
    and_then (load_tree env a cfg loaders) (fun tree => let (ts, g) := tree in finish_phase env a ts g)))))).
  destruct (has_option a ConfigDump); [now apply no_read_one|].
  apply no_read_then; [apply no_read_resolve_all|]. intro c'. apply no_read_then; [exact no_read_nil|]. intro ls.
  apply no_read_then; [apply no_read_tree|]. intros [ts g]. apply no_read_finish.
Qed.

Theorem dumped env accepts argv : valid accepts argv ->
  (forall o, In o [Help; Version; About] -> ~ given accepts argv o) -> given accepts argv ConfigDump ->
  exists l c, chosen_files accepts argv l /\ chosen_config accepts argv env c /\
    main env accepts argv = (map ConfigRead l ++ [Shown None (ConfigText (dump_config c))], 0%Z).
Proof.
  intros V N D. destruct (command_line (option_table accepts) argv) as [a|] eqn:E.
  2:{ exfalso. apply (accepted_valid accepts argv) in V. contradiction. }
  rewrite (main_accepted env accepts argv a E). unfold main_body.
  rewrite !(proj2 (has_option_not accepts argv a _ E)) by (apply N; cbn; tauto).
  destruct (read_form env accepts argv a E) as (c & C & ->). rewrite then_done.
  apply (has_option_iff accepts argv a _ E) in D. rewrite D. exists (files_to_read a), c.
  split; [exact (files_chosen accepts argv a E)|]. split; [exact C|]. reflexivity.
Qed.

(** Resolving recipes, as in CfgModel.v *)
Lemma resolve_io_same env s c : snd (resolve_recipe_io env s c) = resolve_recipe (env_resolve env s) (env_configure env) c.
Proof.
  unfold resolve_recipe_io, resolve_recipe. destruct (env_resolve env s (recipe c)) as [[p o]|]; [|reflexivity].
  destruct (path_eqb p empty_path); [reflexivity|]. unfold emit. rewrite then_done. cbn [snd]. unfold lift.
  destruct (env_configure env p (comp_config c)); [rewrite then_done|rewrite then_thrown]; reflexivity.
Qed.

Lemma resolve_all_same env s c c' : snd (resolve_recipes_io env s c) = Some c' ->
  resolve_recipes (env_resolve env s) (env_configure env) c = Some c'.
Proof.
  unfold resolve_recipes_io, resolve_recipes. intro H. apply then_some in H. destruct H as (d & D & H).
  apply then_some in H. destruct H as (l & L & H). cbn in H. injection H as <-.
  rewrite resolve_io_same in D. rewrite D.
  assert (M : map_all (fun e => option_map (fun x => (fst e, (fst (snd e), x)))
                (resolve_recipe (env_resolve env s) (env_configure env) (snd (snd e)))) (info_loaders c) = Some l).
  2:{ now rewrite M. }
  revert l L. induction (info_loaders c) as [|e m IH]; intros l L; cbn [map_io] in L.
  - cbn in L. injection L as <-. reflexivity.
  - apply then_some in L. destruct L as (y & Y & L). apply then_some in L. destruct L as (ys & Ys & L). cbn in L. injection L as <-.
    apply then_some in Y. destruct Y as (x & X & Y). cbn in Y. injection Y as <-. rewrite resolve_io_same in X.
    cbn [map_all]. rewrite X. cbn [option_map]. now rewrite (IH _ Ys).
Qed.

Theorem scan_configured env accepts argv s t fs : In (Scanned s t fs) (fst (main env accepts argv)) ->
  exists c c' loaders, chosen_config accepts argv env c /\
    resolve_recipes (env_resolve env s) (env_configure env) c = Some c' /\ map_loaders c' = Some loaders /\
    snd (env_scan env (tree_loader c') loaders (dir_compiler c') s t) = Some fs.
Proof.
  intro I. pose proof I as I'. destruct (scanned_event _ _ _ _ _ _ I) as (a & evs & E & _ & -> & -> & No & _).
  rewrite (main_accepted env accepts argv a E) in I'. cbn [fst] in I'. unfold main_body in I'.
  rewrite !No in I' by (cbn; tauto).
  destruct (read_form env accepts argv a E) as (c & C & R). rewrite R in I'.
  apply then_in in I'. destruct I' as [I' | (c0 & Hc & I')].
  { cbn [fst] in I'. apply in_map_iff in I'. destruct I' as (? & H & _). discriminate. }
  cbn in Hc. injection Hc as <-.
  apply then_in in I'. destruct I' as [I' | (c' & Hc & I')]; [exfalso; exact (plain_resolve_all _ _ _ _ I')|].
  apply then_in in I'. destruct I' as [[] | (ls & Hl & I')].
  apply then_in in I'. destruct I' as [I' | ([ts g] & Ht & I')].
  2:{ exfalso. exact (finish_scanned env a ts g _ _ _ I'). }
  exists c, c', ls. split; [exact C|]. split; [now apply resolve_all_same|]. split; [exact Hl|].
  unfold load_tree in I'. destruct (env_scan _ _ _ _ _ _) as [runs r]. apply then_in in I'.
  destruct I' as [I' | (fs' & Hf & I')].
  { cbn [fst] in I'. apply in_map_iff in I'. destruct I' as (? & H & _). discriminate. }
  cbn [snd] in Hf |- *. apply then_in in I'. destruct I' as [[I' | []] | (? & _ & [])]. injection I' as <-. exact Hf.
Qed.

(** * What the configuration says *)

Lemma get_iff {T} (f : json -> option T) k o x : NoDup (map fst o) ->
  (get f k o = Some x <-> exists j, member o k j /\ f j = Some x).
Proof.
  intro D. unfold get. split.
  - destruct (obj_get k o) as [j|] eqn:E; [|discriminate]. intro H. exists j. split; [now apply obj_get_in|exact H].
  - intros (j & M & H). apply (obj_get_in o k j D) in M. now rewrite M.
Qed.

Lemma get_if_iff {T} (f : json -> option T) k o x : NoDup (map fst o) ->
  (get_if f k o = Some x <-> (~ has_member o k /\ x = None) \/ exists j y, member o k j /\ f j = Some y /\ x = Some y).
Proof.
  intro D. unfold get_if. split.
  - destruct (obj_get k o) as [j|] eqn:E.
    + destruct (f j) as [y|] eqn:F; [|discriminate]. intros [= <-]. right. exists j, y. split; [now apply obj_get_in|]. now split.
    + intros [= <-]. left. split; [|reflexivity]. now apply obj_get_none.
  - intros [[N ->] | (j & y & M & F & ->)].
    + apply obj_get_none in N. now rewrite N.
    + apply (obj_get_in o k j D) in M. now rewrite M, F.
Qed.

Section Regex.
Variable regex_ok : str -> bool.

Lemma as_strings_iff l ps : map_all as_string l = Some ps <-> l = map JString ps.
Proof.
  split; [|intros ->; apply map_all_strings].
  revert ps. induction l as [|j l IH]; intros ps H; cbn [map_all] in H; [now injection H as <-|].
  destruct j; try discriminate. cbn in H. destruct (map_all as_string l) as [ps'|]; [|discriminate]. injection H as <-.
  cbn. f_equal. now apply IH.
Qed.

Lemma patterns_iff j ps : patterns_of_json regex_ok j = Some ps <-> j = JArray (map JString ps) /\ Forall (fun p => regex_ok p = true) ps.
Proof.
  unfold patterns_of_json. split.
  - destruct j; try discriminate. cbn [as_array]. destruct (map_all as_string items) as [qs|] eqn:E; [|discriminate].
    apply as_strings_iff in E. subst items. destruct (forallb regex_ok qs) eqn:F; [|discriminate]. intros [= <-].
    split; [reflexivity|]. apply Forall_forall. now apply forallb_forall.
  - intros [-> F]. cbn [as_array]. rewrite map_all_strings. rewrite Forall_forall in F.
    now rewrite (proj2 (forallb_forall regex_ok ps) F).
Qed.

Lemma get_patterns_iff o k ps : NoDup (map fst o) ->
  (get (patterns_of_json regex_ok) (lit k) o = Some ps <-> patterns_in regex_ok o k ps).
Proof.
  intro D. rewrite get_iff by exact D. unfold patterns_in. split.
  - intros (j & M & P). apply patterns_iff in P. destruct P as [-> F]. now split.
  - intros [M F]. eexists. split; [exact M|]. apply patterns_iff. now split.
Qed.

(** Maps that are made from objects *)
Lemma assign_new {V} (k : str) (v : V) m e : ~ In k (map fst m) -> In e (str_assign k v m) <-> e = (k, v) \/ In e m.
Proof.
  induction m as [|[k' v'] m IH]; intro N; cbn [str_assign]; [cbn; intuition congruence|].
  destruct (str_compare k k') eqn:E.
  - exfalso. apply N. left. symmetry. now apply (ord_eq _ str_order).
  - cbn. intuition congruence.
  - cbn [In]. rewrite IH; [intuition congruence|]. intro H. apply N. now right.
Qed.

Lemma assign_all_iff {V} (l : list (str * V)) e : forall m, NoDup (map fst l) -> (forall k, In k (map fst l) -> ~ In k (map fst m)) ->
  In e (assign_all l m) <-> In e l \/ In e m.
Proof.
  induction l as [|[k v] l IH]; intros m D X; [cbn; tauto|]. cbn [map fst] in D. inversion D as [|? ? N D']; subst.
  unfold assign_all. cbn [fold_left fst snd]. fold (assign_all l (str_assign k v m)). rewrite IH; [|exact D'|].
  - rewrite assign_new by (apply X; now left). cbn [In]. intuition congruence.
  - intros k' I J. apply in_map_iff in J. destruct J as (x & <- & J). apply assign_new in J; [|apply X; now left].
    destruct J as [-> | J]; [now apply N|]. apply (X (fst x)); [now right|now apply in_map].
Qed.

Lemma increasing_same {V} (m1 : list (str * V)) : forall m2, increasing m1 -> increasing m2 ->
  (forall e, In e m1 <-> In e m2) -> m1 = m2.
Proof.
  induction m1 as [|x m1 IH]; intros m2 I1 I2 E.
  - destruct m2 as [|y m2]; [reflexivity|]. exfalso. apply (proj2 (E y)). now left.
  - destruct m2 as [|y m2]; [exfalso; apply (proj1 (E x)); now left|].
    inversion I1 as [|? ? S1 F1]; subst. inversion I2 as [|? ? S2 F2]; subst. rewrite Forall_forall in F1, F2.
    assert (x = y).
    { destruct (proj1 (E x) (or_introl eq_refl)) as [H | H]; [now symmetry|].
      destruct (proj2 (E y) (or_introl eq_refl)) as [K | K]; [exact K|].
      pose proof (str_lt_trans _ _ _ (F1 _ K) (F2 _ H)) as L. rewrite str_compare_refl in L. discriminate. }
    subst y. f_equal. apply IH; [exact S1|exact S2|]. intro e.
    assert (Irr : forall f, str_compare (fst x) (fst f) = Lt -> f <> x)
      by (intros f L ->; rewrite str_compare_refl in L; discriminate).
    split; intro H.
    + destruct (proj1 (E e) (or_intror H)) as [-> | K]; [|exact K]. exfalso. exact (Irr _ (F1 _ H) eq_refl).
    + destruct (proj2 (E e) (or_intror H)) as [-> | K]; [|exact K]. exfalso. exact (Irr _ (F2 _ H) eq_refl).
Qed.

Lemma map_all_keys {V} (f : json -> option V) (o : compound) (l : list (str * V)) : map_all (fun e => option_map (pair (fst e)) (f (snd e))) o = Some l ->
  map fst l = map fst o.
Proof.
  revert l. induction o as [|[k j] o IH]; intros l H; cbn [map_all] in H; [now injection H as <-|].
  cbn [fst snd] in H. destruct (f j); cbn [option_map] in H; [|discriminate].
  destruct (map_all _ o) as [l'|]; [|discriminate]. injection H as <-. cbn. f_equal. now apply IH.
Qed.

Lemma map_iff {V} (f : json -> option V) (o : compound) m : NoDup (map fst o) ->
  (option_map (fun l => assign_all l []) (map_all (fun e => option_map (pair (fst e)) (f (snd e))) o) = Some m <->
   increasing m /\ (forall k x, In (k, x) m -> exists j, member o k j /\ f j = Some x) /\
   (forall k j, member o k j -> exists x, In (k, x) m /\ f j = Some x)).
Proof.
  intro D.
  assert (Fwd : forall m', option_map (fun l => assign_all l []) (map_all (fun e => option_map (pair (fst e)) (f (snd e))) o) = Some m' ->
    increasing m' /\ (forall k x, In (k, x) m' -> exists j, member o k j /\ f j = Some x) /\
    (forall k j, member o k j -> exists x, In (k, x) m' /\ f j = Some x)).
  { intros m' H. destruct (map_all _ o) as [l|] eqn:E; [|discriminate]. injection H as <-.
    pose proof (map_all_keys _ _ _ E) as K.
    assert (A : forall e, In e (assign_all l []) <-> In e l).
    { intro e. rewrite assign_all_iff; [cbn; tauto|now rewrite K|intros k _ []]. }
    split; [apply assign_all_increasing; constructor|]. split.
    - intros k x I. apply A in I. destruct (map_all_in _ _ _ E _ I) as ([k' j] & J & F). cbn [fst snd] in F.
      destruct (f j) as [y|] eqn:Y; [|discriminate]. injection F as <- <-. now exists j.
    - intros k j I. destruct (map_all_complete _ _ _ E _ I) as ([k' x] & J & F). cbn [fst snd] in F.
      destruct (f j) as [y|] eqn:Y; [|discriminate]. injection F as <- <-. exists y. split; [now apply A|reflexivity]. }
  split; [apply Fwd|]. intros (I & A & B).
  destruct (map_all (fun e => option_map (pair (fst e)) (f (snd e))) o) as [l|] eqn:E.
  2:{ exfalso. apply map_all_none in E. destruct E as ([k j] & J & F). destruct (B k j J) as (x & _ & X). cbn in F. now rewrite X in F. }
  cbn [option_map]. f_equal. destruct (Fwd _ eq_refl) as (I' & A' & B'). apply increasing_same; [exact I'|exact I|].
  intros [k x]. split; intro H.
  - destruct (A' _ _ H) as (j & J & X). destruct (B _ _ J) as (y & Y & Z). congruence.
  - destruct (A _ _ H) as (j & J & X). destruct (B' _ _ J) as (y & Y & Z). congruence.
Qed.

Lemma compiler_iff j x : compiler_of_json j = Some x <-> exists o, j = JObject o /\ compiler_says o x.
Proof.
  split.
  - intro H. destruct (compiler_described _ _ H) as (o & -> & Ds). exists o. split; [reflexivity|]. split; [exact Ds|].
    unfold compiler_of_json in H. cbn [as_object] in H.
    destruct (get_if as_string _ o); [|discriminate]. destruct (get_if as_integer _ o); [|discriminate].
    destruct (get as_object _ o); [|discriminate]. injection H as <-. reflexivity.
  - intros (o & -> & (R & U & C) & N). unfold compiler_of_json. cbn [as_object]. unfold get_if, get. rewrite C.
    destruct x as [r og cfg u]. cbn [recipe comp_origin comp_config use_get_tags] in *. subst og.
    destruct (obj_get (lit "recipe") o) as [[| |s| | | | |]|]; try contradiction; subst r;
      (destruct (obj_get (lit "use_get_tags") o) as [[| | |z| | | |]|]; try contradiction; [|subst u; reflexivity]);
      cbn [as_string as_integer as_object option_map]; repeat f_equal; destruct (Z.eqb_spec z 0) as [-> | Z]; destruct u; cbn; intuition congruence.
Qed.

Lemma tree_iff o t : valid_json (JObject o) -> (tree_config_of_json regex_ok (JObject o) = Some t <-> tree_says regex_ok o t).
Proof.
  intro V. apply valid_object_inv in V. destruct V as [D V]. unfold tree_config_of_json, tree_says. cbn [as_object].
  split.
  - destruct (get (patterns_of_json regex_ok) (lit "input_filter") o) as [f|] eqn:F; [|discriminate].
    destruct (get (patterns_of_json regex_ok) (lit "fullpath_input_filter") o) as [d|] eqn:Fd; [|discriminate].
    destruct (get as_integer (lit "recursive") o) as [r|] eqn:R; [|discriminate].
    destruct (get as_object (lit "file_info_loaders") o) as [l|] eqn:L; [|discriminate].
    apply (get_patterns_iff o _ _ D) in F, Fd. apply (get_iff _ _ _ _ D) in R, L.
    destruct R as ([| | |z| | | |] & R & Er); try discriminate. cbn in Er. injection Er as <-.
    destruct L as ([l'| | | | | | |] & L & El); try discriminate. cbn in El. injection El as <-.
    destruct (map_all _ l') as [m|] eqn:M; [|discriminate]. intros [= <-]. cbn [input_filter dir_filter recursive file_info_loaders].
    split; [exact F|]. split; [exact Fd|]. split.
    { exists z. split; [exact R|]. destruct (Z.eqb_spec z 0); cbn; intuition congruence. }
    exists l'. split; [exact L|]. destruct (V _ _ L) as [_ VL]. apply valid_object_inv in VL. destruct VL as [DL _].
    assert (H : option_map (fun l => assign_all l []) (map_all (fun e => option_map (pair (fst e)) (as_string (snd e))) l') = Some (assign_all m []))
      by now rewrite M.
    apply (map_iff _ _ _ DL) in H. destruct H as (I & A & B). split; [exact I|]. intros ext j. split.
    + intro J. destruct (B _ _ J) as (x & X & Y). exists x. split; [|exact X]. destruct j; try discriminate. cbn in Y. congruence.
    + intros (x & -> & X). destruct (A _ _ X) as (j & J & Y). destruct j; try discriminate. cbn in Y. injection Y as ->. exact J.
  - intros (F & Fd & (z & R & Rz) & l & L & I & A).
    apply (get_patterns_iff o _ _ D) in F, Fd. rewrite F, Fd.
    rewrite (proj2 (get_iff as_integer (lit "recursive") o z D)) by (eexists; split; [exact R|reflexivity]).
    rewrite (proj2 (get_iff as_object (lit "file_info_loaders") o l D)) by (eexists; split; [exact L|reflexivity]).
    destruct (V _ _ L) as [_ VL]. apply valid_object_inv in VL. destruct VL as [DL _].
    assert (H : option_map (fun l => assign_all l []) (map_all (fun e => option_map (pair (fst e)) (as_string (snd e))) l)
                = Some (file_info_loaders t)).
    { apply (map_iff _ _ _ DL). split; [exact I|]. split.
      - intros k x X. exists (JString x). split; [|reflexivity]. apply A. now exists x.
      - intros k j J. apply A in J. destruct J as (x & -> & X). exists x. split; [exact X|reflexivity]. }
    destruct (map_all _ l) as [m|]; [|discriminate]. cbn in H. injection H as H. unfold assign_all in H. rewrite H.
    destruct t as [a b c r]. cbn in *. repeat f_equal. destruct (Z.eqb_spec z 0) as [-> | Z]; destruct r; cbn; intuition congruence.
Qed.

Lemma make_iff of_json d o k : NoDup (map fst o) -> (make_instance of_json d o = Some k <->
  (~ has_member o (lit "config") /\ k = d) \/ exists j, member o (lit "config") j /\ of_json j = Some k).
Proof.
  intro D. unfold make_instance. destruct (get_if of_json (lit "config") o) as [r|] eqn:G.
  - pose proof G as G'. apply (get_if_iff _ _ _ _ D) in G. destruct G as [[N ->] | (j & y & M & F & ->)].
    + split; [intros [= <-]; left; now split|]. intros [[_ ->] | (j & M & _)]; [reflexivity|].
      exfalso. apply N. unfold has_member. change (lit "config") with (fst (lit "config", j)). now apply in_map.
    + split; [intros [= <-]; right; exists j; now split|]. intros [[N _] | (j' & M' & F')].
      * exfalso. apply N. unfold has_member. change (lit "config") with (fst (lit "config", j)). now apply in_map.
      * apply (obj_get_in _ _ _ D) in M, M'. congruence.
  - split; [discriminate|]. intros [[N ->] | (j & M & F)]; exfalso.
    + assert (get_if of_json (lit "config") o = Some None) by (apply (get_if_iff _ _ _ _ D); left; now split). congruence.
    + assert (get_if of_json (lit "config") o = Some (Some k)) by (apply (get_if_iff _ _ _ _ D); right; now exists j, k). congruence.
Qed.

Lemma cxx_iff j k : valid_json j -> (cxx_of_json regex_ok j = Some k <-> exists s ps, j = JObject s /\ k = KCxx ps /\
  (patterns_in regex_ok s "generated_includes" ps \/ (~ has_member s (lit "generated_includes") /\ ps = []))).
Proof.
  intro V. unfold cxx_of_json. split.
  - destruct j as [s| | | | | | |]; try discriminate. cbn [as_object]. apply valid_object_inv in V. destruct V as [D _].
    destruct (get_if _ _ s) as [r|] eqn:G; [|discriminate]. apply (get_if_iff _ _ _ _ D) in G.
    destruct G as [[N ->] | (j & ps & M & P & ->)]; intros [= <-].
    + exists s, []. repeat split. right. now split.
    + exists s, ps. repeat split. left. apply patterns_iff in P. destruct P as [-> F]. now split.
  - intros (s & ps & -> & -> & H). cbn [as_object]. apply valid_object_inv in V. destruct V as [D _]. destruct H as [[M F] | [N ->]].
    + rewrite (proj2 (get_if_iff (patterns_of_json regex_ok) (lit "generated_includes") s (Some ps) D)); [reflexivity|].
      right. eexists. exists ps. split; [exact M|]. split; [|reflexivity]. apply patterns_iff. now split.
    + rewrite (proj2 (get_if_iff (patterns_of_json regex_ok) (lit "generated_includes") s None D)); [reflexivity|]. left. now split.
Qed.

Lemma ext_mode_iff s m : ext_mode_of_string s = Some m <-> (s = lit "append" /\ m = Append) \/ (s = lit "replace" /\ m = Replace).
Proof.
  unfold ext_mode_of_string. destruct (str_eqb s (lit "append")) eqn:E1.
  - apply str_eqb_eq in E1. subst s. split; [intros [= <-]; now left|]. intros [[_ ->] | [E _]]; [reflexivity|discriminate].
  - assert (N : s <> lit "append") by (intros ->; now rewrite (proj2 (str_eqb_eq _ _) eq_refl) in E1).
    destruct (str_eqb s (lit "replace")) eqn:E2.
    + apply str_eqb_eq in E2. subst s. split; [intros [= <-]; now right|]. intros [[E _] | [_ ->]]; [discriminate|reflexivity].
    + assert (N' : s <> lit "replace") by (intros ->; now rewrite (proj2 (str_eqb_eq _ _) eq_refl) in E2).
      split; [discriminate|]. intros [[E _] | [E _]]; contradiction.
Qed.

Lemma generic_iff j k : valid_json j -> (generic_of_json j = Some k <-> exists s ext mode, j = JObject s /\ k = KGeneric ext mode /\
  member s (lit "target_filename_ext") (JString ext) /\
  ((member s (lit "filename_ext_replacement_mode") (JString (lit "append")) /\ mode = Append) \/
   (member s (lit "filename_ext_replacement_mode") (JString (lit "replace")) /\ mode = Replace) \/
   (~ has_member s (lit "filename_ext_replacement_mode") /\ mode = Append))).
Proof.
  intro V. unfold generic_of_json. split.
  - destruct j as [s| | | | | | |]; try discriminate. cbn [as_object]. apply valid_object_inv in V. destruct V as [D _].
    destruct (get as_string _ s) as [ext|] eqn:G; [|discriminate]. apply (get_iff _ _ _ _ D) in G.
    destruct G as (je & M & E). destruct je; try discriminate. cbn in E. injection E as ->.
    destruct (get_if _ _ s) as [r|] eqn:R; [|discriminate]. apply (get_if_iff _ _ _ _ D) in R. intros [= <-]. exists s, ext.
    destruct R as [[N ->] | (j & m & M' & P & ->)].
    + exists Append. repeat split; [exact M|]. right. right. now split.
    + exists m. repeat split; [exact M|]. destruct j as [| |t| | | | |]; try discriminate P. cbn [as_string] in P.
      apply ext_mode_iff in P. destruct P as [[-> ->] | [-> ->]]; [left|right; left]; now split.
  - intros (s & ext & mode & -> & -> & M & H). cbn [as_object]. apply valid_object_inv in V. destruct V as [D _].
    rewrite (proj2 (get_iff as_string _ s ext D)) by (eexists; split; [exact M|reflexivity]).
    set (f := fun j => match as_string j with Some s => ext_mode_of_string s | None => None end).
    destruct H as [[M' ->] | [[M' ->] | [N ->]]].
    + rewrite (proj2 (get_if_iff f _ s (Some Append) D)); [reflexivity|]. right. eexists. eexists. split; [exact M'|]. now split.
    + rewrite (proj2 (get_if_iff f _ s (Some Replace) D)); [reflexivity|]. right. eexists. eexists. split; [exact M'|]. now split.
    + rewrite (proj2 (get_if_iff f _ s None D)); [reflexivity|]. left. now split.
Qed.

Definition kind_for (name : str) (o : compound) : option loader_kind :=
  if str_eqb name (lit "app") then Some KApp
  else if str_eqb name (lit "cxx_src_loader") then make_instance (cxx_of_json regex_ok) default_cxx o
  else if str_eqb name (lit "extension") then Some KExtension
  else if str_eqb name (lit "maikerule") then Some KMaikerule
  else if str_eqb name (lit "generic") then make_instance generic_of_json default_generic o
  else if str_eqb name (lit "lib") then Some KLib
  else None.

Lemma cxx_kind o k : valid_json (JObject o) -> member o (lit "loader") (JString (lit "cxx_src_loader")) ->
  (make_instance (cxx_of_json regex_ok) default_cxx o = Some k <-> kind_says regex_ok o k /\ exists ps, k = KCxx ps).
Proof.
  intros V L. pose proof V as V'. apply valid_object_inv in V'. destruct V' as [D VM]. rewrite make_iff by exact D. split.
  - intros [[N ->] | (j & M & F)].
    + split; [|eexists; reflexivity]. split; [exact L|]. left. now split.
    + apply cxx_iff in F; [|exact (proj2 (VM _ _ M))]. destruct F as (s & ps & -> & -> & F). split; [|now exists ps].
      split; [exact L|]. right. exists s. now split.
  - intros [K (ps & ->)]. destruct K as [_ [[N ->] | (s & M & F)]]; [left; now split|]. right. exists (JObject s). split; [exact M|].
    apply cxx_iff; [exact (proj2 (VM _ _ M))|]. exists s, ps. now repeat split.
Qed.

Lemma generic_kind o k : valid_json (JObject o) -> member o (lit "loader") (JString (lit "generic")) ->
  (make_instance generic_of_json default_generic o = Some k <-> kind_says regex_ok o k /\ exists e m, k = KGeneric e m).
Proof.
  intros V L. pose proof V as V'. apply valid_object_inv in V'. destruct V' as [D VM]. rewrite make_iff by exact D. split.
  - intros [[N ->] | (j & M & F)].
    + split; [|eexists; eexists; reflexivity]. split; [exact L|]. left. now repeat split.
    + apply generic_iff in F; [|exact (proj2 (VM _ _ M))]. destruct F as (s & e & m & -> & -> & F). split; [|now exists e, m].
      split; [exact L|]. right. exists s. now split.
  - intros [K (e & m & ->)]. destruct K as [_ [(N & -> & ->) | (s & M & F)]]; [left; now split|]. right. exists (JObject s). split; [exact M|].
    apply generic_iff; [exact (proj2 (VM _ _ M))|]. exists s, e, m. now repeat split.
Qed.

Lemma kind_iff o name k : valid_json (JObject o) -> member o (lit "loader") (JString name) ->
  (kind_for name o = Some k <-> kind_says regex_ok o k).
Proof.
  intros V L. pose proof V as V'. apply valid_object_inv in V'. destruct V' as [D _].
  assert (U : forall n, member o (lit "loader") (JString n) -> n = name).
  { intros n M. apply (obj_get_in _ _ _ D) in M, L. congruence. }
  assert (Ne : forall n, str_eqb name n = false -> name <> n) by (intros n E ->; now rewrite (proj2 (str_eqb_eq _ _) eq_refl) in E).
  assert (Nm : forall k, kind_says regex_ok o k -> name = kind_name k).
  { intros k0 K. destruct k0; cbn in K; try (destruct K as [K _]); symmetry; now apply U. }
  unfold kind_for.
  destruct (str_eqb name (lit "app")) eqn:E1; [|destruct (str_eqb name (lit "cxx_src_loader")) eqn:E2;
    [|destruct (str_eqb name (lit "extension")) eqn:E3; [|destruct (str_eqb name (lit "maikerule")) eqn:E4;
    [|destruct (str_eqb name (lit "generic")) eqn:E5; [|destruct (str_eqb name (lit "lib")) eqn:E6]]]]].
  - apply str_eqb_eq in E1. subst name. split; [intros [= <-]; exact L|]. intro K. apply Nm in K. destruct k; try discriminate. reflexivity.
  - apply str_eqb_eq in E2. subst name. rewrite (cxx_kind o k V L). split; [now intros [K _]|]. intro K. split; [exact K|].
    apply Nm in K. destruct k; try discriminate. eexists. reflexivity.
  - apply str_eqb_eq in E3. subst name. split; [intros [= <-]; exact L|]. intro K. apply Nm in K. destruct k; try discriminate. reflexivity.
  - apply str_eqb_eq in E4. subst name. split; [intros [= <-]; exact L|]. intro K. apply Nm in K. destruct k; try discriminate. reflexivity.
  - apply str_eqb_eq in E5. subst name. rewrite (generic_kind o k V L). split; [now intros [K _]|]. intro K. split; [exact K|].
    apply Nm in K. destruct k; try discriminate. eexists. eexists. reflexivity.
  - apply str_eqb_eq in E6. subst name. split; [intros [= <-]; exact L|]. intro K. apply Nm in K. destruct k; try discriminate. reflexivity.
  - split; [discriminate|]. intro K. apply Nm in K. apply Ne in E1, E2, E3, E4, E5, E6. destruct k; cbn in K; contradiction.
Qed.

Lemma loader_iff j l : valid_json j -> (loader_of_json regex_ok j = Some l <-> loader_says regex_ok j l).
Proof.
  intro V. unfold loader_of_json, loader_says. split.
  - destruct j as [o| | | | | | |]; try discriminate. cbn [as_object]. pose proof V as V'. apply valid_object_inv in V'. destruct V' as [D _].
    destruct (get as_string (lit "loader") o) as [name|] eqn:N; [|discriminate].
    destruct (get compiler_of_json (lit "compiler") o) as [c|] eqn:C; [|discriminate].
    change (option_map (fun k => (k, c)) (kind_for name o) = Some l -> exists o0 c0, JObject o = JObject o0 /\
      kind_says regex_ok o0 (fst l) /\ member o0 (lit "compiler") (JObject c0) /\ compiler_says c0 (snd l)).
    apply (get_iff _ _ _ _ D) in N, C. destruct N as (jn & N & En). destruct jn; try discriminate. cbn in En. injection En as ->.
    destruct C as (jc & C & Ec). apply compiler_iff in Ec. destruct Ec as (oc & -> & Sc).
    destruct (kind_for name o) as [k|] eqn:K; [|discriminate]. intros [= <-]. exists o, oc. split; [reflexivity|].
    split; [now apply (kind_iff o name k V N)|]. now split.
  - intros (o & oc & -> & K & C & Sc). cbn [as_object]. pose proof V as V'. apply valid_object_inv in V'. destruct V' as [D _].
    assert (N : exists name, member o (lit "loader") (JString name)).
    { destruct (fst l); cbn in K; try (destruct K as [K _]); eexists; exact K. }
    destruct N as (name & N).
    rewrite (proj2 (get_iff as_string _ o name D)) by (eexists; split; [exact N|reflexivity]).
    rewrite (proj2 (get_iff compiler_of_json _ o (snd l) D)) by (eexists; split; [exact C|]; apply compiler_iff; now exists oc).
    change (option_map (fun k => (k, snd l)) (kind_for name o) = Some l).
    apply (kind_iff o name _ V N) in K. rewrite K. now destruct l.
Qed.

Theorem config_iff j c : valid_json j -> (config_of_json regex_ok j = Some c <-> config_says regex_ok j c).
Proof.
  intro V. unfold config_of_json, config_says. split.
  - destruct j as [o| | | | | | |]; try discriminate. cbn [as_object]. apply valid_object_inv in V. destruct V as [D V].
    destruct (get (tree_config_of_json regex_ok) _ o) as [t|] eqn:T; [|discriminate].
    destruct (get (info_loaders_of_json regex_ok) _ o) as [l|] eqn:L; [|discriminate].
    destruct (get compiler_of_json _ o) as [d|] eqn:C; [|discriminate]. intros [= <-]. cbn [tree_loader info_loaders dir_compiler].
    apply (get_iff _ _ _ _ D) in T, L, C. destruct T as (jt & T & Et). destruct L as (jl & L & El). destruct C as (jc & C & Ec).
    apply compiler_iff in Ec. destruct Ec as (oc & -> & Sc).
    destruct jt as [ot| | | | | | |]; try discriminate. apply tree_iff in Et; [|exact (proj2 (V _ _ T))].
    destruct jl as [ol| | | | | | |]; try discriminate. unfold info_loaders_of_json in El. cbn [as_object] in El.
    pose proof (proj2 (V _ _ L)) as VL. apply valid_object_inv in VL. destruct VL as [DL VL].
    apply (map_iff _ _ _ DL) in El. destruct El as (I & A & B). exists o, ot, ol, oc.
    split; [reflexivity|]. split; [exact T|]. split; [exact Et|]. split; [exact L|]. split; [exact I|]. split; [|split; [|now split]].
    + intros name x X. destruct (A _ _ X) as (j & J & F). exists j. split; [exact J|]. apply loader_iff; [exact (proj2 (VL _ _ J))|exact F].
    + intros name j J. destruct (B _ _ J) as (x & X & F). exists x. split; [exact X|]. apply loader_iff; [exact (proj2 (VL _ _ J))|exact F].
  - intros (o & ot & ol & oc & -> & T & Et & L & I & A & B & C & Sc). cbn [as_object]. apply valid_object_inv in V. destruct V as [D V].
    rewrite (proj2 (get_iff (tree_config_of_json regex_ok) _ o (tree_loader c) D))
      by (eexists; split; [exact T|]; apply tree_iff; [exact (proj2 (V _ _ T))|exact Et]).
    pose proof (proj2 (V _ _ L)) as VL. apply valid_object_inv in VL. destruct VL as [DL VL].
    rewrite (proj2 (get_iff (info_loaders_of_json regex_ok) _ o (info_loaders c) D)).
    2:{ eexists. split; [exact L|]. unfold info_loaders_of_json. cbn [as_object]. apply (map_iff _ _ _ DL). split; [exact I|]. split.
        - intros name x X. destruct (A _ _ X) as (j & J & F). exists j. split; [exact J|]. apply loader_iff; [exact (proj2 (VL _ _ J))|exact F].
        - intros name j J. destruct (B _ _ J) as (x & X & F). exists x. split; [exact X|]. apply loader_iff; [exact (proj2 (VL _ _ J))|exact F]. }
    rewrite (proj2 (get_iff compiler_of_json _ o (dir_compiler c) D)) by (eexists; split; [exact C|]; apply compiler_iff; now exists oc).
    now destruct c.
Qed.
End Regex.

(** * What is done without a configuration file *)

Lemma usual_map : map_loaders default_config =
  Some (map (fun row => (lit (fst row), (fst (snd row), mk_compiler (parse_path (lit (fst (snd (snd row))))) None (snd (snd (snd row))) false))) usual).
Proof. vm_compute. reflexivity. Qed.

Theorem usual_loaders e k x : loader_for default_config e (k, x) <->
  exists ext r cfg, In (ext, (k, (r, cfg))) usual /\ e = lit ext /\ x = mk_compiler (parse_path (lit r)) None cfg false.
Proof.
  pose proof (map_loaders_spec default_config) as H. rewrite usual_map in H.
  destruct H as (_ & _ & H); [cbn; repeat constructor|cbn; repeat constructor|]. rewrite <- H. rewrite in_map_iff. split.
  - intros ([ext [k' [r cfg]]] & E & I). cbn [fst snd] in E. injection E as <- <- <-. now exists ext, r, cfg.
  - intros (ext & r & cfg & I & -> & ->). exists (ext, (k, (r, cfg))). now split.
Qed.

(** A kind of loader with another name is not accepted. *)
Lemma unknown_kind regex_ok o name : NoDup (map fst o) -> member o (lit "loader") (JString name) ->
  ~ In name [lit "app"; lit "cxx_src_loader"; lit "extension"; lit "maikerule"; lit "generic"; lit "lib"] ->
  loader_of_json regex_ok (JObject o) = None.
Proof.
  intros D L N. unfold loader_of_json. cbn [as_object].
  rewrite (proj2 (get_iff as_string _ o name D)) by (eexists; split; [exact L|reflexivity]).
  destruct (get compiler_of_json (lit "compiler") o); [|reflexivity].
  assert (E : forall n, In n [lit "app"; lit "cxx_src_loader"; lit "extension"; lit "maikerule"; lit "generic"; lit "lib"] -> str_eqb name n = false).
  { intros n I. destruct (str_eqb name n) eqn:E; [|reflexivity]. apply str_eqb_eq in E. subst n. contradiction. }
  rewrite !E by (cbn; tauto). reflexivity.
Qed.

Theorem unknown_loader regex_ok j o l o' name kind : j = JObject o -> member o (lit "source_file_info_loaders") (JObject l) ->
  member l name (JObject o') -> member o' (lit "loader") (JString kind) -> valid_json j ->
  ~ In kind [lit "app"; lit "cxx_src_loader"; lit "extension"; lit "maikerule"; lit "generic"; lit "lib"] ->
  config_of_json regex_ok j = None.
Proof.
  intros -> L M K V N. destruct (config_of_json regex_ok (JObject o)) as [c|] eqn:C; [|reflexivity]. exfalso.
  apply (config_iff regex_ok _ _ V) in C. destruct C as (o2 & t & l2 & d & E & _ & _ & L2 & _ & _ & B & _). injection E as <-.
  apply valid_object_inv in V. destruct V as [D V].
  assert (l2 = l) by (apply (obj_get_in _ _ _ D) in L, L2; congruence). subst l2.
  destruct (B _ _ M) as (x & _ & S). pose proof (proj2 (V _ _ L)) as VL. apply valid_object_inv in VL. destruct VL as [DL VL].
  apply loader_iff in S; [|exact (proj2 (VL _ _ M))]. pose proof (proj2 (VL _ _ M)) as VM. apply valid_object_inv in VM. destruct VM as [DM _].
  rewrite (unknown_kind regex_ok o' kind DM K N) in S. discriminate.
Qed.
