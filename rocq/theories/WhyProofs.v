(** Proofs about what the program tells. *)

From Coq Require Import Ascii String Bool ZArith Arith Lia Sorted.
From Coq Require Import List.
From Verif Require Import Str Path SMap PathProofs JsonModel DbModel GraphModel DepGraphModel DepGraphSpec DepGraphProofs.
From Verif Require Import FileListModel FileListSpec FileListProofs SchedModel SchedSpec SchedProofs.
From Verif Require Import TaskListModel TaskListSpec TaskListProofs LoadModel CfgModel CfgProofs ValueModel ValueSpec ValueProofs JobProofs.
From Verif Require Import CmdModel CmdSpec CmdProofs MainModel MainSpec MainProofs WhyModel WhySpec.
Import ListNotations.

(** * The command line *)

Lemma first_bad_digit : forall s k val bytes, id_loop s k val bytes = None -> k <= 64 ->
  exists s1 c s2, s = s1 ++ c :: s2 /\ Forall hexadecimal s1 /\ length s1 + k < 64 /\ ~ hexadecimal c /\
    find not_a_digit (firstn (64 - k) s) = Some c.
Proof.
  induction s as [|c s IH]; intros k val bytes H K; [discriminate|]. cbn [id_loop] in H.
  change (2 * id_size) with 64 in H.
  destruct (Ascii.eqb c "000" || Nat.eqb k 64) eqn:E; [discriminate|]. apply orb_false_elim in E. destruct E as [_ E].
  apply Nat.eqb_neq in E. replace (64 - k) with (S (64 - S k)) by lia. cbn [firstn find].
  unfold not_a_digit at 1. destruct (to_nibble c) as [nibble|] eqn:N.
  - assert (Hc : hexadecimal c) by (apply hexadecimal_nibble; congruence).
    destruct (Nat.odd k); apply IH in H; try lia; destruct H as (s1 & c' & s2 & -> & F & L & B & X);
      exists (c :: s1), c', s2; (split; [reflexivity|]); (split; [now constructor|]); (split; [cbn; lia|]); split; assumption.
  - exists [], c, s. split; [reflexivity|]. split; [constructor|]. split; [cbn; lia|]. split; [|reflexivity].
    intro Hc. apply hexadecimal_nibble in Hc. contradiction.
Qed.

Lemma named_option_name : forall o, named_option (option_name o) = Some o.
Proof. destruct o; vm_compute; reflexivity. Qed.

Section Line.
Variable accepts : cmd_option -> str -> bool.
Hypothesis Hid : forall s, accepts BuildId s = false -> id_of_string s = None.

Lemma paths_accepted : forall text, list_of_string (fun t => Some (parse_path t)) text <> None.
Proof.
  intros text. destruct (split_list_reads text) as (l & E & _).
  assert (X : list_of_string (fun t => Some (parse_path t)) text = Some (map parse_path l)); [|congruence].
  apply (list_of_string_iff _ text l _ E). clear E. induction l; constructor; auto.
Qed.

Lemma conversion_bad : forall o text, option_convert accepts o text = None -> bad_value o text (conversion_error o text).
Proof.
  intros o text H. destruct o; cbn [option_convert conversion_error] in *; try discriminate;
    try (destruct text; [discriminate|]; apply bad_flag; [cbn; tauto|discriminate]); try constructor.
  1, 2: exfalso; apply (paths_accepted text); destruct (list_of_string _ text); [discriminate|reflexivity].
  destruct (accepts BuildId text) eqn:A; [discriminate|]. apply Hid in A. unfold id_of_string in A.
  apply first_bad_digit in A; [|lia]. destruct A as (s1 & c & s2 & -> & F & L & B & X).
  change (64 - 0) with 64 in X. rewrite X. apply bad_id; [exact F|lia|exact B].
Qed.

Lemma argument_problem_more : forall arg argv m, argument_problem accepts argv m -> argument_problem accepts (arg :: argv) m.
Proof.
  intros arg argv m H. destruct H as [a I N P | a o I P V | a o t m I P C B].
  - apply no_such_option; auto. now right.
  - apply (no_value _ _ a); auto. now right.
  - apply (not_accepted _ _ a o t); auto. now right.
Qed.

Lemma converter_told_spec : forall o v,
  match converter_told (option_item accepts o) v with
  | Result value => run_converter (option_item accepts o) v = Some value
  | Thrown m => run_converter (option_item accepts o) v = None /\
      (v = [] /\ option_value_required o = true /\ m = lit "Option `" ++ option_name o ++ lit "` requires a value" \/
       option_convert accepts o v = None /\ bad_value o v m)
  | NoResult => False
  end.
Proof.
  intros o v.
  assert (C : match match option_convert accepts o v with
                    | Some value => Result value
                    | None => match named_option (option_name o) with
                              | Some o => Thrown (conversion_error o v)
                              | None => NoResult
                              end
                    end with
              | Result value => option_convert accepts o v = Some value
              | Thrown m => option_convert accepts o v = None /\
                  (v = [] /\ option_value_required o = true /\ m = lit "Option `" ++ option_name o ++ lit "` requires a value" \/
                   option_convert accepts o v = None /\ bad_value o v m)
              | NoResult => False
              end).
  { destruct (option_convert accepts o v) as [value|] eqn:E; [reflexivity|]. rewrite named_option_name.
    split; [reflexivity|]. right. split; [reflexivity|]. now apply conversion_bad. }
  unfold converter_told, run_converter. destruct v as [|c v].
  - cbn [opt_name opt_convert value_required option_item]. destruct (option_value_required o) eqn:R; [|exact C].
    split; [reflexivity|]. left. auto.
  - exact C.
Qed.

Lemma collect_told_spec : forall argv s,
  match collect_told (sort_options (option_table accepts)) argv s with
  | Result r => collect_options (sort_options (option_table accepts)) argv s = Some r
  | Thrown m => collect_options (sort_options (option_table accepts)) argv s = None /\ argument_problem accepts argv m
  | NoResult => False
  end.
Proof.
  induction argv as [|arg argv IH]; intro s; [reflexivity|].
  assert (Back : forall s', match collect_told (sort_options (option_table accepts)) argv s' with
            | Result r => collect_options (sort_options (option_table accepts)) argv s' = Some r
            | Thrown m => collect_options (sort_options (option_table accepts)) argv s' = None /\ argument_problem accepts (arg :: argv) m
            | NoResult => False
            end).
  { intro s'. specialize (IH s'). destruct (collect_told _ argv s'); try exact IH.
    destruct IH as [E P]. split; [exact E|]. now apply argument_problem_more. }
  destruct arg as [|c arg]; [exact (Back s)|].
  destruct (split_point_spec (c :: arg)) as (name & v & G & E & SP & _).
  rewrite (collect_step (option_table accepts) (c :: arg) name v argv s (table_names accepts) ltac:(discriminate) G E).
  cbn [collect_told]. rewrite SP.
  destruct (find_option (sort_options (option_table accepts)) (c :: arg) (length name)) as [x|] eqn:F.
  - apply (find_option_selected (option_table accepts) name v (c :: arg) (table_names accepts) G E) in F.
    assert (P : picks (option_table accepts) (c :: arg) x v) by (split; [discriminate|]; exists name; auto).
    assert (IX : In x (option_table accepts)) by (destruct F as (IX & _); exact IX).
    apply table_items in IX. destruct IX as (o & ->).
    pose proof (converter_told_spec o v) as C. destruct (converter_told (option_item accepts o) v) as [value|m|]; [| |exact C].
    + rewrite C. cbn [then_told]. apply Back.
    + cbn [then_told]. destruct C as [-> C]. split; [reflexivity|]. destruct C as [(-> & R & ->) | (N & B)].
      * apply (no_value _ _ (c :: arg)); [now left|exact P|exact R].
      * apply (not_accepted _ _ (c :: arg) o v); [now left|exact P|exact N|exact B].
  - split; [reflexivity|]. apply no_such_option; [now left|discriminate|].
    intros o text P. assert (Q : find_option (sort_options (option_table accepts)) (c :: arg) (length name) = Some (option_item accepts o)).
    { destruct P as (_ & name' & G' & E' & S). destruct (gives_unique (c :: arg) _ _ _ _ G G' E E') as [-> ->].
      apply (find_option_selected (option_table accepts) name' text (c :: arg) (table_names accepts) G' E'). exact S. }
    congruence.
Qed.
End Line.

(** * Files *)

Definition duplicate_message (name : path) (t : target) : str :=
  lit "Target has " ++ path_string name ++ lit " has already been defined in " ++ path_string (t_source t).

Fixpoint add_all (l : list (path * target)) (ts : target_list) : told target_list :=
  match l with
  | [] => Result ts
  | (n, t) :: l' =>
      match map_find n ts with
      | Some other => Thrown (duplicate_message n other)
      | None => add_all l' (map_insert n t ts)
      end
  end.

Lemma add_all_app : forall l1 l2 ts, add_all (l1 ++ l2) ts = then_told (add_all l1 ts) (add_all l2).
Proof.
  induction l1 as [|[n t] l1 IH]; intros l2 ts; [reflexivity|]. cbn [app add_all].
  destruct (map_find n ts); [reflexivity|apply IH].
Qed.

Lemma collect_of_all : forall src l ts, collect_of_told src l ts =
  add_all (map (fun t => (lexically_normal (ti_name t), mk_target src t)) (filter (fun t => negb (path_eqb src (ti_name t))) l)) ts.
Proof.
  intros src. induction l as [|t l IH]; intro ts; [reflexivity|]. cbn [collect_of_told filter].
  destruct (negb (path_eqb src (ti_name t))); [|apply IH]. cbn [map add_all]. unfold insert_unique_told.
  destruct (map_find (lexically_normal (ti_name t)) ts); [reflexivity|]. cbn [then_told]. apply IH.
Qed.

Lemma collect_from_all : forall fs ts, collect_from_told fs ts = add_all (declared_targets fs) ts.
Proof.
  induction fs as [|[p i] fs IH]; intro ts; [reflexivity|]. cbn [collect_from_told declared_targets flat_map fst snd].
  change (flat_map _ fs) with (declared_targets fs). rewrite add_all_app, <- collect_of_all.
  destruct (collect_of_told p (targets i) ts); cbn [then_told]; [apply IH|reflexivity..].
Qed.

Lemma add_all_thrown : forall l seen ts m, sorted_map ts -> (forall e, In e ts -> In e seen) -> add_all l ts = Thrown m ->
  exists name t l1 t' l2, l = l1 ++ (name, t') :: l2 /\ In (name, t) (seen ++ l1) /\ m = duplicate_message name t.
Proof.
  induction l as [|[n t] l IH]; intros seen ts m S H E; [discriminate|]. cbn [add_all] in E.
  destruct (map_find n ts) as [other|] eqn:F.
  - injection E as <-. apply map_find_in in F; [|exact S]. exists n, other, [], t, l. split; [reflexivity|]. split; [|reflexivity].
    rewrite app_nil_r. now apply H.
  - apply (IH (seen ++ [(n, t)])) in E.
    + destruct E as (name & u & l1 & t' & l2 & -> & I & ->). exists name, u, ((n, t) :: l1), t', l2.
      split; [reflexivity|]. split; [|reflexivity]. now rewrite <- app_assoc in I.
    + now apply map_insert_sorted.
    + intros [k v] J. apply map_insert_in in J; [|exact S]. apply in_or_app.
      destruct J as [J | (-> & -> & _)]; [left; now apply H|right; now left].
Qed.

Lemma collect_of_same : forall src l ts,
  match collect_of_told src l ts with
  | Result ts' => collect_targets_of src l ts = Loaded ts'
  | Thrown _ => exists e, collect_targets_of src l ts = Failed e
  | NoResult => False
  end.
Proof.
  intro src. induction l as [|t l IH]; intro ts; [reflexivity|]. cbn [collect_of_told collect_targets_of].
  destruct (negb (path_eqb src (ti_name t))); [|apply IH]. unfold insert_unique_told, insert_unique.
  destruct (map_find (lexically_normal (ti_name t)) ts); [eexists; reflexivity|]. cbn [then_told then_load]. apply IH.
Qed.

Lemma collect_from_same : forall fs ts,
  match collect_from_told fs ts with
  | Result ts' => collect_targets_from fs ts = Loaded ts'
  | Thrown _ => exists e, collect_targets_from fs ts = Failed e
  | NoResult => False
  end.
Proof.
  induction fs as [|[p i] fs IH]; intro ts; [reflexivity|]. cbn [collect_from_told collect_targets_from].
  pose proof (collect_of_same p (targets i) ts) as C. destruct (collect_of_told p (targets i) ts) as [ts'|m|].
  - rewrite C. cbn [then_told then_load]. apply IH.
  - destruct C as (e & ->). now exists e.
  - exact C.
Qed.

Lemma source_info_same : forall name t g,
  match source_info_told name t g with
  | Result i => make_source_file_info name t g = Loaded i
  | Thrown m => make_source_file_info name t g = Failed CyclicDependency /\ m = cycle_message
  | NoResult => make_source_file_info name t g = Failed UndefinedBehaviour
  end.
Proof.
  intros name t g. unfold source_info_told, make_source_file_info. destruct (get_node g (t_source t)); [|reflexivity].
  destruct (processGraphNodeRecursive dep_ref (edges_of g) n); auto.
Qed.

Lemma insert_infos_same : forall ts g fs,
  match insert_infos_told ts g fs with
  | Result fs' => insert_source_file_infos ts g fs = Loaded fs'
  | Thrown m => insert_source_file_infos ts g fs = Failed CyclicDependency /\ m = cycle_message
  | NoResult => insert_source_file_infos ts g fs = Failed UndefinedBehaviour
  end.
Proof.
  induction ts as [|[name t] ts IH]; intros g fs; [reflexivity|]. cbn [insert_infos_told insert_source_file_infos].
  pose proof (source_info_same name t g) as S. destruct (source_info_told name t g) as [i|m|].
  - rewrite S. cbn [then_told then_load]. apply IH.
  - destruct S as [-> ->]. split; reflexivity.
  - rewrite S. reflexivity.
Qed.

Definition resolve_message (p : path) (d : dependency) : str :=
  path_string p ++ lit ": error: Failed to resolve " ++ path_string (dep_name d).

Lemma resolve_all_same : forall ks p ds,
  match resolve_all_told ks p ds with
  | Result r => resolve_all ks false ds = Some r
  | Thrown m => resolve_all ks false ds = None /\
      exists d, In d ds /\ find_node ks (dep_name d) = None /\ m = resolve_message p d
  | NoResult => False
  end.
Proof.
  intros ks p. induction ds as [|d ds IH]; [reflexivity|]. cbn [resolve_all_told resolve_all].
  unfold resolve_told, resolve. destruct (find_node ks (dep_name d)) as [k|] eqn:F.
  - cbn [then_told]. destruct (resolve_all_told ks p ds) as [r|m|]; cbn [then_told]; [now rewrite IH| |exact IH].
    destruct IH as (-> & e & I & N & ->). split; [reflexivity|]. exists e. split; [now right|auto].
  - cbn [then_told]. split; [reflexivity|]. exists d. split; [now left|auto].
Qed.

Lemma resolve_files_same : forall ks fs,
  match resolve_files_told ks fs with
  | Result r => resolve_files ks false fs = Some r
  | Thrown m => resolve_files ks false fs = None /\
      exists p i d, In (p, i) fs /\ (In d (use_deps i) \/ In d (build_deps i)) /\ find_node ks (dep_name d) = None /\
        m = resolve_message p d
  | NoResult => False
  end.
Proof.
  intro ks. induction fs as [|[p i] fs IH]; [reflexivity|]. cbn [resolve_files_told resolve_files].
  pose proof (resolve_all_same ks p (use_deps i)) as U. destruct (resolve_all_told ks p (use_deps i)) as [u|m|]; cbn [then_told]; [| |exact U].
  2:{ destruct U as (-> & d & I & N & ->). split; [reflexivity|]. exists p, i, d. split; [now left|auto]. }
  rewrite U. pose proof (resolve_all_same ks p (build_deps i)) as B.
  destruct (resolve_all_told ks p (build_deps i)) as [b|m|]; cbn [then_told]; [| |exact B].
  2:{ destruct B as (-> & d & I & N & ->). split; [reflexivity|]. exists p, i, d. split; [now left|auto]. }
  rewrite B. destruct (resolve_files_told ks fs) as [r|m|]; cbn [then_told]; [now rewrite IH| |exact IH].
  destruct IH as (-> & q & j & d & I & D & N & ->). split; [reflexivity|]. exists q, j, d. split; [now right|auto].
Qed.

(** What an entry of the list has to have *)
Definition entries_require (fs m : file_list) : Prop :=
  forall p i, In (p, i) m -> (forall d, In d (use_deps i) -> requires fs p d) /\
    (use_target_deps i = true -> exists j, In (p, j) fs /\ use_target_deps j = true /\ targets j = targets i).

Lemma add_deps_require : forall fs l m, sorted_map m -> entries_require fs m ->
  entries_require fs (fold_left add_target_deps_to l m).
Proof.
  intros fs. induction l as [|k l IH]; intros m S H; [exact H|]. cbn [fold_left]. unfold add_target_deps_to at 2.
  destruct (map_find k m) as [info|] eqn:F; [|now apply IH]. destruct (use_target_deps info) eqn:U; [|now apply IH].
  apply IH; [now apply map_update_sorted|]. apply map_find_in in F; [|exact S].
  intros p i I. apply map_update_in in I; [|now apply sorted_nodup]. destruct I as [(-> & -> & _) | [_ I]]; [|now apply H].
  destruct (H k info F) as [R T]. destruct (T U) as (j & J & Uj & Tj). split.
  - cbn. intros d D. apply in_app_or in D. destruct D as [D | D]; [now apply R|]. unfold target_use_deps in D.
    apply in_flat_map in D. destruct D as (t & It & D). destruct (map_find (ti_name t) m) as [i2|] eqn:F2; [|destruct D].
    apply map_find_in in F2; [|exact S]. apply (requires_taken_over fs k j t d J Uj); [now rewrite Tj|].
    exact (proj1 (H _ _ F2) d D).
  - cbn. intros _. now exists j.
Qed.

Theorem load_told_spec : forall fs, scanned fs ->
  match load_told fs with
  | Result x => load_project fs = Loaded x
  | Thrown m => (exists e, load_project fs = Failed e) /\ project_problem fs m
  | NoResult => False
  end.
Proof.
  intros fs Hscan. pose proof (proj1 Hscan) as Hs. pose proof (scanned_unresolved fs Hscan) as Hu.
  unfold load_told, load_project, collect_targets.
  pose proof (collect_from_same fs []) as C. destruct (collect_from_told fs []) as [ts|m|] eqn:T; cbn [then_told]; [| |exact C].
  2:{ destruct C as (e & ->). split; [now exists e|]. rewrite collect_from_all in T.
      apply (add_all_thrown _ []) in T; [|constructor|intros ? []].
      destruct T as (name & t & l1 & t' & l2 & E & I & ->). cbn [app] in I. apply in_split in I. destruct I as (la & lb & ->).
      apply (declared_twice fs name t la lb t' l2). rewrite E, <- app_assoc. reflexivity. }
  destruct (collect_targets_ok fs) as [(ts' & Hts & Hnd & Hst & Hin)|(name & l1 & t & l2 & He & _)];
    [|unfold collect_targets in He; congruence].
  unfold collect_targets in Hts. rewrite C in Hts. injection Hts as <-. rewrite C. cbn [then_load].
  unfold make_source_file_infos. destruct (make_graph_lenient fs Hs) as [g0 [Hg0 _]]. rewrite Hg0.
  pose proof (insert_infos_same ts g0 fs) as Same.
  destruct (insert_infos_ok g0 fs ts fs) as
      [[(k & t & q & Hk & Hq & Hc) Hf]|[Hno (fs1 & Hf & Hs1 & Hkeep & Hnew & Hall)]]; auto.
  { apply sorted_nodup. auto. }
  { intros k t Hk. apply Hin in Hk. eapply generated_source_known; eauto. }
  - destruct (insert_infos_told ts g0 fs) as [r|m|]; cbn [then_told]; [congruence| |congruence].
    destruct Same as [-> ->]. cbn [then_load]. split; [eexists; reflexivity|].
    apply needs_itself. exists k, t, q. split; [now apply Hin|auto].
  - destruct (insert_infos_told ts g0 fs) as [r|m|]; cbn [then_told]; [|destruct Same; congruence|congruence].
    rewrite Hf in Same. injection Same as <-. rewrite Hf. cbn [then_load].
    assert (Hnew' : forall p info, In (p, info) fs1 -> In (p, info) fs \/
          (~ In p (map fst fs) /\ exists t inh, In (p, t) (declared_targets fs) /\
             info = generated_info (ti_use_deps (t_info t) ++ inh) (t_source t) /\
             forall d, In d inh <-> contributed fs p (t_source t) d)).
    { intros p i Hp. destruct (Hnew p i Hp) as [H|[Hn (t & inh & Ht & Hi & Hd)]]; auto.
      right. split; auto. exists t, inh. split; auto. apply Hin. auto. }
    assert (Hall' : forall p t, In (p, t) (declared_targets fs) -> In p (map fst fs1)).
    { intros p t Hp. eapply Hall. apply Hin. eauto. }
    set (fs2 := map_merge fs1 (create_placeholders fs1)). set (fs3 := add_target_deps fs2).
    assert (Hs2 : sorted_map fs2) by (apply (fs2_sorted fs1); auto).
    assert (Hs3 : sorted_map fs3) by (apply (fs3_sorted fs1); auto).
    assert (Ent : entries_require fs fs3).
    { unfold fs3, add_target_deps. apply add_deps_require; [exact Hs2|]. intros p i Ip.
      destruct (fs2_entries fs1 Hs1 p i Ip) as [I1 | (d & ->)]; [|split; [intros ? []|discriminate]].
      destruct (Hnew' p i I1) as [I0 | (Hn & t & inh & It & -> & Hd)].
      - split; [intros d D; eapply requires_used; eauto|]. intro U. now exists i.
      - split; [|discriminate]. cbn. intros d D. apply in_app_or in D. destruct D as [D | D].
        + apply (requires_declared fs p t); [now split|exact D].
        + apply (requires_contributed fs p t); [now split|now apply Hd]. }
    unfold make_graph. pose proof (resolve_files_same (map fst fs3) fs3) as R.
    destruct (resolve_files_told (map fst fs3) fs3) as [g|m|]; cbn [then_told]; [now rewrite R| |exact R].
    destruct R as (-> & p & i & d & Ip & D & N & ->). split; [eexists; reflexivity|].
    apply find_node_none in N; [|exact Hs3].
    assert (Un : ~ available fs (dep_name d)).
    { intro A. apply N. unfold fs3, fs2. rewrite (fs3_keys fs1 Hs1). now apply (fs2_keys fs fs1 Hs1 Hkeep Hnew' Hall' Hnd). }
    apply (not_found fs p d); [|exact Un]. destruct D as [D | D]; [exact (proj1 (Ent p i Ip) d D)|]. exfalso. apply Un.
    destruct (fs3_entries fs1 Hs1 p i Ip) as (i0 & I0 & extra & -> & _). cbn in D.
    destruct (fs2_build fs Hscan fs1 Hs1 Hnew' p i0 d I0 D) as [K _]. now apply available_source.
Qed.

(** * Sequences *)

Definition t_events {A} (x : tio A) : list event := fst (fst x).
Definition t_notes {A} (x : tio A) : list note := snd (fst x).
Definition t_result {A} (x : tio A) : told A := snd x.

(** What is left without messages *)
Definition forget {A} (r : told A) : option A := match r with Result a => Some a | _ => None end.
Definition erase {A} (x : tio A) : io A := (t_events x, forget (t_result x)).

Lemma then_ext : forall A B (x y : io A) (f h : A -> io B), x = y -> (forall a, f a = h a) -> and_then x f = and_then y h.
Proof. intros A B [es [a|]] y f h <- H; unfold and_then; cbn; [now rewrite H|reflexivity]. Qed.

Lemma erase_then : forall A B (x : tio A) (f : A -> tio B), erase (t_then x f) = and_then (erase x) (fun a => erase (f a)).
Proof.
  intros A B [[es ns] [a|m|]] f; unfold erase, and_then, t_events, t_result; cbn; [|reflexivity..].
  destruct (f a) as [[es' ns'] r]. reflexivity.
Qed.

Lemma erase_map : forall A B (f : A -> tio B) h l, (forall x, erase (f x) = h x) -> erase (t_map f l) = map_io h l.
Proof.
  intros A B f h l H. induction l as [|x l IH]; [reflexivity|]. cbn [t_map map_io]. rewrite erase_then.
  apply then_ext; [apply H|]. intro y. rewrite erase_then. apply then_ext; [exact IH|]. reflexivity.
Qed.

Lemma events_then : forall A B (x : tio A) (f : A -> tio B) e,
  In e (t_events (t_then x f)) <-> In e (t_events x) \/ exists a, t_result x = Result a /\ In e (t_events (f a)).
Proof.
  intros A B [[es ns] r] f e. unfold t_events, t_result. destruct r as [a|m|]; cbn [t_then fst snd].
  - destruct (f a) as [[es' ns'] r'] eqn:E. cbn [fst snd]. rewrite in_app_iff. split; intros [H | H].
    + now left.
    + right. exists a. split; [reflexivity|]. rewrite E. exact H.
    + now left.
    + right. destruct H as (b & Q & H). injection Q as <-. rewrite E in H. exact H.
  - split; [intro H; now left|]. intros [H | (b & Q & _)]; [exact H|discriminate].
  - split; [intro H; now left|]. intros [H | (b & Q & _)]; [exact H|discriminate].
Qed.

Lemma thrown_then : forall A B (x : tio A) (f : A -> tio B) m, t_result (t_then x f) = Thrown m <->
  t_result x = Thrown m \/ exists a, t_result x = Result a /\ t_result (f a) = Thrown m.
Proof.
  intros A B [[es ns] r] f m. unfold t_result. destruct r as [a|m'|]; cbn [t_then snd].
  - destruct (f a) as [[es' ns'] r'] eqn:E. cbn [snd]. split.
    + intro H. right. exists a. split; [reflexivity|]. rewrite E. exact H.
    + intros [H | (b & Q & H)]; [discriminate|]. injection Q as <-. rewrite E in H. exact H.
  - split; [intro H; left; injection H as ->; reflexivity|]. intros [H | (b & Q & _)]; [injection H as ->; reflexivity|discriminate].
  - split; [discriminate|]. intros [H | (b & Q & _)]; discriminate.
Qed.

Lemma nothing_then : forall A B (x : tio A) (f : A -> tio B), t_result (t_then x f) = NoResult <->
  t_result x = NoResult \/ exists a, t_result x = Result a /\ t_result (f a) = NoResult.
Proof.
  intros A B [[es ns] r] f. unfold t_result. destruct r as [a|m'|]; cbn [t_then snd].
  - destruct (f a) as [[es' ns'] r'] eqn:E. cbn [snd]. split.
    + intro H. right. exists a. split; [reflexivity|]. rewrite E. exact H.
    + intros [H | (b & Q & H)]; [discriminate|]. injection Q as <-. rewrite E in H. exact H.
  - split; [discriminate|]. intros [H | (b & Q & _)]; discriminate.
  - split; [intros _; now left|]. reflexivity.
Qed.

Lemma result_then : forall A B (x : tio A) (f : A -> tio B) b, t_result (t_then x f) = Result b <->
  exists a, t_result x = Result a /\ t_result (f a) = Result b.
Proof.
  intros A B [[es ns] r] f b. unfold t_result. destruct r as [a|m'|]; cbn [t_then snd].
  - destruct (f a) as [[es' ns'] r'] eqn:E. cbn [snd]. split.
    + intro H. exists a. split; [reflexivity|]. rewrite E. exact H.
    + intros (c & Q & H). injection Q as <-. rewrite E in H. exact H.
  - split; [discriminate|]. intros (c & Q & _). discriminate.
  - split; [discriminate|]. intros (c & Q & _). discriminate.
Qed.

Lemma notes_then : forall A B (x : tio A) (f : A -> tio B),
  t_notes (t_then x f) = t_notes x ++ match t_result x with Result a => t_notes (f a) | _ => [] end.
Proof.
  intros A B [[es ns] r] f. unfold t_notes, t_result. destruct r as [a|m|]; cbn; [|now rewrite app_nil_r..].
  destruct (f a) as [[es' ns'] r']. reflexivity.
Qed.

Lemma notes_map : forall A B (f : A -> tio B) l, (forall x, t_notes (f x) = []) -> t_notes (t_map f l) = [].
Proof.
  intros A B f l H. induction l as [|x l IH]; [reflexivity|]. cbn [t_map]. rewrite notes_then, H.
  destruct (t_result (f x)); [|reflexivity..]. rewrite notes_then, IH. now destruct (t_result (t_map f l)).
Qed.

Lemma thrown_map : forall A B (f : A -> tio B) l m, t_result (t_map f l) = Thrown m ->
  exists x, In x l /\ t_result (f x) = Thrown m /\ forall e, In e (t_events (f x)) -> In e (t_events (t_map f l)).
Proof.
  intros A B f l m. induction l as [|x l IH]; [discriminate|]. cbn [t_map]. intro H. apply thrown_then in H.
  destruct H as [H | (y & E & H)].
  - exists x. split; [now left|]. split; [exact H|]. intros e J. apply events_then. now left.
  - apply thrown_then in H. destruct H as [H | (ys & _ & H)]; [|discriminate].
    destruct (IH H) as (z & I & T & Ev). exists z. split; [now right|]. split; [exact T|].
    intros e J. apply events_then. right. exists y. split; [exact E|]. apply events_then. left. now apply Ev.
Qed.

Lemma nothing_map : forall A B (f : A -> tio B) l, (forall x, t_result (f x) <> NoResult) -> t_result (t_map f l) <> NoResult.
Proof.
  intros A B f l H. induction l as [|x l IH]; [discriminate|]. cbn [t_map]. intro N. apply nothing_then in N.
  destruct N as [N | (y & _ & N)]; [exact (H x N)|]. apply nothing_then in N.
  destruct N as [N | (ys & _ & N)]; [exact (IH N)|discriminate].
Qed.

Lemma result_map : forall A B (f : A -> tio B) l ys, t_result (t_map f l) = Result ys ->
  Forall2 (fun x y => t_result (f x) = Result y) l ys.
Proof.
  intros A B f l. induction l as [|x l IH]; intros ys H; cbn [t_map] in H.
  - injection H as <-. constructor.
  - apply result_then in H. destruct H as (y & E & H). apply result_then in H. destruct H as (ys' & E' & H).
    injection H as <-. constructor; [exact E|now apply IH].
Qed.

Section Erase.
Variables (env : environment) (msg : messages).

Lemma erase_or_thrown : forall A (o : option A) m, erase (t_lift (or_thrown o m)) = lift o.
Proof. intros A [a|] m; reflexivity. Qed.

Lemma erase_recipe : forall s c, erase (resolve_recipe_told env msg s c) = resolve_recipe_io env s c.
Proof.
  intros s c. unfold resolve_recipe_told, resolve_recipe_io. destruct (env_resolve env s (recipe c)) as [[p o]|]; [|reflexivity].
  destruct (path_eqb p empty_path); [reflexivity|]. rewrite erase_then. apply then_ext; [reflexivity|]. intros _.
  rewrite erase_then. apply then_ext; [apply erase_or_thrown|]. reflexivity.
Qed.

Lemma erase_recipes : forall s c, erase (resolve_recipes_told env msg s c) = resolve_recipes_io env s c.
Proof.
  intros s c. unfold resolve_recipes_told, resolve_recipes_io. rewrite erase_then. apply then_ext; [apply erase_recipe|]. intro d.
  rewrite erase_then. apply then_ext; [|reflexivity]. apply erase_map. intro e. rewrite erase_then.
  apply then_ext; [apply erase_recipe|]. reflexivity.
Qed.

Lemma find_unconfigured : forall c l e, find (unconfigured c) l = Some e -> In e l /\ ~ In (snd e) (map fst (info_loaders c)).
Proof.
  intros c l e H. apply find_some in H. destruct H as [I U]. split; [exact I|]. unfold unconfigured in U.
  destruct (lookup (snd e) (info_loaders c)) eqn:E; [discriminate|]. now apply lookup_none.
Qed.

Lemma map_loaders_none : forall c, map_loaders c = None <-> exists e, find (unconfigured c) (file_info_loaders (tree_loader c)) = Some e.
Proof.
  intro c. unfold map_loaders. induction (file_info_loaders (tree_loader c)) as [|e l IH]; cbn [map_all find].
  - split; [discriminate|]. intros (e & H). discriminate.
  - unfold unconfigured at 1. destruct (lookup (snd e) (info_loaders c)) as [x|]; cbn [option_map].
    + rewrite <- IH. destruct (map_all _ l); cbn; split; congruence.
    + split; [intros _; now exists e|reflexivity].
Qed.

Lemma erase_loaders : forall c, erase (t_lift (map_loaders_told c)) = lift (map_loaders c).
Proof.
  intro c. unfold map_loaders_told. destruct (find (unconfigured c) (file_info_loaders (tree_loader c))) as [e|] eqn:F.
  - rewrite (proj2 (map_loaders_none c)); [reflexivity|now exists e].
  - apply erase_or_thrown.
Qed.

Lemma erase_configuration : forall a, erase (read_configuration_told env a) = read_configuration env a.
Proof.
  intro a. unfold read_configuration_told. destruct (read_configuration env a) as [es [c|]]; reflexivity.
Qed.

Lemma forget_load : forall fs, forget (load_told fs) = match load_project fs with Loaded x => Some x | Failed _ => None end.
Proof.
  intro fs. unfold load_told, load_project, collect_targets. pose proof (collect_from_same fs []) as C.
  destruct (collect_from_told fs []) as [ts|m|]; [|destruct C as (e & ->); reflexivity|destruct C].
  rewrite C. cbn [then_told then_load]. unfold make_source_file_infos. destruct (make_graph true fs) as [g|]; [|reflexivity].
  pose proof (insert_infos_same ts g fs) as S. destruct (insert_infos_told ts g fs) as [fs1|m|];
    [|destruct S as [-> _]; reflexivity|rewrite S; reflexivity].
  rewrite S. cbn [then_told then_load]. set (fs2 := add_target_deps _). unfold make_graph.
  pose proof (resolve_files_same (map fst fs2) fs2) as R. destruct (resolve_files_told (map fst fs2) fs2) as [r|m|];
    [rewrite R; reflexivity|destruct R as [-> _]; reflexivity|destruct R].
Qed.

Lemma erase_load : forall a c l, erase (load_tree_told env msg a c l) = load_tree env a c l.
Proof.
  intros a c l. unfold load_tree_told, load_tree. destruct (env_scan _ _ _ _ _ _) as [runs r]. rewrite erase_then.
  apply then_ext; [now destruct r|]. intro fs. rewrite erase_then. apply then_ext; [reflexivity|]. intros _.
  rewrite erase_then. unfold erase at 1. unfold t_lift at 1 2. cbn [t_events t_result fst snd]. rewrite forget_load.
  destruct (load_project fs); reflexivity.
Qed.

Lemma erase_process : forall g d f l, erase (process_told env msg g d f l) = process_io env g d f l.
Proof.
  intros g d f [[rs tasks]|]; [|reflexivity]. cbn [process_told process_io]. destruct (env_process env g rs tasks d f) as [tr r].
  rewrite erase_then. apply then_ext; [reflexivity|]. intros _. apply erase_or_thrown.
Qed.

Lemma erase_target : forall ts g td d f name, erase (compile_target_told env msg ts g td d f name) = compile_target env ts g td d f name.
Proof.
  intros. unfold compile_target_told, compile_target. rewrite erase_then. apply then_ext; [apply erase_or_thrown|].
  intro t. apply erase_process.
Qed.

Lemma then_unit : forall A (x : io A), and_then x (fun _ => done tt) = (fst x, match snd x with Some _ => Some tt | None => None end).
Proof. intros A [es [a|]]; unfold and_then; cbn; [now rewrite app_nil_r|reflexivity]. Qed.

Definition build_told (a : arguments) (ts : target_list) (g : file_list) : tio unit :=
  match option_given a Targets with
  | Some (PathsValue names) => timed_compile (compile_targets_told env msg ts g (target_directory a) (has_option a DryRun) (has_option a ForceRebuild) names)
  | _ => timed_compile (process_told env msg g (has_option a DryRun) (has_option a ForceRebuild) (make_task_list g))
  end.

Definition finish_told (a : arguments) (ts : target_list) (g : file_list) : tio unit :=
  if has_option a ListTargets then t_emit (Shown None (TargetNames (target_names ts (target_directory a))))
  else if has_option a PrintDepGraph then t_emit (Shown None (GraphEdges (graph_edges g)))
  else build_told a ts g.

Lemma erase_build : forall a ts g, erase (build_told a ts g) = build_phase env a ts g.
Proof.
  intros a ts g. unfold build_told, build_phase, timed_compile, compile_targets_told, compile_all, compile_targets.
  destruct (option_given a Targets) as [[p|names|]|]; rewrite erase_then;
    try (apply then_ext; [apply erase_process|reflexivity]).
  rewrite erase_then.
  rewrite (erase_map _ _ _ _ names (erase_target ts g (target_directory a) (has_option a DryRun) (has_option a ForceRebuild))).
  destruct (map_io _ names) as [es [ns|]]; unfold and_then; cbn; [now rewrite !app_nil_r|reflexivity].
Qed.

Theorem erase_body : forall a, erase (main_body_told env msg a) = main_body env a.
Proof.
  intro a. unfold main_body_told, main_body. destruct (has_option a Help); [reflexivity|].
  destruct (has_option a Version); [reflexivity|]. destruct (has_option a About); [reflexivity|].
  rewrite erase_then. apply then_ext; [apply erase_configuration|]. intro c. destruct (has_option a ConfigDump); [reflexivity|].
  rewrite erase_then. apply then_ext; [apply erase_recipes|]. intro c'.
  rewrite erase_then. apply then_ext; [apply erase_loaders|]. intro ls.
  rewrite erase_then. apply then_ext; [apply erase_load|]. intros [ts g].
  pose proof (erase_build a ts g) as B. unfold build_told, build_phase in B.
  destruct (has_option a ListTargets); [reflexivity|]. destruct (has_option a PrintDepGraph); [reflexivity|]. exact B.
Qed.
End Erase.
