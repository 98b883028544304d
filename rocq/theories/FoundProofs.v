From Coq Require Import Ascii String NArith Bool Arith Lia.
From Coq Require Import List.
From Verif Require Import Str Path PathProofs JsonModel DbModel LoadModel LoadProofs LocProofs LexModel LexSpec LexProofs.
From Verif Require Import JLoadModel JLoadProofs CfgModel CfgSpec CfgProofs TreeProofs KindModel KindSpec KindProofs FoundSpec LoadSpec.
From Verif Require JLoadSpec.
Import ListNotations.

(** ** Lines *)

Lemma join_of_lines s : join_lines (lines s) = s.
Proof.
  induction s as [|c s IH]; [reflexivity|]. cbn [lines]. destruct (Ascii.eqb_spec c newline) as [->|N].
  - destruct (lines_cons s) as (l & ls & E). rewrite E in *. cbn [join_lines app] in *. now rewrite IH.
  - destruct (lines_cons s) as (l & ls & E). rewrite E in *. destruct ls as [|l2 ls]; cbn [join_lines] in *; now rewrite <- IH.
Qed.

Lemma join_app a b : b <> [] -> join_lines (a ++ b) = concat (map (fun x => x ++ [newline]) a) ++ join_lines b.
Proof.
  intro N. induction a as [|x a IH]; [reflexivity|]. cbn [app map concat].
  destruct (a ++ b) as [|y r] eqn:E; [apply app_eq_nil in E; destruct E; contradiction|].
  cbn [join_lines]. change (match r with [] => y | _ :: _ => y ++ newline :: join_lines r end) with (join_lines (y :: r)).
  rewrite IH, <- !app_assoc. reflexivity.
Qed.

Lemma join_prefix a b : a <> [] -> exists r, join_lines (a ++ b) = join_lines a ++ r.
Proof.
  induction a as [|x a IH]; intro N; [contradiction|]. destruct a as [|y a].
  - destruct b as [|z b]; cbn; [exists []; now rewrite app_nil_r|]. eexists. reflexivity.
  - destruct (IH ltac:(discriminate)) as (r & E). cbn [app join_lines] in *. exists r. rewrite E, <- app_assoc. reflexivity.
Qed.

(** ** What is in the stream of tags *)

Lemma filter_chars s : forall st c, In c (snd (filter_loop st s)) -> c = " "%char \/ In c s.
Proof.
  induction s as [|x s IH]; intros st c I; [destruct I|]. cbn [filter_loop] in I.
  destruct (filter_step st x) as [st' out] eqn:E. destruct (filter_loop st' s) as [source tags] eqn:E2. cbn [snd] in I.
  apply in_app_or in I. destruct I as [I|I].
  - assert (c = " "%char \/ c = x); [|destruct H as [H|H]; [now left|right; left; now symmetry]].
    assert (forall y, In y out -> y = " "%char \/ y = x) as H; [|exact (H c I)]. clear I E2 IH.
    destruct st; cbn [filter_step] in E;
      repeat match type of E with context [if ?b then _ else _] => destruct b eqn:?B end; injection E as <- <-;
      cbn; intros y Hy; repeat (destruct Hy as [Hy|Hy]); subst; auto; try contradiction;
      try (right; apply Ascii.eqb_eq; rewrite Ascii.eqb_sym; assumption).
  - specialize (IH st' c). rewrite E2 in IH. destruct (IH I); auto. right. now right.
Qed.

Lemma ext_chars s : forall st c, In c (snd (ext_loop st s)) -> c = " "%char \/ In c s.
Proof.
  induction s as [|x s IH]; intros st c I; [destruct I|]. cbn [ext_loop] in I.
  destruct (ext_step st x) as [st' out] eqn:E. destruct (ext_loop st' s) as [source tags] eqn:E2. cbn [snd] in I.
  apply in_app_or in I. destruct I as [I|I].
  - assert (c = " "%char \/ c = x); [|destruct H as [H|H]; [now left|right; left; now symmetry]].
    assert (forall y, In y out -> y = " "%char \/ y = x) as H; [|exact (H c I)]. clear I E2 IH.
    destruct st; cbn [ext_step] in E;
      repeat match type of E with context [if ?b then _ else _] => destruct b eqn:?B end; injection E as <- <-;
      cbn; intros y Hy; repeat (destruct Hy as [Hy|Hy]); subst; auto; try contradiction;
      try (right; apply Ascii.eqb_eq; rewrite Ascii.eqb_sym; assumption).
  - specialize (IH st' c). rewrite E2 in IH. destruct (IH I); auto. right. now right.
Qed.

Lemma in_lines s x c : In x (lines s) -> In c x -> In c s.
Proof.
  revert x. induction s as [|a s IH]; intros x I J; [destruct I as [<- | []]; exact J|]. cbn [lines] in I.
  destruct (Ascii.eqb a newline); [destruct I as [<- | I]; [destruct J|right; exact (IH x I J)]|].
  destruct (lines_cons s) as (l & ls & E). rewrite E in *. destruct I as [<- | I].
  - destruct J as [<- | J]; [now left|right; apply (IH l); [now left|exact J]].
  - right. apply (IH x); [now right|exact J].
Qed.

Lemma blank_lines_white out before after : usual_blanks out -> lines out = before ++ after -> after <> [] -> Forall blank before ->
  exists w, Forall json_white w /\ out = w ++ join_lines after.
Proof.
  intros U E N B. exists (concat (map (fun x => x ++ [newline]) before)). split.
  - apply Forall_concat, Forall_map, Forall_forall. intros x I. apply Forall_app. split.
    + apply Forall_forall. intros c J. apply U.
      * apply (in_lines out x); [|exact J]. rewrite E. apply in_or_app. now left.
      * rewrite Forall_forall in B. exact (B x I c J).
    + constructor; [|constructor]. cbn. tauto.
  - rewrite <- (join_app before after N), <- E. symmetry. apply join_of_lines.
Qed.

Lemma usual_filtered text out : (forall c, In c out -> c = " "%char \/ In c text) -> usual_blanks text -> usual_blanks out.
Proof. intros F U c I B. destruct (F c I) as [->|J]; [now left|exact (U c J B)]. Qed.

Lemma tag_line_unique l t1 t2 : tag_line (lit "#@") l t1 -> tag_line (lit "#@") l t2 -> t1 = t2.
Proof.
  intros (w1 & r1 & B1 & E1 & ->) (w2 & r2 & B2 & E2 & ->).
  assert (w1 = w2 /\ r1 = r2) as [-> ->]; [|reflexivity].
  rewrite E1 in E2. clear E1 l. revert w2 B2 E2. induction w1 as [|c w1 IH]; intros [|c2 w2] B2 E; cbn in E.
  - injection E as ->. auto.
  - injection E as <- E. specialize (B2 "#"%char (or_introl eq_refl)). discriminate.
  - injection E as -> E. specialize (B1 "#"%char (or_introl eq_refl)). discriminate.
  - injection E as <- E. destruct (IH (fun x I => B1 x (or_intror I)) w2 (fun x I => B2 x (or_intror I)) E). subst. auto.
Qed.

Lemma tags_at_front print k name text block : first_tags k text block -> usual_blanks text ->
  exists w r, Forall json_white w /\ snd (kind_filter_input print k name text) = w ++ block ++ r.
Proof.
  intros F U. destruct F as [k w text K W|text before tagged after tags E B T NT|ps l n tags after C T E NT].
  - exists w, []. split; [exact W|]. rewrite app_nil_r. destruct K as [-> | [-> | ->]]; reflexivity.
  - cbn [kind_filter_input]. pose proof (ext_tags_exact text) as X. rewrite E in X.
    set (out := snd (ext_filter_input text)) in *.
    assert (usual_blanks out) as UO by (apply (usual_filtered text); [intros c I; exact (ext_chars _ _ _ I)|exact U]).
    apply Forall2_app_inv_l in X. destruct X as (o1 & o23 & X1 & X23 & EO).
    apply Forall2_app_inv_l in X23. destruct X23 as (o2 & o3 & X2 & X3 & ->).
    assert (o2 = tags) as ->.
    { clear - X2 T. revert tags T. induction X2 as [|l t tl tt H X2 IH]; intros tags T; inversion T as [|? t' ? tags' A T']; subst; [reflexivity|].
      f_equal; [|exact (IH _ T')]. destruct H as [H|[_ H]]; [exact (tag_line_unique _ _ _ H A)|].
      destruct A as (ws & rest & BW & EL & _). destruct (H ws rest BW EL). }
    assert (Forall blank o1) as BO.
    { clear - X1 B. induction X1 as [|l t tl tt H X1 IH]; [constructor|]. inversion B; subst. constructor; [|auto].
      destruct H as [(ws & rest & BW & EL & _)|[H _]]; [|exact H]. exfalso. eapply H2; eassumption. }
    destruct (blank_lines_white out o1 (tags ++ o3) UO EO) as (w & W & EW); [intro Z; apply app_eq_nil in Z; tauto|exact BO|].
    destruct (join_prefix tags o3 NT) as (r & ER). exists w, r. split; [exact W|]. now rewrite <- ER.
  - cbn [kind_filter_input]. pose proof (cxx_tags_found l C T) as X. rewrite E in X. unfold same_tags in X.
    set (out := snd (cxx_filter_input (render l))) in *.
    assert (usual_blanks out) as UO by (apply (usual_filtered (render l)); [intros c I; exact (filter_chars _ _ _ I)|exact U]).
    apply Forall2_app_inv_l in X. destruct X as (o1 & o23 & X1 & X23 & EO).
    apply Forall2_app_inv_l in X23. destruct X23 as (o2 & o3 & X2 & X3 & ->).
    assert (o2 = tags) as ->.
    { clear - X2. revert o2 X2. induction tags as [|t tags IH]; intros o2 X; inversion X; subst; [reflexivity|]. f_equal. auto. }
    assert (Forall blank o1) as BO.
    { clear - X1. revert o1 X1. induction n as [|n IH]; intros o1 X; inversion X; subst; constructor; auto. }
    destruct (blank_lines_white out o1 (tags ++ o3) UO EO) as (w & W & EW); [intro Z; apply app_eq_nil in Z; tauto|exact BO|].
    destruct (join_prefix tags o3 NT) as (r & ER). exists w, r. split; [exact W|]. now rewrite <- ER.
Qed.

(** ** Decoding *)

Lemma reads_white {S V} (d : decoder S V) w p st : skips_white d -> Forall json_white w ->
  JLoadSpec.reads d (initial d) p st -> JLoadSpec.reads d (initial d) (w ++ p) st.
Proof.
  intros K W R. induction W as [|c w H W IH]; [exact R|]. cbn [app]. econstructor; [exact (K c H)|exact IH].
Qed.

Lemma decoded {S} (d : decoder S json) n w p q o : 0 < n -> skips_white d -> Forall json_white w ->
  JLoadSpec.text_of d (p ++ ["}"%char]) (JObject o) -> load_compound d n (w ++ p ++ "}"%char :: q) = Some o.
Proof.
  intros N K W (s' & c & st & E & R & F). apply app_inj_tail in E. destruct E as [<- <-].
  unfold load_compound. rewrite app_assoc, (load_value d n (w ++ p) "}"%char q (JObject o) N); [reflexivity|now left|].
  exists (w ++ p), "}"%char, st. split; [reflexivity|]. split; [|exact F]. apply reads_white; assumption.
Qed.

(** ** Loading *)

Lemma parse_spelled x : x <> [] -> Forall (fun c => c <> [] /\ ~ In "/"%char c) x -> parse_path (spelled x) = mk_path false x.
Proof.
  intros NX F. unfold spelled, path_string. cbn [absolute comps].
  assert (Forall no_slash x) as N by (eapply Forall_impl; [|exact F]; intros c [_ H]; exact H).
  assert (path_shape x) as SH.
  { split; [exact N|]. exists x. split; [|now left]. eapply Forall_impl; [|exact F]. intros c [H _]; exact H. }
  destruct x as [|c cs]; [contradiction|]. assert (hd [] (c :: cs) <> []) as NE by (inversion F as [|? ? [H _]]; exact H).
  unfold parse_path. rewrite split_join by (try discriminate; assumption). f_equal.
  - destruct (join_slash (c :: cs)) as [|y r] eqn:E; [reflexivity|]. destruct (Ascii.eqb_spec y "/") as [->|D]; [|reflexivity].
    exfalso. exact (join_head _ N NE r E).
  - exact (pieces_parse [] (c :: cs) (Forall_nil _) SH).
Qed.

Lemma ordinary_pieces x : Forall ordinary x -> Forall (fun c => c <> [] /\ ~ In "/"%char c) x.
Proof. apply Forall_impl. intros c (A & _ & _ & B). auto. Qed.

Lemma dot_pieces x : Forall ordinary x -> Forall (fun c => c <> [] /\ ~ In "/"%char c) (dot :: x).
Proof.
  intro F. constructor; [|exact (ordinary_pieces x F)]. split; [discriminate|]. cbn. intuition discriminate.
Qed.

Lemma map_all_in {X Y} (f : X -> option Y) l ys x : map_all f l = Some ys -> In x l -> exists y, f x = Some y /\ In y ys.
Proof.
  revert ys. induction l as [|a l IH]; intros ys H I; [destruct I|]. cbn [map_all] in H.
  destruct (f a) as [y|] eqn:E; [|discriminate]. destruct (map_all f l) as [r|]; [|discriminate]. injection H as <-.
  destruct I as [<- | I]; [exists y; split; [exact E|now left]|]. destruct (IH r eq_refl I) as (z & A & B).
  exists z. split; [exact A|now right].
Qed.

Lemma declared_target src s t o n ts : declares o n -> get_targets src s t o = Some ts ->
  exists ti, In ti ts /\ ti_name ti = make_target_name src s t (parse_path n).
Proof.
  intros (m & N & D) H. unfold get_targets in H.
  assert (forall ti, get_target src s t m = Some ti -> ti_name ti = make_target_name src s t (parse_path n)) as G.
  { intros ti E. unfold get_target in E. unfold get at 1 in E. rewrite N in E. cbn [as_string] in E.
    repeat match type of E with match ?x with _ => _ end = _ => destruct x; try discriminate end. injection E as <-. reflexivity. }
  destruct D as [D|(l & D & I)].
  - unfold get_if in H. rewrite D in H. cbn [as_object option_map map_all] in H.
    destruct (get_target src s t m) as [ti|]; [|destruct (match obj_get (lit "targets") o with Some _ => _ | None => _ end); discriminate].
    repeat match type of H with match ?x with _ => _ end = _ => destruct x; try discriminate end. injection H as <-.
    exists ti. split; [now left|]. now apply G.
  - destruct (get_if as_object (lit "target") o) as [one|]; [|discriminate].
    unfold get_if in H. rewrite D in H. cbn [as_array option_map] in H.
    destruct (map_all (get_target src s t) _) as [a|]; [|discriminate].
    destruct (map_all _ l) as [b|] eqn:E; [|discriminate]. injection H as <-.
    destruct (map_all_in _ _ _ _ E I) as (ti & X & J). cbn [as_object] in X. exists ti. split; [apply in_or_app; now right|now apply G].
Qed.

Lemma loaded_parts src s t parse resolve configure script_tags builtin l text info :
  load_source_file src s t parse resolve configure script_tags builtin l text = Some info ->
  exists tags ts, parse (snd (filter_input l text)) = Some tags /\ get_targets src s t tags = Some ts /\
    (forall ti, In ti ts -> In ti (targets info)) /\
    (forall x, In x (find_dependencies l (fst (filter_input l text))) -> In (prepend_to_dependency src s t x) (use_deps info)).
Proof.
  intro H. unfold load_source_file in H. destruct (filter_input l text) as [source tag_text]. cbn [fst snd].
  destruct (parse tag_text) as [tags|]; [|discriminate]. exists tags.
  destruct (get_targets src s t tags) as [ts|]; [|discriminate]. exists ts.
  repeat match type of H with
  | (match ?e with _ => _ end) = _ => destruct e; try discriminate
  end.
  injection H as <-. cbn [targets use_deps]. split; [reflexivity|]. split; [reflexivity|]. split.
  - intros ti I. apply in_or_app. now left.
  - intros x I. apply in_or_app. right. apply in_or_app. left. now apply in_map.
Qed.

Lemma loaded_configured search print src s t parse resolve configure script_tags cfg m text info k c :
  increasing (file_info_loaders (tree_loader cfg)) -> increasing (info_loaders cfg) -> map_loaders cfg = Some m ->
  handled_by cfg (filename src) (k, c) ->
  load_configured search print src s t parse resolve configure script_tags (dir_compiler cfg) m (Some text) = Some info ->
  exists tags ts, parse (snd (kind_filter_input print k (filename src) text)) = Some tags /\ get_targets src s t tags = Some ts /\
    (forall ti, In ti ts -> In ti (targets info)) /\
    (forall x, In x (kind_find_dependencies search k (fst (kind_filter_input print k (filename src) text))) ->
      In (prepend_to_dependency src s t x) (use_deps info)).
Proof.
  intros I1 I2 M H L. unfold load_configured in L. rewrite (handled_match cfg m src (k, c) I1 I2 M H) in L.
  cbn [configured_loader] in L. destruct (kind_use_target_deps k c) as [u|]; [|discriminate].
  cbn [option_map] in L. apply loaded_parts in L. exact L.
Qed.

(** The tags are parsed once. *)
Lemma parsed_once search print src s t parse resolve configure script_tags dc m text k c result :
  match_longest_extension src m = Some (k, c) ->
  parse (snd (kind_filter_input print k (filename src) text)) = result ->
  load_configured search print src s t parse resolve configure script_tags dc m (Some text) =
  load_configured search print src s t (fun _ => result) resolve configure script_tags dc m (Some text).
Proof.
  intros M P. unfold load_configured. rewrite M. cbn [configured_loader].
  destruct (kind_use_target_deps k c) as [u|]; [|reflexivity]. cbn [option_map].
  unfold load_source_file. cbn [filter_input]. destruct (kind_filter_input print k (filename src) text) as [a b]. cbn [snd] in P.
  rewrite P. reflexivity.
Qed.

Lemma declared_found {S} (dec : decoder S json) size search print resolve configure script_tags cfg m s t d f text info k c p q o x :
  0 < size -> skips_white dec ->
  increasing (file_info_loaders (tree_loader cfg)) -> increasing (info_loaders cfg) -> map_loaders cfg = Some m ->
  directory_ok s -> directory_ok t -> Forall ordinary d -> handled_by cfg f (k, c) ->
  usual_blanks text -> first_tags k text (p ++ "}"%char :: q) -> JLoadSpec.text_of dec (p ++ ["}"%char]) (JObject o) ->
  declares o (spelled x) -> Forall ordinary x -> x <> [] ->
  load_configured search print (append (inside s d) (mk_path false [f])) s t (load_compound dec size) resolve configure script_tags
    (dir_compiler cfg) m (Some text) = Some info ->
  exists ti, In ti (targets info) /\ ti_name ti = inside t (d ++ x).
Proof.
  intros Z K I1 I2 M Hs Ht Hd H U F T D Ox Nx L.
  apply (loaded_configured search print _ s t _ resolve configure script_tags cfg m text info k c I1 I2 M) in L.
  2:{ rewrite file_name. exact H. }
  destruct L as (tags & ts & P & G & A & _). rewrite file_name in P.
  destruct (tags_at_front print k f text _ F U) as (w & r & W & E). rewrite E in P.
  rewrite <- app_assoc in P. cbn [app] in P. rewrite (decoded dec size w p (q ++ r) o Z K W T) in P. injection P as <-.
  destruct (declared_target _ _ _ _ _ _ D G) as (ti & I & N). exists ti. split; [exact (A ti I)|]. rewrite N.
  rewrite parse_spelled by auto using ordinary_pieces.
  destruct (locations s t d f Hs Ht Hd x Ox Nx) as (_ & _ & E3 & _). exact E3.
Qed.

Lemma not_object_rejected {S} (dec : decoder S json) size search print resolve configure script_tags cfg m s t d f text k c p e q v :
  0 < size -> skips_white dec ->
  increasing (file_info_loaders (tree_loader cfg)) -> increasing (info_loaders cfg) -> map_loaders cfg = Some m ->
  handled_by cfg f (k, c) ->
  usual_blanks text -> first_tags k text (p ++ e :: q) -> JLoadSpec.closing e -> JLoadSpec.text_of dec (p ++ [e]) v ->
  (forall o, v <> JObject o) ->
  load_configured search print (append (inside s d) (mk_path false [f])) s t (load_compound dec size) resolve configure script_tags
    (dir_compiler cfg) m (Some text) = None.
Proof.
  intros Z K I1 I2 M H U F CE T N.
  destruct (load_configured search print _ s t _ resolve configure script_tags (dir_compiler cfg) m (Some text)) as [info|] eqn:L; [|reflexivity].
  exfalso. apply (loaded_configured search print _ s t _ resolve configure script_tags cfg m text info k c I1 I2 M) in L.
  2:{ rewrite file_name. exact H. }
  destruct L as (tags & ts & P & _). rewrite file_name in P.
  destruct (tags_at_front print k f text _ F U) as (w & r & W & E). rewrite E in P.
  rewrite <- app_assoc in P. cbn [app] in P. unfold load_compound in P.
  destruct T as (s' & c' & st & EE & R & FE). apply app_inj_tail in EE. destruct EE as [<- <-].
  rewrite app_assoc, (load_value dec size (w ++ p) e (q ++ r) v Z CE) in P.
  - destruct v; try discriminate. eapply N. reflexivity.
  - exists (w ++ p), e, st. split; [reflexivity|]. split; [|exact FE]. apply reads_white; assumption.
Qed.

Lemma includes_found search print parse resolve configure script_tags cfg m s t d f l info ps c i p o :
  increasing (file_info_loaders (tree_loader cfg)) -> increasing (info_loaders cfg) -> map_loaders cfg = Some m ->
  directory_ok s -> directory_ok t -> Forall ordinary d -> handled_by cfg f (KCxx ps, c) ->
  cxx_source l -> tame l -> In i (includes l) ->
  leads_to (fun name => existsb (fun r => search r name) ps) s t d i p o ->
  load_configured search print (append (inside s d) (mk_path false [f])) s t parse resolve configure script_tags
    (dir_compiler cfg) m (Some (render l)) = Some info ->
  In (mk_dependency None p o []) (use_deps info).
Proof.
  intros I1 I2 M Hs Ht Hd H C T I R L.
  apply (loaded_configured search print _ s t _ resolve configure script_tags cfg m (render l) info (KCxx ps) c I1 I2 M) in L.
  2:{ rewrite file_name. exact H. }
  destruct L as (tags & ts & _ & _ & _ & A). rewrite file_name in A. cbn [kind_filter_input kind_find_dependencies] in A.
  rewrite cxx_source_unchanged in A. set (generated := fun name => existsb (fun r => search r name) ps) in *.
  specialize (A (include_dependency generated i)).
  match type of A with ?X -> ?Y => assert Y as B end.
  { apply A. rewrite (cxx_includes_found l generated C T). now apply in_map. }
  clear A. unfold prepend_to_dependency in B.
  destruct R as [name|x G O N|x G O N|x G O N|x G O N]; cbn [include_dependency dep_name dep_origin dep_props] in B;
    try rewrite G in B; rewrite ?parse_spelled in B by (try discriminate; auto using ordinary_pieces, dot_pieces);
    try (destruct (locations s t d f Hs Ht Hd x O N) as (L1 & L2 & _ & L4 & L5));
    [exact B|rewrite L1 in B|rewrite L2 in B|rewrite L4 in B|rewrite L5 in B]; exact B.
Qed.
