From Coq Require Import Ascii String ZArith NArith Bool Lia.
From Coq Require Import List Sorted RelationClasses.
From Verif Require Import Str Path PathProofs SMap JsonModel JsonSpec JsonProofs DbModel ValueModel LoadModel LoadSpec
  LoadProofs RecipeModel RecipeSpec RecipeProofs CfgModel CfgSpec.
Import JsonSpec.
Import ListNotations.

(** * Paths and their texts *)

Definition no_slash (c : str) : Prop := ~ In "/"%char c.

Lemma split_app c : no_slash c -> forall s cur, split_slash (c ++ s) cur = split_slash s (rev c ++ cur).
Proof.
  induction c as [|x c IH]; intros N s cur; [reflexivity|]. cbn [app split_slash].
  destruct (Ascii.eqb_spec x "/") as [->|D]; [exfalso; apply N; now left|].
  rewrite IH by (intro; apply N; now right). cbn [rev]. now rewrite <- app_assoc.
Qed.

Lemma split_pieces s : forall cur, no_slash cur -> Forall no_slash (split_slash s cur).
Proof.
  induction s as [|x s IH]; intros cur N; cbn [split_slash].
  - constructor; [|constructor]. intro I. apply N. now apply in_rev.
  - destruct (Ascii.eqb_spec x "/") as [->|D].
    + constructor; [intro I; apply N; now apply in_rev|]. apply IH. intros [].
    + apply IH. intros [E|I]; auto.
Qed.

Lemma split_nonempty s cur : split_slash s cur <> [].
Proof. revert cur. induction s as [|x s IH]; intros cur; cbn; [discriminate|]. destruct (Ascii.eqb x "/"); [discriminate|apply IH]. Qed.

Lemma split_join cs : cs <> [] -> Forall no_slash cs -> split_slash (join_slash cs) [] = cs.
Proof.
  induction cs as [|c cs IH]; intros E F; [congruence|]. inversion F as [|? ? N F']; subst.
  destruct cs as [|d cs].
  - cbn [join_slash]. rewrite <- (app_nil_r c) at 1. rewrite split_app by assumption. cbn. now rewrite app_nil_r, rev_involutive.
  - change (join_slash (c :: d :: cs)) with (c ++ "/"%char :: join_slash (d :: cs)). rewrite split_app by assumption.
    cbn [split_slash Ascii.eqb]. rewrite app_nil_r, rev_involutive. cbn. f_equal. apply IH; [discriminate|assumption].
Qed.

(** What parse_path delivers *)
Definition is_proper (c : str) : bool := negb (is_nil c).

Definition path_shape (cs : list str) : Prop :=
  Forall no_slash cs /\
  (exists l, Forall (fun c => c <> []) l /\ (cs = l \/ (l <> [] /\ cs = l ++ [[]]))).

Lemma is_nil_true {A} (l : list A) : is_nil l = true <-> l = [].
Proof. destruct l; cbn; split; congruence. Qed.

Lemma filter_proper l : Forall (fun c : str => c <> []) (filter is_proper l).
Proof. apply Forall_forall. intros c I. apply filter_In in I as [_ I]. destruct c; [discriminate|discriminate]. Qed.

Lemma parse_comps s : comps (parse_path s) =
  (if is_nil (filter is_proper (split_slash s [])) then []
   else if is_nil (last (split_slash s []) []) then filter is_proper (split_slash s []) ++ [[]]
   else filter is_proper (split_slash s [])).
Proof. reflexivity. Qed.

Lemma parse_shape s : path_shape (comps (parse_path s)).
Proof.
  rewrite parse_comps. set (ps := split_slash s []).
  assert (F : Forall no_slash (filter is_proper ps)).
  { apply Forall_forall. intros c I. apply filter_In in I as [I _].
    pose proof (split_pieces s [] (fun x => x)) as P. rewrite Forall_forall in P. now apply P. }
  destruct (is_nil (filter is_proper ps)) eqn:E1.
  - split; [constructor|]. exists []. split; [constructor|now left].
  - destruct (is_nil (last ps [])).
    + split; [apply Forall_app; split; [exact F|]; repeat constructor; intros []|]. exists (filter is_proper ps).
      split; [apply filter_proper|]. right. split; [|reflexivity]. intro E. now rewrite E in E1.
    + split; [exact F|]. exists (filter is_proper ps). split; [apply filter_proper|now left].
Qed.

Lemma filter_all {A} (f : A -> bool) l : Forall (fun x => f x = true) l -> filter f l = l.
Proof. induction 1 as [|x l H F IH]; [reflexivity|]. cbn. now rewrite H, IH. Qed.

Lemma filter_nonempty l : Forall (fun c : str => c <> []) l -> filter is_proper l = l.
Proof. intro F. apply filter_all. eapply Forall_impl; [|exact F]. intros [|]; cbn; [congruence|reflexivity]. Qed.

Lemma last_nonempty (l : list str) d : Forall (fun c => c <> []) l -> l <> [] -> last l d <> [].
Proof.
  intros F E. destruct (exists_last E) as (l' & x & ->). rewrite last_last. apply Forall_app in F as [_ F]. now inversion F.
Qed.

Lemma pieces_parse pre cs : Forall (fun c : str => c = []) pre -> path_shape cs ->
  let pieces := pre ++ cs in
  (if is_nil (filter is_proper pieces) then [] else if is_nil (last pieces []) then filter is_proper pieces ++ [[]]
   else filter is_proper pieces) = cs.
Proof.
  intros P (N & l & F & H). cbn zeta. rewrite filter_app.
  assert (filter is_proper pre = []) as -> by (clear - P; induction P as [|x pre E P IH]; [reflexivity|]; subst; cbn; exact IH).
  cbn [app]. destruct H as [->|[NE ->]].
  - rewrite filter_nonempty by assumption. destruct l as [|c l]; [reflexivity|]. cbn [is_nil].
    replace (last (pre ++ c :: l) []) with (last (c :: l) []).
    2:{ clear. induction pre as [|x pre IH]; [reflexivity|]. cbn [app]. rewrite IH. destruct pre; reflexivity. }
    destruct (is_nil (last (c :: l) [])) eqn:E; [|reflexivity]. exfalso. apply is_nil_true in E. revert E.
    now apply last_nonempty.
  - rewrite filter_app, filter_nonempty by assumption. cbn [filter is_proper is_nil negb]. rewrite app_nil_r.
    destruct l as [|c l]; [congruence|]. cbn [is_nil]. rewrite app_assoc, last_last. reflexivity.
Qed.

Lemma join_head cs : Forall no_slash cs -> hd [] cs <> [] -> forall s, join_slash cs <> "/"%char :: s.
Proof.
  intros F H s. destruct cs as [|c cs]; [cbn; discriminate|]. inversion F as [|? ? N F']; subst. cbn [hd] in H.
  destruct c as [|x c]; [congruence|]. destruct cs; cbn; intro E; inversion E; subst; apply N; now left.
Qed.

Lemma parse_print s : parse_path (path_string (parse_path s)) = parse_path s.
Proof.
  pose proof (parse_shape s) as SH. destruct (parse_path s) as [abs cs]. cbn [comps] in SH. unfold path_string.
  cbn [absolute comps]. assert (N := proj1 SH). destruct abs.
  - unfold parse_path. cbn [split_slash Ascii.eqb rev]. cbn - [split_slash join_slash last filter is_nil].
    f_equal. destruct cs as [|c cs]; [reflexivity|]. rewrite split_join by (try discriminate; assumption).
    exact (pieces_parse [[]] (c :: cs) (Forall_cons _ eq_refl (Forall_nil _)) SH).
  - destruct cs as [|c cs]; [reflexivity|].
    assert (NE : hd [] (c :: cs) <> []).
    { destruct SH as (_ & l & F & [E|[NE E]]).
      - subst l. inversion F; subst. assumption.
      - destruct l as [|x l]; [congruence|]. cbn [app] in E. inversion E; subst. now inversion F. }
    unfold parse_path. rewrite split_join by (try discriminate; assumption). f_equal.
    + destruct (join_slash (c :: cs)) as [|x t] eqn:E; [reflexivity|]. destruct (Ascii.eqb_spec x "/") as [->|D]; [|reflexivity].
      exfalso. exact (join_head _ N NE t E).
    + exact (pieces_parse [] (c :: cs) (Forall_nil _) SH).
Qed.

(** ** Texts *)

Lemma is_text_nil : is_text [].
Proof. exists []. split; [constructor|reflexivity]. Qed.

Lemma is_text_app a b : is_text a -> is_text b -> is_text (a ++ b).
Proof.
  intros (u & U & ->) (v & V & ->). exists (u ++ v). split; [now apply Forall_app|]. now rewrite map_app, concat_app.
Qed.

Lemma slash_text : is_text ["/"%char].
Proof. apply ascii_text. repeat constructor. Qed.

Lemma encode_slash v : scalar_value v -> utf8_encode v = ["/"%char] \/ no_slash (utf8_encode v).
Proof.
  intro SV. unfold utf8_encode, no_slash.
  assert (B : forall x, (128 <= x < 256)%N -> ascii_of_N x <> "/"%char).
  { intros x L E. apply (f_equal N_of_ascii) in E. rewrite N_ascii_embedding in E by lia. subst x. cbn in L. lia. }
  assert (V : (v <= 1114111)%N) by (destruct SV; lia).
  destruct (N.ltb_spec v 128).
  - cbn [map]. destruct (ascii_dec (ascii_of_N v) "/") as [->|D]; [now left|right]. intros [E|[]]. congruence.
  - right. pose proof (N.mod_lt v 64 ltac:(lia)). pose proof (N.mod_lt (v / 64) 64 ltac:(lia)).
    pose proof (N.mod_lt (v / 4096) 64 ltac:(lia)).
    assert (v / 262144 < 8)%N by (apply N.div_lt_upper_bound; lia).
    pose proof (N.le_0_l (v / 64)). pose proof (N.le_0_l (v / 4096)). pose proof (N.le_0_l (v / 262144)).
    pose proof (N.le_0_l (v mod 64)). pose proof (N.le_0_l ((v / 64) mod 64)). pose proof (N.le_0_l ((v / 4096) mod 64)).
    destruct (N.ltb_spec v 2048) as [L|L]; [|destruct (N.ltb_spec v 65536) as [L'|L']]; cbn [map In].
    + assert (v / 64 < 32)%N by (apply N.div_lt_upper_bound; lia).
      intros [I|[I|[]]]; revert I; apply B; lia.
    + assert (v / 4096 < 16)%N by (apply N.div_lt_upper_bound; lia).
      intros [I|[I|[I|[]]]]; revert I; apply B; lia.
    + intros [I|[I|[I|[I|[]]]]]; revert I; apply B; lia.
Qed.

Lemma split_text vs : Forall scalar_value vs -> forall cur, is_text (rev cur) ->
  Forall is_text (split_slash (concat (map utf8_encode vs)) cur).
Proof.
  induction 1 as [|v vs SV F IH]; intros cur T; cbn [map concat].
  - cbn. now constructor.
  - destruct (encode_slash v SV) as [E|N].
    + rewrite E. cbn [app split_slash Ascii.eqb]. cbn. constructor; [assumption|]. apply IH. apply is_text_nil.
    + rewrite split_app by assumption. apply IH. rewrite rev_app_distr, rev_involutive. apply is_text_app; [assumption|].
      exists [v]. split; [now constructor|]. cbn. now rewrite app_nil_r.
Qed.

Lemma join_text cs : Forall is_text cs -> is_text (join_slash cs).
Proof.
  induction 1 as [|c cs T F IH]; [apply is_text_nil|]. destruct cs as [|d cs]; [exact T|].
  change (join_slash (c :: d :: cs)) with (c ++ ["/"%char] ++ join_slash (d :: cs)).
  apply is_text_app; [assumption|]. apply is_text_app; [apply slash_text|exact IH].
Qed.

Lemma parse_text s : is_text s -> is_text (path_string (parse_path s)).
Proof.
  intros (vs & F & ->). set (s := concat (map utf8_encode vs)). pose proof (split_text vs F [] is_text_nil) as T. fold s in T.
  assert (TC : Forall is_text (comps (parse_path s))).
  { rewrite parse_comps.
    assert (TF : Forall is_text (filter is_proper (split_slash s []))).
    { apply Forall_forall. intros c I. apply filter_In in I as [I _]. rewrite Forall_forall in T. now apply T. }
    destruct (is_nil (filter is_proper (split_slash s []))); [constructor|].
    destruct (is_nil (last (split_slash s []) [])); [|exact TF]. apply Forall_app. split; [exact TF|]. constructor; [|constructor].
    apply is_text_nil. }
  unfold path_string. destruct (absolute (parse_path s)).
  - change ("/"%char :: join_slash (comps (parse_path s))) with (["/"%char] ++ join_slash (comps (parse_path s))).
    apply is_text_app; [apply slash_text|now apply join_text].
  - now apply join_text.
Qed.

(** * Maps with strings as keys *)

Lemma str_lt_trans a b c : str_compare a b = Lt -> str_compare b c = Lt -> str_compare a c = Lt.
Proof. apply (ord_trans _ str_order). Qed.

Lemma str_compare_refl a : str_compare a a = Eq.
Proof. now apply (ord_eq _ str_order). Qed.

Lemma str_compare_gt a b : str_compare a b = Gt -> str_compare b a = Lt.
Proof. intro H. rewrite (ord_opp _ str_order), H. reflexivity. Qed.

Lemma increasing_nodup {V} (m : list (str * V)) : increasing m -> NoDup (map fst m).
Proof.
  induction 1 as [|[k v] m S IH F]; [constructor|]. cbn. constructor; [|exact IH]. intro I.
  apply in_map_iff in I as ([k' v'] & E & I). cbn in E. subst k'. rewrite Forall_forall in F. specialize (F _ I). cbn in F.
  rewrite str_compare_refl in F. discriminate.
Qed.

Lemma str_assign_in {V} (k : str) (v : V) m : forall e, In e (str_assign k v m) -> e = (k, v) \/ In e m.
Proof.
  induction m as [|[k' v'] m IH]; intros e I; cbn [str_assign] in I; [destruct I as [<-|[]]; now left|].
  destruct (str_compare k k') eqn:E.
  - apply (ord_eq _ str_order) in E. subst k'. destruct I as [<-|I]; [now left|right; now right].
  - destruct I as [<-|I]; [now left|now right].
  - destruct I as [<-|I]; [right; now left|]. destruct (IH _ I) as [->|I']; [now left|right; now right].
Qed.

Lemma str_assign_increasing {V} (k : str) (v : V) m : increasing m -> increasing (str_assign k v m).
Proof.
  induction 1 as [|[k' v'] m S IH F]; cbn [str_assign]; [repeat constructor|].
  destruct (str_compare k k') eqn:E.
  - constructor; [exact S|]. exact F.
  - constructor; [constructor; assumption|]. constructor; [exact E|]. eapply Forall_impl; [|exact F].
    intros e L. cbn in *. eapply str_lt_trans; eassumption.
  - constructor; [exact IH|]. apply Forall_forall. intros e I. apply str_assign_in in I as [->|I].
    + cbn. now apply str_compare_gt.
    + rewrite Forall_forall in F. now apply F.
Qed.

Definition assign_all {V} (l m : list (str * V)) : list (str * V) := fold_left (fun m e => str_assign (fst e) (snd e) m) l m.

Lemma assign_all_increasing {V} (l : list (str * V)) : forall m, increasing m -> increasing (assign_all l m).
Proof. induction l as [|e l IH]; intros m I; [exact I|]. cbn. apply IH. now apply str_assign_increasing. Qed.

Lemma assign_all_in {V} (l : list (str * V)) : forall m e, In e (assign_all l m) -> In e l \/ In e m.
Proof.
  induction l as [|[k v] l IH]; intros m e I; [now right|]. cbn in I. apply IH in I as [I|I]; [left; now right|].
  apply str_assign_in in I as [->|I]; [left; now left|now right].
Qed.

Lemma str_assign_last {V} (k : str) (v : V) m : Forall (fun e => str_compare (fst e) k = Lt) m -> str_assign k v m = m ++ [(k, v)].
Proof.
  induction 1 as [|[k' v'] m L F IH]; [reflexivity|]. cbn [str_assign app]. cbn in L.
  rewrite (ord_opp _ str_order), L. cbn. now rewrite IH.
Qed.

Lemma assign_all_app {V} (l : list (str * V)) : forall m, increasing (m ++ l) -> assign_all l m = m ++ l.
Proof.
  induction l as [|[k v] l IH]; intros m I; [cbn; now rewrite app_nil_r|]. cbn. rewrite str_assign_last.
  - replace (m ++ (k, v) :: l) with ((m ++ [(k, v)]) ++ l) by now rewrite <- app_assoc. apply IH. now rewrite <- app_assoc.
  - clear IH. induction m as [|e m IHm]; [constructor|]. cbn in I. inversion I as [|? ? S F]; subst. constructor; [|now apply IHm].
    rewrite Forall_forall in F. apply (F (k, v)). apply in_or_app. right. now left.
Qed.

Lemma assign_all_id {V} (l : list (str * V)) : increasing l -> assign_all l [] = l.
Proof. intro I. now rewrite assign_all_app. Qed.

(** JSON objects: adding a member that is not there *)
Lemma obj_set_new k v o : ~ In k (map fst o) -> obj_set k v o = o ++ [(k, v)].
Proof.
  induction o as [|[k' v'] o IH]; intro N; [reflexivity|]. cbn [obj_set app]. destruct (str_eqb k k') eqn:E.
  - apply str_eqb_eq in E. subst. exfalso. apply N. now left.
  - rewrite IH; [reflexivity|]. intro I. apply N. now right.
Qed.

(** * Sorting *)

Definition sort_members : compound -> compound :=
  fix go (o : compound) : compound :=
    match o with
    | [] => []
    | (k, v) :: o' => insert_member k (sort_keys v) (go o')
    end.

Lemma sort_object o : sort_keys (JObject o) = JObject (sort_members o).
Proof. reflexivity. Qed.

Lemma insert_member_in k v o e : In e (insert_member k v o) <-> e = (k, v) \/ In e o.
Proof.
  induction o as [|[k' v'] o IH]; cbn [insert_member]; [cbn; intuition congruence|].
  destruct (str_compare k k'); cbn [In]; try rewrite IH; intuition congruence.
Qed.

Lemma sort_members_in o e : In e (sort_members o) <-> exists v, In (fst e, v) o /\ snd e = sort_keys v.
Proof.
  induction o as [|[k v] o IH]; cbn [sort_members In]; [split; [intros []|intros (? & [] & _)]|]. fold sort_members.
  rewrite insert_member_in, IH. destruct e as [k' w]. cbn [fst snd]. split.
  - intros [E|(u & I & E)]; [inversion E; subst; eauto|eauto].
  - intros (u & [E|I] & ->); [inversion E; subst; now left|right; eauto].
Qed.

Lemma sort_members_keys o k : In k (map fst (sort_members o)) <-> In k (map fst o).
Proof.
  rewrite !in_map_iff. split.
  - intros ([k' w] & E & I). cbn in E. subst k'. apply sort_members_in in I as (v & I & _). exists (k, v). now split.
  - intros ([k' v] & E & I). cbn in E. subst k'. exists (k, sort_keys v). split; [reflexivity|]. apply sort_members_in. eauto.
Qed.

Lemma insert_member_nodup k v o : ~ In k (map fst o) -> NoDup (map fst o) -> NoDup (map fst (insert_member k v o)).
Proof.
  induction o as [|[k' v'] o IH]; intros N D; cbn [insert_member map fst]; [now constructor|].
  destruct (str_compare k k').
  - now constructor.
  - now constructor.
  - inversion D; subst. cbn [map fst]. constructor.
    + intro I. apply in_map_iff in I as ([a b] & E & I). cbn in E. subst a. apply insert_member_in in I as [E|I].
      * inversion E; subst. apply N. now left.
      * apply H1. apply in_map_iff. exists (k', b). now split.
    + apply IH; [|assumption]. intro I. apply N. now right.
Qed.

Lemma sort_members_nodup o : NoDup (map fst o) -> NoDup (map fst (sort_members o)).
Proof.
  induction o as [|[k v] o IH]; intro D; [constructor|]. cbn in *. inversion D; subst. fold sort_members.
  apply insert_member_nodup; [|now apply IH]. intro I. apply H1. now apply sort_members_keys.
Qed.

Lemma obj_get_sorted o k : NoDup (map fst o) -> obj_get k (sort_members o) = option_map sort_keys (obj_get k o).
Proof.
  intro D. destruct (obj_get k o) as [v|] eqn:E; cbn [option_map].
  - apply obj_get_in in E; [|assumption]. apply obj_get_in; [now apply sort_members_nodup|]. apply sort_members_in. exists v. now split.
  - apply obj_get_none in E. apply obj_get_none. intro I. apply E. now apply sort_members_keys.
Qed.

Lemma sorted_same j : well_formed j -> same_json j (sort_keys j).
Proof.
  induction j using json_nested_ind; intro W; try (apply same_value; cbn; tauto).
  - rewrite sort_object. inversion W as [? D M| | | | | | |]; subst. apply same_members.
    + intro k. unfold has_member. now rewrite sort_members_keys.
    + intros k v w I J. unfold member in *. apply sort_members_in in J as (u & J & E). cbn in *. subst w.
      assert (u = v) as ->.
      { apply obj_get_in in I; [|assumption]. apply obj_get_in in J; [|assumption]. congruence. }
      rewrite Forall_forall in H. apply (H (k, v) I). eapply M. exact I.
  - cbn. apply same_items. inversion W as [|? M| | | | | |]; subst. clear W.
    induction H as [|x l Hx F IH]; [constructor|]. constructor; [apply Hx, M; now left|]. apply IH. intros v I. apply M. now right.
Qed.

Lemma sort_keys_strings l : map sort_keys (map JString l) = map JString l.
Proof. induction l as [|s l IH]; [reflexivity|]. cbn. now rewrite IH. Qed.

(** * What is written is read *)

Lemma string_array_text_acc l : Forall is_text l -> forall a,
  fold_left (fun a s => append_new a (json_string s)) l a = a ++ map JString l.
Proof.
  induction 1 as [|s l T F IH]; intro a; [cbn; now rewrite app_nil_r|]. cbn [fold_left map]. rewrite IH.
  rewrite json_string_text by assumption. cbn [append_new]. now rewrite <- app_assoc.
Qed.

Lemma string_array_text l : Forall is_text l -> string_array l = JArray (map JString l).
Proof. intro F. unfold string_array. now rewrite string_array_text_acc. Qed.

Lemma map_all_strings l : map_all as_string (map JString l) = Some l.
Proof. induction l as [|s l IH]; [reflexivity|]. cbn. now rewrite IH. Qed.

Section Regex.
Variable regex_ok : str -> bool.

Lemma proper_patterns_text ps : proper_patterns regex_ok ps -> Forall is_text ps.
Proof. apply Forall_impl. now intros s [_ T]. Qed.

Lemma proper_patterns_ok ps : proper_patterns regex_ok ps -> forallb regex_ok ps = true.
Proof. intro P. apply forallb_forall. intros s I. unfold proper_patterns in P. rewrite Forall_forall in P. now apply P. Qed.

Lemma patterns_round ps : proper_patterns regex_ok ps -> patterns_of_json regex_ok (sort_keys (string_array ps)) = Some ps.
Proof.
  intro P. rewrite (string_array_text _ (proper_patterns_text _ P)). cbn [sort_keys]. rewrite sort_keys_strings.
  unfold patterns_of_json. cbn [as_array]. rewrite map_all_strings. now rewrite (proper_patterns_ok _ P).
Qed.

Definition normal_compiler (c : compiler) : compiler :=
  mk_compiler (recipe c) (comp_origin c) (sort_members (comp_config c)) (use_get_tags c).

Lemma compiler_round c : proper_compiler c -> compiler_of_json (sort_keys (compiler_to_json c)) = Some (normal_compiler c).
Proof.
  intros (O & (s & R) & T & W). unfold compiler_to_json. rewrite (json_string_text _ T). rewrite sort_object. cbn [set_new].
  unfold compiler_of_json. cbn [as_object]. unfold get_if, get.
  set (o := obj_set (lit "use_get_tags") _ _).
  assert (D : NoDup (map fst o)) by (subst o; cbn; repeat constructor; cbn; intuition discriminate).
  rewrite !(obj_get_sorted o) by assumption. subst o. cbn - [path_string sort_members].
  rewrite R, parse_print, <- R. unfold normal_compiler. rewrite O. destruct (use_get_tags c); reflexivity.
Qed.

Lemma normal_same c : proper_compiler c -> same_compiler c (normal_compiler c).
Proof.
  intros (_ & _ & _ & W). unfold same_compiler, normal_compiler. cbn. repeat split. exact (sorted_same _ W).
Qed.

Lemma ext_mode_round m : json_string (ext_mode_to_string m) = Some (JString (ext_mode_to_string m)) /\
  ext_mode_of_string (ext_mode_to_string m) = Some m.
Proof. destruct m; split; reflexivity. Qed.

Lemma loader_round l : proper_kind regex_ok (fst l) -> proper_compiler (snd l) ->
  loader_of_json regex_ok (sort_keys (loader_to_json l)) = Some (fst l, normal_compiler (snd l)).
Proof.
  destruct l as [k c]. cbn [fst snd]. intros PK PC. unfold loader_to_json. cbn [fst snd].
  assert (json_string (kind_name k) = Some (JString (kind_name k))) as -> by (destruct k; reflexivity).
  rewrite sort_object. cbn [set_new]. unfold loader_of_json. cbn [as_object]. unfold get_if, get.
  set (o := obj_set (lit "config") _ _).
  assert (D : NoDup (map fst o)) by (subst o; cbn; repeat constructor; cbn; intuition discriminate).
  rewrite !(obj_get_sorted o) by assumption.
  assert (obj_get (lit "loader") o = Some (JString (kind_name k))) as -> by reflexivity.
  assert (obj_get (lit "compiler") o = Some (compiler_to_json c)) as -> by reflexivity.
  cbn [option_map]. rewrite compiler_round by assumption. cbn [sort_keys as_string].
  unfold make_instance, get_if.
  assert (G : obj_get (lit "config") (sort_members o) = Some (sort_keys (kind_to_json k))).
  { rewrite obj_get_sorted by assumption. reflexivity. }
  rewrite G. clear G D. clearbody o.
  destruct k as [|ps| | |ext mode|]; cbn [kind_name]; try reflexivity.
  - cbn - [sort_keys cxx_of_json kind_to_json].
    assert (cxx_of_json regex_ok (sort_keys (kind_to_json (KCxx ps))) = Some (KCxx ps)) as ->; [|reflexivity].
    cbn [proper_kind] in PK. unfold kind_to_json. cbn [set_new]. rewrite sort_object. unfold cxx_of_json. cbn [as_object].
    unfold get_if. rewrite obj_get_sorted by (cbn; repeat constructor; intros []).
    cbn - [sort_keys string_array patterns_of_json]. rewrite patterns_round by assumption. reflexivity.
  - cbn - [sort_keys generic_of_json kind_to_json].
    assert (generic_of_json (sort_keys (kind_to_json (KGeneric ext mode))) = Some (KGeneric ext mode)) as ->; [|reflexivity].
    cbn [proper_kind] in PK. unfold kind_to_json. rewrite (proj1 (ext_mode_round mode)), (json_string_text _ PK).
    cbn [set_new]. rewrite sort_object. unfold generic_of_json. cbn [as_object].
    unfold get_if, get. set (m := obj_set (lit "filename_ext_replacement_mode") _ _).
    assert (D : NoDup (map fst m)) by (subst m; cbn; repeat constructor; cbn; intuition discriminate).
    rewrite !(obj_get_sorted m) by assumption. subst m.
    cbn - [ext_mode_of_string ext_mode_to_string]. rewrite (proj2 (ext_mode_round mode)). reflexivity.
Qed.

(** Objects made from maps *)

Lemma set_text_all {V} (f : V -> option json) (g : V -> json) m : increasing m ->
  Forall (fun e => is_text (fst e) /\ f (snd e) = Some (g (snd e))) m ->
  forall o, (forall e, In e m -> ~ In (fst e) (map fst o)) ->
  fold_left (fun o e => set_text (fst e) (f (snd e)) o) m o = o ++ map (fun e => (fst e, g (snd e))) m.
Proof.
  induction 1 as [|[k v] m S IH F]; intros P o N; [cbn; now rewrite app_nil_r|]. inversion P as [|? ? [T E] P']; subst.
  cbn [fold_left map fst snd] in *. unfold set_text at 2. rewrite (json_string_text _ T), E.
  rewrite obj_set_new by (apply (N (k, v)); now left). rewrite IH; [now rewrite <- app_assoc|assumption|].
  intros e I J. rewrite map_app in J. apply in_app_or in J as [J|[J|[]]].
  - revert J. apply N. now right.
  - cbn in J. rewrite Forall_forall in F. specialize (F _ I). cbn in F. rewrite J, str_compare_refl in F. discriminate.
Qed.

Lemma sort_increasing o : increasing o -> sort_members o = map (fun e => (fst e, sort_keys (snd e))) o.
Proof.
  induction 1 as [|[k v] o S IH F]; [reflexivity|]. cbn [sort_members map fst snd]. fold sort_members. rewrite IH.
  destruct o as [|[k' v'] o]; [reflexivity|]. cbn [map fst snd insert_member]. inversion F as [|? ? L F']; subst. cbn in L.
  now rewrite L.
Qed.

Lemma increasing_map {V W} (g : V -> W) m : increasing m -> increasing (map (fun e => (fst e, g (snd e))) m).
Proof.
  induction 1 as [|[k v] m S IH F]; [constructor|]. cbn [map fst snd]. constructor; [exact IH|].
  apply Forall_map. eapply Forall_impl; [|exact F]. intros e L. exact L.
Qed.

Lemma tree_round t :
  proper_patterns regex_ok (input_filter t) -> proper_patterns regex_ok (dir_filter t) ->
  increasing (file_info_loaders t) -> Forall (fun e => is_text (fst e) /\ is_text (snd e)) (file_info_loaders t) ->
  tree_config_of_json regex_ok (sort_keys (tree_config_to_json t)) = Some t.
Proof.
  intros PI PD I T. unfold tree_config_to_json. rewrite sort_object. unfold tree_config_of_json. cbn [as_object set_new].
  unfold get. set (o := obj_set (lit "fullpath_input_filter") _ _).
  assert (D : NoDup (map fst o)) by (subst o; cbn; repeat constructor; cbn; intuition discriminate).
  rewrite !(obj_get_sorted o) by assumption.
  assert (obj_get (lit "input_filter") o = Some (string_array (input_filter t))) as -> by reflexivity.
  assert (obj_get (lit "fullpath_input_filter") o = Some (string_array (dir_filter t))) as -> by reflexivity.
  assert (obj_get (lit "recursive") o = Some (JInteger (if recursive t then 1 else 0))) as -> by reflexivity.
  match goal with |- context [obj_get (lit "file_info_loaders") o] =>
    assert (obj_get (lit "file_info_loaders") o =
      Some (JObject (fold_left (fun o e => set_text (fst e) (json_string (snd e)) o) (file_info_loaders t) []))) as -> by reflexivity end.
  cbn [option_map]. rewrite !patterns_round by assumption. rewrite sort_object. cbn [sort_keys as_integer as_object].
  rewrite (set_text_all json_string JString); [|assumption| |intros ? ? []].
  2:{ eapply Forall_impl; [|exact T]. intros e [A B]. split; [exact A|]. now apply json_string_text. }
  cbn [app]. rewrite sort_increasing by now apply increasing_map. rewrite map_map.
  assert (E : map_all (fun e => option_map (pair (fst e)) (as_string (snd e)))
    (map (fun x : str * str => (fst (fst x, JString (snd x)), sort_keys (snd (fst x, JString (snd x))))) (file_info_loaders t))
    = Some (file_info_loaders t)).
  { clear. induction (file_info_loaders t) as [|[a b] l IH]; [reflexivity|]. cbn in *. now rewrite IH. }
  rewrite E. fold (assign_all (file_info_loaders t) []). rewrite assign_all_id by assumption. destruct t as [a b c []]; reflexivity.
Qed.

Definition normal_entry (e : str * (loader_kind * compiler)) := (fst e, (fst (snd e), normal_compiler (snd (snd e)))).

Lemma normal_entry_increasing m : increasing m -> increasing (map normal_entry m).
Proof. exact (increasing_map (fun l => (fst l, normal_compiler (snd l))) m). Qed.

Lemma loaders_round m : increasing m ->
  Forall (fun e => is_text (fst e) /\ proper_kind regex_ok (fst (snd e)) /\ proper_compiler (snd (snd e))) m ->
  info_loaders_of_json regex_ok (sort_keys (info_loaders_to_json m)) = Some (map normal_entry m).
Proof.
  intros I P. unfold info_loaders_to_json.
  rewrite (set_text_all (fun l => Some (loader_to_json l)) loader_to_json); [|assumption| |intros ? ? []].
  2:{ eapply Forall_impl; [|exact P]. intros e [A _]. now split. }
  cbn [app]. rewrite sort_object. rewrite sort_increasing by now apply increasing_map.
  unfold info_loaders_of_json. cbn [as_object]. rewrite map_map.
  assert (E : map_all (fun e => option_map (pair (fst e)) (loader_of_json regex_ok (snd e)))
    (map (fun x : str * (loader_kind * compiler) => (fst (fst x, loader_to_json (snd x)), sort_keys (snd (fst x, loader_to_json (snd x))))) m)
    = Some (map normal_entry m)).
  { clear I. induction P as [|e m (A & B & C) F IH]; [reflexivity|]. cbn [map map_all fst snd].
    rewrite loader_round by assumption. cbn [option_map]. cbn [fst snd] in IH. rewrite IH. reflexivity. }
  rewrite E. cbn [option_map]. fold (assign_all (map normal_entry m) []).
  rewrite assign_all_id by now apply normal_entry_increasing. reflexivity.
Qed.

Definition normal_config (c : config) : config :=
  mk_config (tree_loader c) (map normal_entry (info_loaders c)) (normal_compiler (dir_compiler c)).

Lemma config_round c : proper_config regex_ok c -> config_of_json regex_ok (sort_keys (config_to_json c)) = Some (normal_config c).
Proof.
  intros (P1 & P2 & I1 & T1 & I2 & T2 & PD). unfold config_to_json. rewrite sort_object. unfold config_of_json. cbn [as_object set_new].
  unfold get. set (o := obj_set (lit "dir_compiler") _ _).
  assert (D : NoDup (map fst o)) by (subst o; cbn; repeat constructor; cbn; intuition discriminate).
  rewrite !(obj_get_sorted o) by assumption.
  assert (obj_get (lit "source_tree_loader") o = Some (tree_config_to_json (tree_loader c))) as -> by reflexivity.
  assert (obj_get (lit "source_file_info_loaders") o = Some (info_loaders_to_json (info_loaders c))) as -> by reflexivity.
  assert (obj_get (lit "dir_compiler") o = Some (compiler_to_json (dir_compiler c))) as -> by reflexivity.
  cbn [option_map]. rewrite tree_round, loaders_round, compiler_round by assumption. reflexivity.
Qed.

Theorem dump_and_load c : proper_config regex_ok c ->
  exists m c', dump_config c = JObject m /\ load_configuration regex_ok [Some m] = (c', false) /\ same_config c c'.
Proof.
  intro P. exists [(lit "maikeconfig", sort_keys (config_to_json c))], (normal_config c).
  split; [reflexivity|]. split.
  - unfold load_configuration, merge_files. cbn - [config_of_json sort_keys config_to_json]. now rewrite config_round.
  - destruct P as (_ & _ & _ & _ & _ & T & PD). unfold same_config, normal_config. cbn. split; [reflexivity|]. split.
    + induction T as [|e l (A & B & C) F IH]; [constructor|]. cbn. constructor; [|exact IH]. cbn. repeat split; try apply normal_same; auto.
      all: now apply (normal_same _ C).
    + now apply normal_same.
Qed.
End Regex.

(** * What is read is proper *)

Lemma valid_well_formed j : valid_json j -> well_formed j.
Proof.
  induction j using json_nested_ind; intro V; try (now constructor).
  - inversion V as [? D M| | |? C _]; subst; [|exfalso; apply C; exact I]. constructor; [exact D|].
    intros k v I. rewrite Forall_forall in H. apply (H (k, v) I). now apply (M k v).
  - inversion V as [|? M| |? C _]; subst; [|exfalso; apply C; exact I]. constructor. intros v I.
    rewrite Forall_forall in H. apply H; [exact I|now apply M].
Qed.

Lemma valid_object_inv o : valid_json (JObject o) ->
  NoDup (map fst o) /\ (forall k v, member o k v -> is_text k /\ valid_json v).
Proof. intro V. inversion V as [? D M| | |? C _]; subst; [now split|exfalso; apply C; exact I]. Qed.

Lemma valid_array_inv l : valid_json (JArray l) -> Forall valid_json l.
Proof. intro V. inversion V as [|? M| |? C _]; subst; [now apply Forall_forall|exfalso; apply C; exact I]. Qed.

Lemma valid_string_inv s : valid_json (JString s) -> is_text s.
Proof. intro V. inversion V as [| |? T|? _ N]; subst; [exact T|]. exfalso. now apply (N s). Qed.

Lemma obj_get_member o k v : obj_get k o = Some v -> member o k v.
Proof.
  unfold member. induction o as [|[k' v'] o IH]; [discriminate|]. cbn. destruct (str_eqb k k') eqn:E.
  - apply str_eqb_eq in E. intro H. inversion H; subst. now left.
  - intro H. right. now apply IH.
Qed.

Lemma obj_set_member o k v k' v' : member (obj_set k v o) k' v' -> (k' = k /\ v' = v) \/ member o k' v'.
Proof.
  unfold member. induction o as [|[a b] o IH]; cbn [obj_set]; intro I; [destruct I as [E|[]]; inversion E; now left|].
  destruct (str_eqb k a) eqn:E.
  - apply str_eqb_eq in E. subst a. destruct I as [X|I]; [inversion X; now left|right; now right].
  - destruct I as [X|I]; [right; now left|]. destruct (IH I) as [H|H]; [now left|right; now right].
Qed.

Lemma obj_set_valid o k v : valid_json (JObject o) -> is_text k -> valid_json v -> valid_json (JObject (obj_set k v o)).
Proof.
  intros V T W. apply valid_object_inv in V as [D M]. constructor.
  - rewrite obj_set_keys. destruct (in_dec (list_eq_dec ascii_dec) k (map fst o)); [now rewrite app_nil_r|]. apply NoDup_append; auto.
    + repeat constructor. intros [].
    + intros x A [<-|[]]. contradiction.
  - intros k' v' I. apply obj_set_member in I as [[-> ->]|I]; [now split|now apply M].
Qed.

Definition merge_keeps (vb : json) : Prop :=
  forall va x, valid_json va -> valid_json vb -> merge_value va vb = Some x -> valid_json x.

Lemma merge_members_valid b : Forall (fun kv => merge_keeps (snd kv)) b -> forall a,
  valid_json (JObject a) -> (forall k v, member b k v -> is_text k /\ valid_json v) ->
  valid_json (JObject (fst (merge_members a b))).
Proof.
  induction 1 as [|[k v] b K F IH]; intros a V M; [exact V|]. cbn [merge_members]. cbn [snd] in K.
  destruct (M k v (or_introl eq_refl)) as [T W].
  assert (M' : forall k v, member b k v -> is_text k /\ valid_json v) by (intros k' v' I; apply M; now right).
  destruct (obj_get k a) as [w|] eqn:E.
  - destruct (merge_value w v) as [x|] eqn:E'; [|exact V]. apply IH; [|exact M']. apply obj_set_valid; [exact V|exact T|].
    apply (K w x); [|exact W|exact E']. apply valid_object_inv in V as [_ V]. eapply V, obj_get_member, E.
  - apply IH; [|exact M']. now apply obj_set_valid.
Qed.

Lemma merge_scalar va vb x : ~ is_container vb -> merge_value va vb = Some x -> x = vb.
Proof.
  intros N H. destruct va, vb; cbn in N; try tauto; cbn in H; congruence.
Qed.

Lemma merge_value_valid vb : merge_keeps vb.
Proof.
  induction vb using json_nested_ind; intros va x Va Vb E; try (apply merge_scalar in E; [now subst|cbn; tauto]).
  - destruct va; try discriminate. rewrite merge_value_objects in E. unfold compound_or in E.
    destruct (snd (merge_members members o)); [discriminate|]. cbn in E. inversion E; subst.
    apply merge_members_valid; [exact H|exact Va|]. now apply valid_object_inv.
  - destruct va; try discriminate. cbn in E. inversion E; subst. unfold array_merge. constructor. intros v I.
    apply valid_array_inv in Va, Vb. rewrite Forall_forall in Va, Vb. apply in_app_or in I as [I|I]; auto.
Qed.

Lemma merge_files_valid files : (forall m, In (Some m) files -> valid_json (JObject m)) ->
  valid_json (JObject (fst (merge_files files))).
Proof.
  unfold merge_files. intro V. assert (V0 : valid_json (JObject (fst (@nil (str * json), false)))).
  { constructor; [constructor|intros k v []]. }
  revert V0. generalize (@nil (str * json), false) as st. induction files as [|f files IH]; intros st V0; [exact V0|].
  cbn [fold_left]. apply IH; [intros m I; apply V; now right|]. destruct f as [b|]; [|exact V0]. cbn [fst].
  apply merge_members_valid; [|exact V0|].
  - apply Forall_forall. intros kv _. apply merge_value_valid.
  - apply valid_object_inv. apply V. now left.
Qed.

Lemma get_valid {T} (as_t : json -> option T) k o x : valid_json (JObject o) -> get as_t k o = Some x ->
  exists j, valid_json j /\ as_t j = Some x.
Proof.
  intros V E. unfold get in E. destruct (obj_get k o) as [j|] eqn:G; [|discriminate]. exists j. split; [|exact E].
  apply valid_object_inv in V as [_ V]. eapply V, obj_get_member, G.
Qed.

Lemma get_if_valid {T} (as_t : json -> option T) k o x : valid_json (JObject o) -> get_if as_t k o = Some (Some x) ->
  exists j, valid_json j /\ as_t j = Some x.
Proof.
  intros V E. unfold get_if in E. destruct (obj_get k o) as [j|] eqn:G; [|discriminate]. exists j. split.
  - apply valid_object_inv in V as [_ V]. eapply V, obj_get_member, G.
  - destruct (as_t j); cbn in E; congruence.
Qed.

Lemma as_object_inv j o : as_object j = Some o -> j = JObject o.
Proof. destruct j; cbn; congruence. Qed.

Lemma as_array_inv j o : as_array j = Some o -> j = JArray o.
Proof. destruct j; cbn; congruence. Qed.

Lemma as_string_inv j o : as_string j = Some o -> j = JString o.
Proof. destruct j; cbn; congruence. Qed.

Lemma map_all_in {X Y} (f : X -> option Y) l : forall r, map_all f l = Some r -> forall y, In y r -> exists x, In x l /\ f x = Some y.
Proof.
  induction l as [|x l IH]; intros r E y I; cbn in E; [inversion E; subst; destruct I|].
  destruct (f x) as [z|] eqn:F; [|discriminate]. destruct (map_all f l) as [zs|] eqn:G; [|discriminate]. inversion E; subst.
  destruct I as [<-|I]; [exists x; split; [now left|exact F]|]. destruct (IH _ eq_refl y I) as (w & W & H). exists w. split; [now right|exact H].
Qed.

Section Proper.
Variable regex_ok : str -> bool.

Lemma patterns_proper j ps : valid_json j -> patterns_of_json regex_ok j = Some ps -> proper_patterns regex_ok ps.
Proof.
  intros V E. unfold patterns_of_json in E. destruct (as_array j) as [l|] eqn:A; [|discriminate]. apply as_array_inv in A. subst j.
  destruct (map_all as_string l) as [qs|] eqn:M; [|discriminate]. destruct (forallb regex_ok qs) eqn:F; [|discriminate].
  inversion E; subst. apply valid_array_inv in V. apply Forall_forall. intros s I. split.
  - rewrite forallb_forall in F. now apply F.
  - destruct (map_all_in _ _ _ M s I) as (x & X & S). apply as_string_inv in S. subst x.
    rewrite Forall_forall in V. now apply valid_string_inv, V.
Qed.

Lemma compiler_proper j c : valid_json j -> compiler_of_json j = Some c -> proper_compiler c.
Proof.
  intros V E. unfold compiler_of_json in E. destruct (as_object j) as [o|] eqn:A; [|discriminate]. apply as_object_inv in A. subst j.
  destruct (get_if as_string (lit "recipe") o) as [r|] eqn:R; [|discriminate].
  destruct (get_if as_integer (lit "use_get_tags") o) as [t|]; [|discriminate].
  destruct (get as_object (lit "config") o) as [cfg|] eqn:C; [|discriminate]. inversion E; subst. clear E.
  unfold proper_compiler. cbn [recipe comp_origin comp_config]. repeat split.
  - destruct r as [s|]; [now exists s|]. exists []. reflexivity.
  - destruct r as [s|]; [|exact is_text_nil]. apply get_if_valid in R as (x & X & S); [|exact V].
    apply as_string_inv in S. subst x. now apply parse_text, valid_string_inv.
  - apply get_valid in C as (x & X & S); [|exact V]. apply as_object_inv in S. subst x. now apply valid_well_formed.
Qed.

Hypothesis defaults : accepts_defaults regex_ok.

Lemma default_cxx_proper : proper_kind regex_ok default_cxx.
Proof.
  cbn [proper_kind default_cxx]. constructor; [|constructor]. split.
  - inversion defaults as [|? ? _ D1]; subst. inversion D1 as [|? ? _ D2]; subst. now inversion D2.
  - apply ascii_text. repeat constructor.
Qed.

Lemma loader_proper j l : valid_json j -> loader_of_json regex_ok j = Some l ->
  proper_kind regex_ok (fst l) /\ proper_compiler (snd l).
Proof.
  intros V E. unfold loader_of_json in E. destruct (as_object j) as [o|] eqn:A; [|discriminate]. apply as_object_inv in A. subst j.
  destruct (get as_string (lit "loader") o) as [name|]; [|discriminate].
  destruct (get compiler_of_json (lit "compiler") o) as [c|] eqn:C; [|discriminate].
  apply get_valid in C as (x & X & C); [|exact V]. apply compiler_proper in C; [|exact X].
  assert (GOAL : forall r, option_map (fun k => (k, c)) r = Some l -> (forall k, r = Some k -> proper_kind regex_ok k) ->
                   proper_kind regex_ok (fst l) /\ proper_compiler (snd l)).
  { intros [k|] H K; [|discriminate]. cbn in H. inversion H; subst. split; [now apply K|exact C]. }
  assert (INST : forall of_json d, proper_kind regex_ok d ->
            (forall j k, valid_json j -> of_json j = Some k -> proper_kind regex_ok k) ->
            forall k, make_instance of_json d o = Some k -> proper_kind regex_ok k).
  { intros of_json d D P k H. unfold make_instance in H. destruct (get_if of_json (lit "config") o) as [[k'|]|] eqn:G.
    - inversion H; subst. apply get_if_valid in G as (y & Y & G); [|exact V]. eapply P; eassumption.
    - inversion H; subst. exact D.
    - discriminate. }
  apply (GOAL _ E). clear GOAL E. intros k K.
  destruct (str_eqb name (lit "app")); [inversion K; subst; exact I|].
  destruct (str_eqb name (lit "cxx_src_loader")).
  { revert K. apply INST; [exact default_cxx_proper|]. intros j' k' V' E'. unfold cxx_of_json in E'.
    destruct (as_object j') as [o'|] eqn:A'; [|discriminate]. apply as_object_inv in A'. subst j'.
    destruct (get_if (patterns_of_json regex_ok) (lit "generated_includes") o') as [[ps|]|] eqn:G; [| |discriminate].
    - inversion E'; subst. apply get_if_valid in G as (y & Y & G); [|exact V']. exact (patterns_proper _ _ Y G).
    - inversion E'; subst. constructor. }
  destruct (str_eqb name (lit "extension")); [inversion K; subst; exact I|].
  destruct (str_eqb name (lit "maikerule")); [inversion K; subst; exact I|].
  destruct (str_eqb name (lit "generic")).
  { revert K. apply INST; [exact is_text_nil|]. intros j' k' V' E'. unfold generic_of_json in E'.
    destruct (as_object j') as [o'|] eqn:A'; [|discriminate]. apply as_object_inv in A'. subst j'.
    destruct (get as_string (lit "target_filename_ext") o') as [ext|] eqn:G; [|discriminate].
    match type of E' with context [match ?g with Some _ => _ | None => _ end] => destruct g as [m|]; [|discriminate] end.
    inversion E'; subst. cbn [proper_kind]. apply get_valid in G as (y & Y & G); [|exact V']. apply as_string_inv in G. subst y.
    now apply valid_string_inv. }
  destruct (str_eqb name (lit "lib")); [inversion K; subst; exact I|]. discriminate.
Qed.

Lemma config_proper j c : valid_json j -> config_of_json regex_ok j = Some c -> proper_config regex_ok c.
Proof.
  intros V E. unfold config_of_json in E. destruct (as_object j) as [o|] eqn:A; [|discriminate]. apply as_object_inv in A. subst j.
  destruct (get (tree_config_of_json regex_ok) (lit "source_tree_loader") o) as [t|] eqn:T; [|discriminate].
  destruct (get (info_loaders_of_json regex_ok) (lit "source_file_info_loaders") o) as [m|] eqn:M; [|discriminate].
  destruct (get compiler_of_json (lit "dir_compiler") o) as [d|] eqn:D; [|discriminate]. inversion E; subst. clear E.
  unfold proper_config. cbn [tree_loader info_loaders dir_compiler].
  apply get_valid in T as (jt & VT & T); [|exact V]. apply get_valid in M as (jm & VM & M); [|exact V].
  apply get_valid in D as (jd & VD & D); [|exact V].
  unfold tree_config_of_json in T. destruct (as_object jt) as [ot|] eqn:A; [|discriminate]. apply as_object_inv in A. subst jt.
  destruct (get (patterns_of_json regex_ok) (lit "input_filter") ot) as [f1|] eqn:F1; [|discriminate].
  destruct (get (patterns_of_json regex_ok) (lit "fullpath_input_filter") ot) as [f2|] eqn:F2; [|discriminate].
  destruct (get as_integer (lit "recursive") ot) as [r|]; [|discriminate].
  destruct (get as_object (lit "file_info_loaders") ot) as [l|] eqn:L; [|discriminate].
  destruct (map_all (fun e => option_map (pair (fst e)) (as_string (snd e))) l) as [l'|] eqn:ML; [|discriminate].
  inversion T; subst. clear T. cbn [input_filter dir_filter file_info_loaders].
  apply get_valid in F1 as (j1 & V1 & F1); [|exact VT]. apply get_valid in F2 as (j2 & V2 & F2); [|exact VT].
  apply get_valid in L as (jl & VL & L); [|exact VT]. apply as_object_inv in L. subst jl.
  unfold info_loaders_of_json in M. destruct (as_object jm) as [om|] eqn:A; [|discriminate]. apply as_object_inv in A. subst jm.
  destruct (map_all (fun e => option_map (pair (fst e)) (loader_of_json regex_ok (snd e))) om) as [m'|] eqn:MM; [|discriminate].
  cbn in M. inversion M; subst. clear M. fold (assign_all l' []). fold (assign_all m' []).
  split; [exact (patterns_proper _ _ V1 F1)|]. split; [exact (patterns_proper _ _ V2 F2)|].
  split; [apply assign_all_increasing; constructor|]. split.
  { apply Forall_forall. intros e I. apply assign_all_in in I as [I|[]]. destruct (map_all_in _ _ _ ML e I) as ([k v] & X & S).
    cbn [fst snd] in S. destruct (as_string v) as [s|] eqn:AS; [|discriminate]. cbn in S. inversion S; subst. cbn [fst snd].
    apply as_string_inv in AS. subst v. apply valid_object_inv in VL as [_ VL]. destruct (VL _ _ X) as [KT VV]. split; [exact KT|].
    now apply valid_string_inv. }
  split; [apply assign_all_increasing; constructor|]. split.
  { apply Forall_forall. intros e I. apply assign_all_in in I as [I|[]]. destruct (map_all_in _ _ _ MM e I) as ([k v] & X & S).
    cbn [fst snd] in S. destruct (loader_of_json regex_ok v) as [s|] eqn:AS; [|discriminate]. cbn in S. inversion S; subst. cbn [fst snd].
    apply valid_object_inv in VM as [_ VM]. destruct (VM _ _ X) as [KT VV]. split; [exact KT|].
    exact (loader_proper _ _ VV AS). }
  exact (compiler_proper _ _ VD D).
Qed.

Lemma plain_text s : forallb (fun c => N.ltb (N_of_ascii c) 128) s = true -> is_text s.
Proof.
  intro F. apply ascii_text. apply Forall_forall. intros c I. rewrite forallb_forall in F. apply N.ltb_lt. now apply F.
Qed.

Lemma default_compiler_proper r cfg : is_text (path_string (parse_path (lit r))) -> well_formed (JObject cfg) ->
  proper_compiler (compiler_of r cfg).
Proof. intros T W. split; [reflexivity|]. split; [eexists; reflexivity|]. now split. Qed.

Lemma strings_well_formed l : well_formed (strings l).
Proof. constructor. intros v I. apply in_map_iff in I as (s & <- & _). constructor. Qed.

Lemma default_proper : proper_config regex_ok default_config.
Proof.
  assert (DF : proper_patterns regex_ok default_filter).
  { inversion defaults as [|? ? A D1]; subst. inversion D1 as [|? ? B D2]; subst.
    repeat constructor; try assumption; apply plain_text; reflexivity. }
  assert (CC : well_formed (JObject cxx_compiler_config)).
  { constructor; [repeat constructor; cbn; intuition discriminate|].
    intros k v [E|[E|[]]]; inversion E; subst; apply strings_well_formed. }
  assert (EE : well_formed (JObject [])) by (constructor; [constructor|intros k v []]).
  repeat split; try exact DF.
  - cbn. repeat constructor.
  - cbn. repeat (constructor; [split; apply plain_text; reflexivity|]). constructor.
  - cbn. repeat constructor.
  - unfold default_config, info_loaders, default_info_loaders.
    cbn - [compiler_of no_compiler cxx_compiler_config default_cxx proper_kind proper_compiler obj_set].
    repeat match goal with
    | |- Forall _ [] => constructor
    | |- Forall _ (_ :: _) => constructor; [split; [apply plain_text; reflexivity|split; cbn [fst snd]]|]
    | |- proper_kind _ default_cxx => exact default_cxx_proper
    | |- proper_kind _ _ => first [exact I|apply plain_text; reflexivity]
    | |- proper_compiler (compiler_of _ _) => apply default_compiler_proper; [apply plain_text; reflexivity|]
    end; try assumption.
    + constructor; [repeat constructor; intros []|]. intros k v [E|[]]. inversion E; subst. apply strings_well_formed.
    + constructor; [cbn; repeat constructor; cbn; intuition discriminate|].
      intros k v I. apply obj_set_member in I as [[_ ->]|[E|[E|[]]]]; try (inversion E; subst); apply strings_well_formed.
    + split; [reflexivity|]. split; [now exists []|]. split; [exact is_text_nil|exact EE].
  - eexists; reflexivity.
  - apply plain_text. reflexivity.
  - exact EE.
Qed.

Theorem loaded_proper files : (forall m, In (Some m) files -> valid_json (JObject m)) ->
  proper_config regex_ok (fst (load_configuration regex_ok files)).
Proof.
  intro V. apply merge_files_valid in V. unfold load_configuration. destruct (merge_files files) as [cfg reported]. cbn [fst] in V.
  destruct (get (config_of_json regex_ok) (lit "maikeconfig") cfg) as [c|] eqn:G; [|exact default_proper].
  apply get_valid in G as (j & VJ & G); [|exact V]. exact (config_proper _ _ VJ G).
Qed.
End Proper.


Lemma resolve_recipe_spec resolve configure x y : resolve_recipe resolve configure x = Some y <-> looked_up resolve configure x y.
Proof.
  unfold resolve_recipe, looked_up. destruct (resolve (recipe x)) as [[p o]|]; [|split; [discriminate|intros (p & o & K & _); discriminate]].
  destruct (path_eqb p empty_path) eqn:E.
  - apply path_eqb_eq in E. split.
    + intros [= <-]. exists p, o. repeat split; try reflexivity. left. now split.
    + intros (p' & o' & [= <- <-] & A & B & C & [[_ D]|[N _]]); [|contradiction]. destruct y. cbn in *. congruence.
  - assert (p <> empty_path) as N by (intro K; apply path_eqb_eq in K; congruence). split.
    + destruct (configure p (comp_config x)) as [cfg|] eqn:G; [|discriminate]. intros [= <-]. exists p, o.
      repeat split; try reflexivity. right. now split.
    + intros (p' & o' & [= <- <-] & A & B & C & [[D _]|[_ D]]); [contradiction|]. rewrite D. destruct y. cbn in *. congruence.
Qed.

Lemma compiler_described j c : compiler_of_json j = Some c -> exists o, j = JObject o /\ described_by o c.
Proof.
  destruct j as [o| | | | | | |]; try discriminate. intro E. exists o. split; [reflexivity|]. unfold described_by.
  unfold compiler_of_json in E. cbn [as_object] in E. unfold get_if, get in E.
  destruct (obj_get (lit "recipe") o) as [[| |r| | | | |]|]; try discriminate;
    destruct (obj_get (lit "use_get_tags") o) as [[| | |z| | | |]|]; try discriminate;
    destruct (obj_get (lit "config") o) as [[cfg| | | | | | |]|]; try discriminate;
    cbn in E; injection E as <-; cbn [recipe use_get_tags comp_config]; repeat split; try reflexivity.
  all: try (destruct (Z.eqb_spec z 0); [discriminate|now intros _]).
  all: try (intro N; destruct (Z.eqb_spec z 0); [contradiction|reflexivity]).
Qed.

Theorem own_recipe src s t parse resolve configure script_tags builtin l content tags info :
  load_source_file src s t parse resolve configure script_tags builtin l content = Some info ->
  parse (snd (filter_input l content)) = Some tags ->
  compiler_default info = Some (loader_compiler l) /\
  match obj_get (lit "compiler") tags with
  | None => si_compiler info = no_compiler
  | Some j => exists o x, j = JObject o /\ described_by o x /\ looked_up resolve configure x (si_compiler info)
  end.
Proof.
  intros L P. unfold load_source_file in L. destruct (filter_input l content) as [a b]. cbn [snd] in P. rewrite P in L.
  destruct (get_targets src s t tags) as [ts0|]; [|discriminate].
  destruct (get_use_deps src s t tags) as [us0|]; [|discriminate].
  destruct (get_child_target_use_deps src s t tags) as [xs0|]; [|discriminate].
  destruct (get_if compiler_of_json (lit "compiler") tags) as [own|] eqn:G; [|discriminate].
  destruct (match own with None => Some None | Some c => option_map Some (resolve_recipe resolve configure c) end) as [own'|] eqn:O; [|discriminate].
  cbv zeta in L. match type of L with match ?m with _ => _ end = _ => destruct m as [[[? ?] ?]|]; [|discriminate] end.
  match type of L with match ?m with _ => _ end = _ => destruct m; [|discriminate] end.
  injection L as <-. cbn [compiler_default si_compiler]. split; [reflexivity|].
  unfold get_if in G. destruct (obj_get (lit "compiler") tags) as [j|].
  - destruct (compiler_of_json j) as [c|] eqn:E; [|discriminate]. injection G as <-. apply compiler_described in E.
    destruct E as (ob & -> & D). exists ob, c. split; [reflexivity|]. split; [exact D|].
    destruct (resolve_recipe resolve configure c) as [y|] eqn:R; [|discriminate]. injection O as <-. now apply resolve_recipe_spec.
  - injection G as <-. injection O as <-. reflexivity.
Qed.

(** * The loaders of extensions *)

Lemma lookup_in {V} k (m : list (str * V)) v : NoDup (map fst m) -> (lookup k m = Some v <-> In (k, v) m).
Proof.
  induction m as [|[k' v'] m IH]; intro D; cbn [lookup]; [split; [discriminate|intros []]|]. inversion D; subst.
  destruct (str_eqb k k') eqn:E.
  - apply str_eqb_eq in E. subst k'. split; [intro H; inversion H; now left|]. intros [H|H]; [now inversion H|].
    exfalso. apply H1. apply in_map_iff. now exists (k, v).
  - apply str_eqb_neq in E. rewrite IH by assumption. split; [intro; now right|]. intros [H|H]; [inversion H; congruence|exact H].
Qed.

Lemma lookup_none {V} k (m : list (str * V)) : lookup k m = None <-> ~ In k (map fst m).
Proof.
  induction m as [|[k' v'] m IH]; cbn [lookup map fst In]; [tauto|]. destruct (str_eqb k k') eqn:E.
  - apply str_eqb_eq in E. subst k'. split; [discriminate|]. intro H. exfalso. apply H. now left.
  - apply str_eqb_neq in E. rewrite IH. intuition congruence.
Qed.

Lemma map_all_complete {X Y} (f : X -> option Y) l : forall r, map_all f l = Some r -> forall x, In x l -> exists y, In y r /\ f x = Some y.
Proof.
  induction l as [|x l IH]; intros r E z I; [destruct I|]. cbn in E. destruct (f x) as [y|] eqn:F; [|discriminate].
  destruct (map_all f l) as [ys|]; [|discriminate]. inversion E; subst. destruct I as [<-|I].
  - exists y. split; [now left|exact F].
  - destruct (IH _ eq_refl z I) as (w & W & H). exists w. split; [now right|exact H].
Qed.

Lemma map_all_none {X Y} (f : X -> option Y) l : map_all f l = None <-> exists x, In x l /\ f x = None.
Proof.
  induction l as [|x l IH]; cbn [map_all]; [split; [discriminate|intros (? & [] & _)]|].
  destruct (f x) as [y|] eqn:F.
  - destruct (map_all f l) as [ys|].
    + split; [discriminate|]. intros (z & [<-|I] & H); [congruence|]. assert (Some ys = None) by (apply IH; eauto). discriminate.
    + split; [|reflexivity]. intros _. destruct (proj1 IH eq_refl) as (z & I & H). exists z. split; [now right|exact H].
  - split; [|reflexivity]. intros _. exists x. split; [now left|exact F].
Qed.

Lemma map_all_increasing {V W} (f : V -> option W) (l : list (str * V)) : forall r, increasing l ->
  map_all (fun e => option_map (pair (fst e)) (f (snd e))) l = Some r -> increasing r.
Proof.
  intros r I. revert r. induction I as [|[k v] l S IH F]; intros r E; cbn in E; [inversion E; constructor|].
  destruct (f v) as [w|]; [|discriminate]. cbn in E.
  destruct (map_all _ l) as [ws|] eqn:M; [|discriminate]. inversion E; subst. constructor; [now apply IH|].
  apply Forall_forall. intros e J. destruct (map_all_in _ _ _ M e J) as ([k' v'] & X & H). cbn in H.
  destruct (f v'); [|discriminate]. cbn in H. inversion H; subst. cbn. rewrite Forall_forall in F. exact (F _ X).
Qed.

Theorem map_loaders_spec c : increasing (file_info_loaders (tree_loader c)) -> increasing (info_loaders c) ->
  match map_loaders c with
  | Some m => ~ loader_missing c /\ NoDup (map fst m) /\ forall e l, In (e, l) m <-> loader_for c e l
  | None => loader_missing c
  end.
Proof.
  intros I1 I2. unfold map_loaders. set (f := fun e : str * str => option_map (pair (fst e)) (lookup (snd e) (info_loaders c))).
  pose proof (increasing_nodup _ I2) as D2. destruct (map_all f _) as [r|] eqn:M; cbn [option_map].
  - assert (IR : increasing r) by exact (map_all_increasing (fun n => lookup n (info_loaders c)) _ _ I1 M).
    fold (assign_all r []). rewrite assign_all_id by assumption. split; [|split].
    + intros (e & name & A & B). destruct (map_all_complete _ _ _ M _ A) as (y & _ & H). unfold f in H. cbn in H.
      destruct (lookup name (info_loaders c)) eqn:L; [|discriminate]. apply lookup_none in B. congruence.
    + now apply increasing_nodup.
    + intros e l. split.
      * intro J. destruct (map_all_in _ _ _ M _ J) as ([k n] & A & H). unfold f in H. cbn in H.
        destruct (lookup n (info_loaders c)) eqn:L; [|discriminate]. cbn in H. inversion H; subst. exists n. split; [exact A|].
        now apply lookup_in.
      * intros (n & A & B). destruct (map_all_complete _ _ _ M _ A) as (y & J & H). unfold f in H. cbn in H.
        apply lookup_in in B; [|assumption]. rewrite B in H. cbn in H. now inversion H; subst.
  - apply map_all_none in M as ([e n] & A & H). unfold f in H. cbn in H. exists e, n. split; [exact A|]. apply lookup_none.
    destruct (lookup n (info_loaders c)); [discriminate|reflexivity].
Qed.

(** The recipes are located and configured, nothing else changes. *)
Theorem resolve_recipes_spec resolve configure c c' : resolve_recipes resolve configure c = Some c' ->
  tree_loader c' = tree_loader c /\ resolve_recipe resolve configure (dir_compiler c) = Some (dir_compiler c') /\
  Forall2 (fun x y => fst x = fst y /\ fst (snd x) = fst (snd y) /\
                      resolve_recipe resolve configure (snd (snd x)) = Some (snd (snd y))) (info_loaders c) (info_loaders c').
Proof.
  intro E. unfold resolve_recipes in E. destruct (resolve_recipe resolve configure (dir_compiler c)) as [d|]; [|discriminate].
  destruct (map_all _ (info_loaders c)) as [l|] eqn:M; [|discriminate]. inversion E; subst. cbn. split; [reflexivity|]. split; [reflexivity|].
  clear E. revert l M. induction (info_loaders c) as [|e m IH]; intros l M; cbn in M; [inversion M; constructor|].
  destruct (resolve_recipe resolve configure (snd (snd e))) as [x|] eqn:R; [|discriminate]. cbn in M.
  destruct (map_all _ m) as [ys|]; [|discriminate]. inversion M; subst. constructor; [cbn; now rewrite R|]. now apply IH.
Qed.

Theorem recipes_looked_up resolve configure c c' : resolve_recipes resolve configure c = Some c' ->
  tree_loader c' = tree_loader c /\ looked_up resolve configure (dir_compiler c) (dir_compiler c') /\
  Forall2 (fun x y => fst x = fst y /\ fst (snd x) = fst (snd y) /\
                      looked_up resolve configure (snd (snd x)) (snd (snd y))) (info_loaders c) (info_loaders c').
Proof.
  intro R. destruct (resolve_recipes_spec resolve configure c c' R) as (A & B & C). split; [exact A|].
  split; [now apply resolve_recipe_spec|]. induction C as [|x y l l' (D & E & F) _ IH]; constructor; [|exact IH].
  split; [exact D|]. split; [exact E|]. now apply resolve_recipe_spec.
Qed.


(** * Configurations that cannot be used *)

Theorem default_or_given regex_ok files :
  fst (load_configuration regex_ok files) = default_config \/
  exists j, obj_get (lit "maikeconfig") (fst (merge_files files)) = Some j /\
            config_of_json regex_ok j = Some (fst (load_configuration regex_ok files)).
Proof.
  unfold load_configuration. destruct (merge_files files) as [cfg r]. unfold get. cbn [fst].
  destruct (obj_get (lit "maikeconfig") cfg) as [j|]; [|now left]. destruct (config_of_json regex_ok j) as [c|] eqn:E; [|now left].
  right. exists j. now split.
Qed.

Lemma merge_files_step fs f : merge_files (fs ++ [f]) =
  match f with
  | None => (fst (merge_files fs), true)
  | Some b => (fst (merge_members (fst (merge_files fs)) b), snd (merge_files fs) || snd (merge_members (fst (merge_files fs)) b))
  end.
Proof. unfold merge_files. rewrite fold_left_app. cbn [fold_left]. destruct f; reflexivity. Qed.

Lemma merge_files_content fs : fst (merge_files fs) = load_config fs.
Proof.
  induction fs as [|f fs IH] using rev_ind; [reflexivity|]. rewrite merge_files_step, load_config_step, <- IH. destruct f; reflexivity.
Qed.

Lemma merge_files_combined fs : snd (merge_files fs) = false -> combined fs (load_config fs).
Proof.
  induction fs as [|f fs IH] using rev_ind; [constructor|]. rewrite merge_files_step. destruct f as [b|]; cbn [snd]; [|discriminate].
  intro H. apply orb_false_iff in H. destruct H as [H1 H2]. rewrite merge_files_content in H2. rewrite load_config_step.
  eapply combined_file; [apply IH, H1|]. unfold compound_or. rewrite H2. reflexivity.
Qed.

Lemma combined_merge_files fs m : combined fs m -> merge_files fs = (m, false).
Proof.
  induction 1 as [|fs a b c H IH E]; [reflexivity|]. rewrite merge_files_step, IH. cbn [fst snd]. unfold compound_or in E.
  destruct (snd (merge_members a b)); [discriminate|]. injection E as <-. reflexivity.
Qed.

Theorem given_or_default regex_ok files c reported : load_configuration regex_ok files = (c, reported) ->
  (exists j, obj_get (lit "maikeconfig") (load_config files) = Some j /\ config_of_json regex_ok j = Some c /\
             (reported = false <-> exists m, combined files m)) \/
  (c = default_config /\ reported = true /\
   forall j, obj_get (lit "maikeconfig") (load_config files) = Some j -> config_of_json regex_ok j = None).
Proof.
  unfold load_configuration. pose proof (merge_files_content files) as E0.
  assert (E1 : snd (merge_files files) = false <-> exists m, combined files m).
  { split; [intro H; eexists; apply merge_files_combined, H|]. intros (m & H). rewrite (combined_merge_files _ _ H). reflexivity. }
  destruct (merge_files files) as [cfg r]. unfold get. cbn [fst snd] in *. subst cfg.
  destruct (obj_get (lit "maikeconfig") (load_config files)) as [j|].
  - destruct (config_of_json regex_ok j) as [c'|] eqn:E; intro H; inversion H; subst.
    + left. exists j. split; [reflexivity|]. split; [exact E|exact E1].
    + right. repeat split. intros j' J. now inversion J; subst.
  - intro H. inversion H; subst. right. repeat split. discriminate.
Qed.

Theorem loader_of_file c m p : increasing (file_info_loaders (tree_loader c)) -> increasing (info_loaders c) ->
  map_loaders c = Some m ->
  match match_longest_extension p m with
  | Some l => exists e, extension_of (filename p) e /\ loader_for c e l /\
      (forall e' l', extension_of (filename p) e' -> loader_for c e' l' -> length e' <= length e)
  | None => forall e l, extension_of (filename p) e -> ~ loader_for c e l
  end.
Proof.
  intros I1 I2 M. pose proof (map_loaders_spec c I1 I2) as S. rewrite M in S. destruct S as (_ & D & S).
  pose proof (longest_extension _ p m) as L. destruct (match_longest_extension p m) as [l|].
  - destruct L as (e & E & G & B). exists e. split; [exact E|]. split; [apply S; now apply lookup_in|].
    intros e' l' E' F. apply B; [exact E'|]. apply S in F. apply lookup_in in F; [|exact D]. congruence.
  - intros e l E F. apply S in F. apply lookup_in in F; [|exact D]. rewrite (L e E) in F. discriminate.
Qed.

(** The default configuration is replaced by the one from a file that only says that
    the scan is recursive. *)
Definition partial_file : compound :=
  [(lit "maikeconfig", JObject [(lit "source_tree_loader", JObject [(lit "recursive", JInteger 1)])])].

Theorem unusable_configuration regex_ok :
  valid_json (JObject partial_file) /\
  (exists j, obj_get (lit "maikeconfig") partial_file = Some j /\ config_of_json regex_ok j = None) /\
  load_configuration regex_ok [Some partial_file] = (default_config, true).
Proof.
  split.
  { pose proof plain_text as T.
    unfold partial_file. apply valid_object; [repeat constructor; intros []|]. intros k v [E|[]]. inversion E; subst.
    split; [apply T; reflexivity|]. apply valid_object; [repeat constructor; intros []|]. intros k v [F|[]]. inversion F; subst.
    split; [apply T; reflexivity|]. apply valid_object; [repeat constructor; intros []|]. intros k v [G|[]]. inversion G; subst.
    split; [apply T; reflexivity|]. apply valid_other; [cbn; tauto|discriminate]. }
  split.
  - eexists. split; reflexivity.
  - reflexivity.
Qed.
