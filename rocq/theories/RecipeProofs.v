(** Proofs about recipes. *)

From Coq Require Import Ascii String ZArith NArith Bool Arith Lia.
From Coq Require Import List.
From Verif Require Import Str Path SMap PathProofs JsonModel JsonProofs DbModel GraphModel GraphSpec ValueModel LoadModel.
From Verif Require Import DepGraphModel DepGraphSpec DepGraphProofs LogModel RecipeModel RecipeSpec.
Import ListNotations.

(** ** UTF-8 *)

Lemma utf8_step fuel v s : scalar_value v -> utf8_check (S fuel) (utf8_encode v ++ s) = utf8_check fuel s.
Proof.
  intro SV. unfold utf8_encode.
  destruct (N.ltb_spec v 128) as [L1|G1].
  - cbn [map app utf8_check]. unfold utf8_length. rewrite N_ascii_embedding by lia.
    destruct (N.ltb_spec v 128); [|lia]. reflexivity.
  - destruct (N.ltb_spec v 2048) as [L2|G2].
    + assert (Q : (2 <= v / 64 < 32)%N) by (split; [apply N.div_le_lower_bound; lia|apply N.div_lt_upper_bound; lia]).
      assert (M : (0 <= v mod 64 < 64)%N) by (split; [apply N.le_0_l|apply N.mod_lt; lia]).
      cbn [map app utf8_check]. unfold utf8_length. rewrite N_ascii_embedding by lia.
      destruct (N.ltb_spec (192 + v / 64) 128); [lia|]. destruct (N.ltb_spec (192 + v / 64) 194); [lia|].
      destruct (N.ltb_spec (192 + v / 64) 224); [|lia].
      cbn [firstn utf8_value skipn length]. rewrite !N_ascii_embedding by lia.
      destruct (N.leb_spec 128 (128 + v mod 64)); [|lia]. destruct (N.ltb_spec (128 + v mod 64) 192); [|lia].
      cbn [andb Nat.eqb]. replace ((192 + v / 64 - 192) * 64 + (128 + v mod 64 - 128))%N with v by (pose proof (N.div_mod v 64); lia).
      unfold utf8_valid_value. destruct SV as [SV|SV]; [|lia].
      destruct (N.leb_spec v 1114111); [|lia]. destruct (N.leb_spec 55296 v); [lia|]. destruct (N.leb_spec 128 v); [|lia]. reflexivity.
    + destruct (N.ltb_spec v 65536) as [L3|G3].
      * assert (Q : (0 <= v / 4096 < 16)%N) by (split; [apply N.le_0_l|]; apply N.div_lt_upper_bound; lia).
        assert (M : (0 <= v mod 64 < 64)%N) by (split; [apply N.le_0_l|apply N.mod_lt; lia]).
        assert (M2 : (0 <= (v / 64) mod 64 < 64)%N) by (split; [apply N.le_0_l|apply N.mod_lt; lia]).
        cbn [map app utf8_check]. unfold utf8_length. rewrite N_ascii_embedding by lia.
        destruct (N.ltb_spec (224 + v / 4096) 128); [lia|]. destruct (N.ltb_spec (224 + v / 4096) 194); [lia|].
        destruct (N.ltb_spec (224 + v / 4096) 224); [lia|]. destruct (N.ltb_spec (224 + v / 4096) 240); [|lia].
        cbn [firstn utf8_value skipn length]. rewrite !N_ascii_embedding by lia.
        destruct (N.leb_spec 128 (128 + (v / 64) mod 64)); [|lia]. destruct (N.ltb_spec (128 + (v / 64) mod 64) 192); [|lia].
        destruct (N.leb_spec 128 (128 + v mod 64)); [|lia]. destruct (N.ltb_spec (128 + v mod 64) 192); [|lia].
        cbn [andb Nat.eqb].
        replace (((224 + v / 4096 - 224) * 64 + (128 + (v / 64) mod 64 - 128)) * 64 + (128 + v mod 64 - 128))%N with v.
        2:{ pose proof (N.div_mod v 64) as D1. pose proof (N.div_mod (v / 64) 64) as D2. rewrite N.div_div in D2 by lia.
            change (64 * 64)%N with 4096%N in D2. lia. }
        unfold utf8_valid_value. destruct (N.leb_spec v 1114111); [|lia]. destruct (N.leb_spec 2048 v); [|lia].
        destruct (N.leb_spec 55296 v); [|reflexivity]. destruct (N.leb_spec v 57343); [|reflexivity]. exfalso. destruct SV; lia.
      * assert (U : (v <= 1114111)%N) by (destruct SV; lia).
        assert (Q : (0 <= v / 262144 < 5)%N) by (split; [apply N.le_0_l|]; apply N.div_lt_upper_bound; lia).
        assert (M : (0 <= v mod 64 < 64)%N) by (split; [apply N.le_0_l|apply N.mod_lt; lia]).
        assert (M2 : (0 <= (v / 64) mod 64 < 64)%N) by (split; [apply N.le_0_l|apply N.mod_lt; lia]).
        assert (M3 : (0 <= (v / 4096) mod 64 < 64)%N) by (split; [apply N.le_0_l|apply N.mod_lt; lia]).
        cbn [map app utf8_check]. unfold utf8_length. rewrite N_ascii_embedding by lia.
        destruct (N.ltb_spec (240 + v / 262144) 128); [lia|]. destruct (N.ltb_spec (240 + v / 262144) 194); [lia|].
        destruct (N.ltb_spec (240 + v / 262144) 224); [lia|]. destruct (N.ltb_spec (240 + v / 262144) 240); [lia|].
        destruct (N.ltb_spec (240 + v / 262144) 245); [|lia].
        cbn [firstn utf8_value skipn length]. rewrite !N_ascii_embedding by lia.
        destruct (N.leb_spec 128 (128 + (v / 4096) mod 64)); [|lia]. destruct (N.ltb_spec (128 + (v / 4096) mod 64) 192); [|lia].
        destruct (N.leb_spec 128 (128 + (v / 64) mod 64)); [|lia]. destruct (N.ltb_spec (128 + (v / 64) mod 64) 192); [|lia].
        destruct (N.leb_spec 128 (128 + v mod 64)); [|lia]. destruct (N.ltb_spec (128 + v mod 64) 192); [|lia].
        cbn [andb Nat.eqb].
        replace ((((240 + v / 262144 - 240) * 64 + (128 + (v / 4096) mod 64 - 128)) * 64 + (128 + (v / 64) mod 64 - 128)) * 64
                 + (128 + v mod 64 - 128))%N with v.
        2:{ pose proof (N.div_mod v 64) as D1. pose proof (N.div_mod (v / 64) 64) as D2. pose proof (N.div_mod (v / 4096) 64) as D3.
            rewrite N.div_div in D2, D3 by lia. change (64 * 64)%N with 4096%N in D2. change (4096 * 64)%N with 262144%N in D3. lia. }
        unfold utf8_valid_value. destruct (N.leb_spec v 1114111); [|lia]. destruct (N.leb_spec v 57343); [lia|].
        destruct (N.leb_spec 65536 v); [|lia]. now rewrite andb_false_r.
Qed.

Lemma utf8_encode_length v : 1 <= length (utf8_encode v).
Proof. unfold utf8_encode. destruct (v <? 128)%N, (v <? 2048)%N, (v <? 65536)%N; cbn; lia. Qed.

Lemma utf8_check_text s : is_text s -> forall fuel, length s <= fuel -> utf8_check fuel s = true.
Proof.
  intros (vs & F & ->). induction F as [|v vs SV F IH]; intros fuel L; [destruct fuel; reflexivity|].
  cbn [map concat] in *. rewrite app_length in L. pose proof (utf8_encode_length v). destruct fuel as [|fuel]; [lia|].
  rewrite utf8_step by assumption. apply IH. lia.
Qed.

Lemma json_string_text s : is_text s -> json_string s = Some (JString s).
Proof. intro T. unfold json_string. now rewrite (utf8_check_text s T). Qed.

(** Plain text *)
Lemma ascii_text s : Forall (fun c => (N_of_ascii c < 128)%N) s -> is_text s.
Proof.
  intro F. exists (map N_of_ascii s). split.
  - apply Forall_map. eapply Forall_impl; [|exact F]. intros c L. left. cbn in *. lia.
  - induction F as [|c s L F IH]; [reflexivity|]. cbn [map concat]. rewrite <- IH. unfold utf8_encode.
    destruct (N.ltb_spec (N_of_ascii c) 128); [|lia]. cbn. now rewrite ascii_N_embedding.
Qed.

(** ** Descriptions of dependencies *)

Definition add_prop (o : compound) (p : property) : compound :=
  match json_string (prop_value p) with Some j => obj_set (prop_name p) j o | None => o end.

Lemma add_props_other k l : forall o, ~ In k (map prop_name l) -> obj_get k (fold_left add_prop l o) = obj_get k o.
Proof.
  induction l as [|p l IH]; intros o N; [reflexivity|]. cbn [fold_left]. cbn [map] in N.
  rewrite IH by (intro; apply N; now right). unfold add_prop. destruct (json_string (prop_value p)); [|reflexivity].
  apply obj_get_set_other. intro E. apply N. now left.
Qed.

Lemma add_props_in l : forall o p, NoDup (map prop_name l) -> Forall (fun p => is_text (prop_value p)) l ->
  In p l -> obj_get (prop_name p) (fold_left add_prop l o) = Some (JString (prop_value p)).
Proof.
  induction l as [|q l IH]; intros o p ND F I; [destruct I|]. inversion ND as [|? ? N ND']; subst. inversion F as [|? ? T F']; subst.
  cbn [fold_left]. destruct I as [->|I]; [|now apply IH]. rewrite add_props_other by assumption.
  unfold add_prop. rewrite json_string_text by assumption. apply obj_get_set_same.
Qed.

Lemma add_props_keys k l : forall o, obj_get k (fold_left add_prop l o) <> None ->
  obj_get k o <> None \/ In k (map prop_name l).
Proof.
  induction l as [|p l IH]; intros o H; [now left|]. cbn [fold_left] in H. apply IH in H. destruct H as [H|H]; [|right; now right].
  unfold add_prop in H. destruct (json_string (prop_value p)); [|now left].
  destruct (list_eq_dec ascii_dec k (prop_name p)) as [->|N]; [right; now left|]. rewrite obj_get_set_other in H by assumption. now left.
Qed.

Definition dep_compound (d : dependency) : compound :=
  fold_left add_prop (dep_props d)
    (set_new "origin" (json_string (origin_to_string (dep_origin d)))
       (set_new "ref" (json_string (path_string (dep_name d))) [])).

Lemma dependency_to_json_eq d : dependency_to_json d = JObject (dep_compound d).
Proof. reflexivity. Qed.

Lemma origin_text o : json_string (origin_to_string o) = Some (JString (origin_name o)).
Proof. destruct o; reflexivity. Qed.

Lemma dep_compound_ref d : proper_dependency d ->
  obj_get (lit "ref") (dep_compound d) = Some (JString (path_string (dep_name d))).
Proof.
  intros (T & _ & NR & _ & _). unfold dep_compound. rewrite add_props_other by assumption.
  rewrite origin_text, (json_string_text _ T). cbn [set_new]. rewrite obj_get_set_other by discriminate. apply obj_get_set_same.
Qed.

Lemma dep_compound_origin d : proper_dependency d ->
  obj_get (lit "origin") (dep_compound d) = Some (JString (origin_name (dep_origin d))).
Proof.
  intros (T & _ & _ & NO & _). unfold dep_compound. rewrite add_props_other by assumption.
  rewrite origin_text. apply obj_get_set_same.
Qed.

Lemma dependency_described d : proper_dependency d -> describes d (dependency_to_json d).
Proof.
  intros P. exists (dep_compound d). split; [reflexivity|]. split; [now apply dep_compound_ref|].
  split; [now apply dep_compound_origin|]. destruct P as (T & ND & NR & NO & F). split.
  - intros p I. now apply add_props_in.
  - intros k H. apply add_props_keys in H. destruct H as [H|H]; [|now right; right].
    rewrite origin_text, (json_string_text _ T) in H. cbn [set_new] in H.
    destruct (list_eq_dec ascii_dec k (lit "origin")) as [->|N]; [right; now left|]. rewrite obj_get_set_other in H by assumption.
    destruct (list_eq_dec ascii_dec k (lit "ref")) as [->|N2]; [now left|]. rewrite obj_get_set_other in H by assumption.
    now destruct H.
Qed.

(** The relation that has been given *)
Lemma dep_compound_rel d : proper_dependency d ->
  (exists v, In (mk_property (lit "rel") v) (dep_props d) /\ obj_get (lit "rel") (dep_compound d) = Some (JString v) /\
             forall v', In (mk_property (lit "rel") v') (dep_props d) -> v' = v) \/
  (obj_get (lit "rel") (dep_compound d) = None /\ forall v, ~ In (mk_property (lit "rel") v) (dep_props d)).
Proof.
  intros P. assert (P' := P). destruct P' as (T & ND & NR & NO & F).
  destruct (in_dec (list_eq_dec ascii_dec) (lit "rel") (map prop_name (dep_props d))) as [I|N].
  - left. apply in_map_iff in I. destruct I as ([n v] & E & I). cbn in E. subst n. exists v. split; [assumption|].
    assert (G : forall v', In (mk_property (lit "rel") v') (dep_props d) -> obj_get (lit "rel") (dep_compound d) = Some (JString v')).
    { intros v' I'. exact (add_props_in _ _ (mk_property (lit "rel") v') ND F I'). }
    split; [now apply G|]. intros v' I'. apply G in I, I'. congruence.
  - right. split.
    + unfold dep_compound. rewrite add_props_other by assumption. rewrite origin_text, (json_string_text _ T). reflexivity.
    + intros v I. apply N. now apply in_map with (f := prop_name) in I.
Qed.

(** ** The build command *)

Lemma append_strings (f : target_info -> str) l : forall a, Forall (fun t => is_text (f t)) l ->
  fold_left (fun a t => append_new a (json_string (f t))) l a = a ++ map (fun t => JString (f t)) l.
Proof.
  induction l as [|t l IH]; intros a F; [now rewrite app_nil_r|]. inversion F; subst. cbn [fold_left map].
  rewrite json_string_text by assumption. cbn [append_new]. rewrite IH by assumption. now rewrite <- app_assoc.
Qed.

Lemma append_deps l : forall a,
  fold_left (fun a d => append_new a (Some (dependency_to_json d))) l a = a ++ map dependency_to_json l.
Proof.
  induction l as [|d l IH]; intros a; [now rewrite app_nil_r|]. cbn [fold_left map append_new]. rewrite IH. now rewrite <- app_assoc.
Qed.

Lemma options_dependencies id p info cfg bi deps format :
  obj_get (lit "dependencies") (command_options id p info cfg bi deps format) = Some (JArray (map dependency_to_json deps)).
Proof. unfold command_options. rewrite append_deps. cbn [set_new app]. apply obj_get_set_same. Qed.

Lemma options_targets id p info cfg bi deps format :
  Forall (fun t => is_text (path_string (ti_name t))) (targets info) ->
  obj_get (lit "targets") (command_options id p info cfg bi deps format)
  = Some (JArray (map (fun t => JString (path_string (ti_name t))) (targets info))).
Proof.
  intro F. unfold command_options. rewrite (append_strings (fun t => path_string (ti_name t))) by assumption.
  cbn [set_new app]. rewrite obj_get_set_other by discriminate. apply obj_get_set_same.
Qed.

Lemma log_format_text f : exists s, json_string (log_format_to_string f) = Some (JString s) /\ log_format_to_string f = s.
Proof. destruct f; eexists; split; reflexivity. Qed.

Lemma options_config id p info cfg bi deps format :
  obj_get (lit "compiler_cfg") (command_options id p info cfg bi deps format) = Some (JObject cfg).
Proof.
  unfold command_options. destruct (log_format_text format) as (s & -> & _).
  destruct (json_string (path_string p)); cbn [set_new]; rewrite !obj_get_set_other by discriminate; apply obj_get_set_same.
Qed.

Lemma options_id id p info cfg bi deps format :
  obj_get (lit "task_id") (command_options id p info cfg bi deps format) = Some (JInteger id).
Proof.
  unfold command_options. destruct (log_format_text format) as (s & -> & _).
  destruct (json_string (path_string p)); cbn [set_new]; do 4 (rewrite obj_get_set_other by discriminate); apply obj_get_set_same.
Qed.

Lemma options_format id p info cfg bi deps format :
  obj_get (lit "log_format") (command_options id p info cfg bi deps format) = Some (JString (log_format_to_string format)).
Proof.
  unfold command_options. destruct (log_format_text format) as (s & -> & ->).
  destruct (json_string (path_string p)); cbn [set_new]; do 2 (rewrite obj_get_set_other by discriminate); apply obj_get_set_same.
Qed.

Lemma options_info id p info cfg bi deps format :
  obj_get (lit "build_info") (command_options id p info cfg bi deps format) = Some (build_info_to_json bi).
Proof.
  unfold command_options. destruct (log_format_text format) as (s & -> & _).
  destruct (json_string (path_string p)); cbn [set_new]; do 3 (rewrite obj_get_set_other by discriminate); apply obj_get_set_same.
Qed.

Lemma options_source id p info cfg bi deps format : is_text (path_string p) ->
  obj_get (lit "source_file") (command_options id p info cfg bi deps format) = Some (JString (path_string p)).
Proof.
  intro T. unfold command_options. destruct (log_format_text format) as (s & -> & _).
  rewrite (json_string_text _ T). cbn [set_new]; do 5 (rewrite obj_get_set_other by discriminate); apply obj_get_set_same.
Qed.

Lemma build_command_told dump id p info bi deps format cmd :
  is_text (path_string p) -> Forall (fun t => is_text (path_string (ti_name t))) (targets info) ->
  Forall proper_dependency deps ->
  make_build_command dump id p info bi deps format = Some cmd ->
  exists c m ds,
    (compiler_default info = None -> c = si_compiler info) /\
    (forall d, compiler_default info = Some d -> combine d (si_compiler info) = Some c) /\
    executable cmd = path_string (if path_eqb (recipe c) empty_path then make_shell_exec_path p else recipe c) /\
    cmd_args cmd = [lit "compile"; dump (JObject m)] /\
    obj_get (lit "source_file") m = Some (JString (path_string p)) /\
    obj_get (lit "targets") m = Some (JArray (map (fun t => JString (path_string (ti_name t))) (targets info))) /\
    obj_get (lit "dependencies") m = Some (JArray ds) /\ Forall2 describes deps ds /\
    obj_get (lit "compiler_cfg") m = Some (JObject (comp_config c)) /\
    obj_get (lit "task_id") m = Some (JInteger id) /\
    obj_get (lit "build_info") m = Some (build_info_to_json bi) /\
    obj_get (lit "log_format") m = Some (JString (log_format_to_string format)).
Proof.
  intros T FT FD H. unfold make_build_command in H. destruct (effective_compiler info) as [c|] eqn:E; [|discriminate].
  inversion H; subst. exists c. eexists. exists (map dependency_to_json deps).
  unfold effective_compiler in E.
  split. { intro N. rewrite N in E. congruence. } split. { intros d D. now rewrite D in E. }
  split; [reflexivity|]. split; [reflexivity|].
  split; [now apply options_source|]. split; [now apply options_targets|]. split; [apply options_dependencies|].
  split. { clear - FD. induction FD as [|d l P F IH]; constructor; [now apply dependency_described|assumption]. }
  split; [apply options_config|]. split; [apply options_id|]. split; [apply options_info|apply options_format].
Qed.

(** ** Removal of repeated words *)

Lemma existsb_str x l : existsb (str_eqb x) l = true <-> In x l.
Proof.
  rewrite existsb_exists. split.
  - intros (y & I & E). apply str_eqb_eq in E. now subst.
  - intro I. exists x. split; [assumption|]. apply str_eqb_refl.
Qed.

Lemma filter_loop_books items : forall b1 b2 ret, (forall x, In x b1 <-> In x b2) ->
  filter_loop items b1 ret = filter_loop items b2 ret.
Proof.
  induction items as [|x items IH]; intros b1 b2 ret H; [reflexivity|]. cbn [filter_loop].
  assert (E : existsb (str_eqb x) b1 = existsb (str_eqb x) b2).
  { apply eq_true_iff_eq. rewrite !existsb_str. apply H. }
  rewrite E. destruct (existsb (str_eqb x) b2); [now apply IH|]. apply IH. intro y. cbn. now rewrite H.
Qed.

Lemma filter_loop_acc items : forall b ret, filter_loop items b ret = ret ++ filter_loop items b [].
Proof.
  induction items as [|x items IH]; intros b ret; cbn [filter_loop]; [now rewrite app_nil_r|].
  destruct (existsb (str_eqb x) b); [apply IH|]. rewrite IH, (IH _ ([] ++ [x])). now rewrite <- app_assoc.
Qed.

Lemma filter_loop_in items : forall b x, In x (filter_loop items b []) <-> In x items /\ ~ In x b.
Proof.
  induction items as [|y items IH]; intros b x; cbn [filter_loop]; [cbn; tauto|].
  destruct (existsb (str_eqb y) b) eqn:E.
  - apply existsb_str in E. rewrite IH. cbn. split; [tauto|]. intros [[->|I] N]; [contradiction|tauto].
  - assert (N : ~ In y b) by (rewrite <- existsb_str; congruence).
    rewrite filter_loop_acc, in_app_iff, IH. cbn.
    destruct (list_eq_dec ascii_dec y x) as [->|D]; [tauto|]. split; [intros [[?|[]]|[? ?]]|intros [[?|?] ?]]; try tauto; try contradiction.
Qed.

Lemma filter_loop_nodup items : forall b, NoDup (filter_loop items b []).
Proof.
  induction items as [|y items IH]; intros b; cbn [filter_loop]; [constructor|].
  destruct (existsb (str_eqb y) b); [apply IH|]. rewrite filter_loop_acc. cbn [app]. constructor; [|apply IH].
  rewrite filter_loop_in. cbn. tauto.
Qed.

(** Words keep the order in which they are first seen. *)
Lemma filter_loop_app l1 l2 : forall b,
  filter_loop (l1 ++ l2) b [] = filter_loop l1 b [] ++ filter_loop l2 (l1 ++ b) [].
Proof.
  induction l1 as [|y l1 IH]; intros b; [reflexivity|]. cbn [filter_loop app].
  destruct (existsb (str_eqb y) b) eqn:E.
  - rewrite IH. f_equal. apply filter_loop_books. intro x. apply existsb_str in E. cbn. rewrite !in_app_iff.
    split; [tauto|]. intros [<-|?]; tauto.
  - rewrite !(filter_loop_acc _ _ ([] ++ [y])). cbn [app]. rewrite IH. cbn [app]. f_equal. f_equal. apply filter_loop_books.
    intro x. cbn. rewrite !in_app_iff. cbn. tauto.
Qed.

Lemma filter_loop_id l : forall b, NoDup l -> (forall x, In x l -> ~ In x b) -> filter_loop l b [] = l.
Proof.
  induction l as [|y l IH]; intros b ND D; [reflexivity|]. inversion ND; subst. cbn [filter_loop].
  destruct (existsb (str_eqb y) b) eqn:E; [exfalso; apply existsb_str in E; exact (D y (or_introl eq_refl) E)|].
  rewrite filter_loop_acc. cbn [app]. rewrite IH; [reflexivity|assumption|].
  intros x I [->|J]; [contradiction|]. exact (D x (or_intror I) J).
Qed.

Lemma app_split_in {X} : forall (a b m1 : list X) x m2, a ++ b = m1 ++ x :: m2 ->
  (exists n2, a = m1 ++ x :: n2 /\ m2 = n2 ++ b) \/ (exists k, m1 = a ++ k /\ k ++ x :: m2 = b).
Proof.
  induction a as [|y a IH]; intros b m1 x m2 H; [right; exists m1; now split|].
  destruct m1 as [|z m1]; cbn [app] in H; inversion H; subst.
  - left. exists a. now split.
  - destruct (IH _ _ _ _ H2) as [(n2 & -> & ->)|(k & -> & E)]; [left; exists n2; now split|right; exists k; now split].
Qed.

Lemma first_split (x : str) l : In x l -> exists l1 l2, l = l1 ++ x :: l2 /\ ~ In x l1.
Proof.
  induction l as [|y l IH]; intro I; [destruct I|]. destruct (list_eq_dec ascii_dec y x) as [->|D].
  - exists [], l. split; [reflexivity|]. intros [].
  - destruct I as [->|I]; [contradiction|]. destruct (IH I) as (l1 & l2 & -> & N). exists (y :: l1), l2. split; [reflexivity|].
    intros [?|?]; contradiction.
Qed.

Lemma filter_loop_spec l : without_repetitions l (filter_loop l [] []).
Proof.
  split; [apply filter_loop_nodup|]. split.
  - intro x. rewrite filter_loop_in. cbn. tauto.
  - intros x y (N & l1 & l2 & -> & N1 & I2). rewrite filter_loop_app. cbn [filter_loop].
    assert (Iy : forall b, ~ In y b -> In y (filter_loop l2 b [])) by (intros b H; rewrite filter_loop_in; tauto).
    destruct (existsb (str_eqb x) (l1 ++ [])) eqn:E.
    + rewrite existsb_str, app_nil_r in E. assert (In x (filter_loop l1 [] [])) as (a & b & ->)%in_split
        by (rewrite filter_loop_in; cbn; tauto).
      assert (In y (filter_loop l2 (l1 ++ []) [])) as (c & d & ->)%in_split by (apply Iy; rewrite app_nil_r; exact N1).
      exists a, (b ++ c), d. rewrite <- !app_assoc. reflexivity.
    + rewrite (filter_loop_acc l2). cbn [app].
      assert (In y (filter_loop l2 (x :: l1 ++ []) [])) as (c & d & ->)%in_split
        by (apply Iy; rewrite app_nil_r; intros [H|H]; [now apply N|contradiction]).
      exists (filter_loop l1 [] []), c, d. reflexivity.
Qed.

Lemma filter_deps_spec l : without_repetitions l (rev (filter_deps l)).
Proof. unfold filter_deps. rewrite rev_involutive. apply filter_loop_spec. Qed.

Lemma filter_deps_in items x : In x (filter_deps items) <-> In x items.
Proof. unfold filter_deps. rewrite <- in_rev, filter_loop_in. cbn. tauto. Qed.

Lemma filter_deps_nodup items : NoDup (filter_deps items).
Proof. unfold filter_deps. apply NoDup_rev, filter_loop_nodup. Qed.

Lemma filter_deps_order (uses : str -> str -> Prop) items : dependencies_first uses items ->
  forall x y, In x items -> In y items -> uses x y -> precedes x y (filter_deps items).
Proof.
  intros D x y Ix Iy U. destruct (first_split x items Ix) as (l1 & l2 & -> & N).
  assert (Iy1 : In y l1) by (eapply D; [reflexivity| |]; eassumption).
  unfold filter_deps. rewrite filter_loop_app. cbn [filter_loop]. rewrite app_nil_r.
  destruct (existsb (str_eqb x) l1) eqn:E; [apply existsb_str in E; contradiction|].
  rewrite (filter_loop_acc l2). cbn [app]. rewrite rev_app_distr. cbn [rev].
  assert (Iy2 : In y (rev (filter_loop l1 [] []))) by (rewrite <- in_rev, filter_loop_in; cbn; tauto).
  apply in_split in Iy2. destruct Iy2 as (r1 & r2 & ->).
  exists (rev (filter_loop l2 (x :: l1) [])), r1, r2. now rewrite <- app_assoc.
Qed.

(** ** Linking *)

Section Link.
  Variables get_libs get_libdirs : str -> option (list str).

  Lemma lit_neq s t : s <> t -> str_eqb (lit s) (lit t) = false.
  Proof.
    intro N. destruct (str_eqb (lit s) (lit t)) eqn:E; [|reflexivity]. apply str_eqb_eq in E. exfalso. apply N.
    rewrite <- (string_of_list_ascii_of_string s), <- (string_of_list_ascii_of_string t). now f_equal.
  Qed.

  Lemma collect_dep_words d l : proper_dependency d -> collect_dep get_libs get_libdirs (dep_compound d) = Some l ->
    forall x, In x l <-> needed_for (pkg_words get_libs get_libdirs) d x.
  Proof.
    intros P C x. unfold collect_dep, member in C. rewrite (dep_compound_origin d P), (dep_compound_ref d P) in C.
    unfold needed_for, is_object, is_library, relation_is.
    destruct (dep_compound_rel d P) as [(v & I & G & U)|(G & U)]; rewrite G in C; cbn [is_string] in C.
    - assert (R : forall s, In (mk_property (lit "rel") (lit s)) (dep_props d) <-> str_eqb v (lit s) = true).
      { intro s. rewrite str_eqb_eq. split; [intro H; symmetry; now apply U|]. now intros <-. }
      rewrite !R. clear R. destruct (str_eqb v (lit "implementation")), (str_eqb v (lit "external")), (dep_origin d); cbn in C.
      all: try (unfold pkg_words; destruct (get_libs (path_string (dep_name d))); [|discriminate];
                destruct (get_libdirs (path_string (dep_name d))); [|discriminate]).
      all: change (lit "-l" ++ path_string (dep_name d)) with ("-"%char :: "l"%char :: path_string (dep_name d)).
      all: inversion C; subst; cbn [In]; intuition (try discriminate; try congruence).
    - destruct (dep_origin d) eqn:EO; cbn in C.
      all: try (destruct (get_libs (path_string (dep_name d))) eqn:GL; [|discriminate];
                destruct (get_libdirs (path_string (dep_name d))) eqn:GD; [|discriminate]).
      all: inversion C; subst; cbn [In]; unfold pkg_words; rewrite ?GL, ?GD.
      all: split; [intro H|intros [[[? ?] ?]|[[[? ?] ?]|[? ?]]]]; try discriminate; try (now exfalso; eapply U; eassumption); try tauto.
      all: try (now destruct H).
  Qed.

  Definition words_for (d : dependency) : list str :=
    match collect_dep get_libs get_libdirs (dep_compound d) with Some l => l | None => [] end.

  Lemma collect_deps_eq ds items : collect_deps get_libs get_libdirs (map dep_compound ds) = Some items ->
    items = concat (map words_for ds) /\
    forall d, In d ds -> collect_dep get_libs get_libdirs (dep_compound d) = Some (words_for d).
  Proof.
    unfold collect_deps. revert items. induction ds as [|d ds IH]; intros items H; cbn [map map_all] in H.
    - inversion H; subst. split; [reflexivity|]. intros d [].
    - destruct (collect_dep get_libs get_libdirs (dep_compound d)) as [l|] eqn:E; [|discriminate].
      destruct (map_all (collect_dep get_libs get_libdirs) (map dep_compound ds)) as [ls|] eqn:E2; [|discriminate].
      destruct (IH _ eq_refl) as (Q & A). inversion H; subst. cbn [map concat].
      assert (W : words_for d = l) by (unfold words_for; now rewrite E).
      rewrite W. split; [now rewrite <- Q|]. intros d' [<-|I]; [now rewrite W|now apply A].
  Qed.

  Lemma collect_deps_words ds items : Forall proper_dependency ds ->
    collect_deps get_libs get_libdirs (map dep_compound ds) = Some items ->
    items = concat (map words_for ds) /\
    forall d, In d ds -> forall x, In x (words_for d) <-> needed_for (pkg_words get_libs get_libdirs) d x.
  Proof.
    intros F C. apply collect_deps_eq in C. destruct C as (Q & A). split; [assumption|].
    intros d I. rewrite Forall_forall in F. apply collect_dep_words; auto.
  Qed.

  (** Only pkg-config may fail. *)
  Lemma collect_deps_some ds : Forall proper_dependency ds ->
    (forall d, In d ds -> dep_origin d = PkgConfig ->
       get_libs (path_string (dep_name d)) <> None /\ get_libdirs (path_string (dep_name d)) <> None) ->
    exists items, collect_deps get_libs get_libdirs (map dep_compound ds) = Some items.
  Proof.
    intros F A. unfold collect_deps.
    assert (exists l, map_all (collect_dep get_libs get_libdirs) (map dep_compound ds) = Some l) as (l & ->).
    2: { eexists. reflexivity. }
    induction F as [|d ds P F IH]; [now exists []|]. cbn [map map_all].
    destruct IH as (ls & ->). { intros d' I. apply A. now right. }
    assert (exists w, collect_dep get_libs get_libdirs (dep_compound d) = Some w) as (w & ->); [|eexists; reflexivity].
    unfold collect_dep, member. rewrite (dep_compound_origin d P), (dep_compound_ref d P).
    pose proof (A d (or_introl eq_refl)) as AP. destruct (dep_origin d) eqn:EO; cbn [origin_name].
    all: destruct (dep_compound_rel d P) as [(v & I & G & U)|(G & U)]; rewrite G; cbn.
    all: repeat match goal with |- context [if ?c then _ else _] => destruct c end; try (eexists; reflexivity).
    all: destruct (AP eq_refl) as (A1 & A2);
         destruct (get_libs (path_string (dep_name d))), (get_libdirs (path_string (dep_name d))); try contradiction.
    all: eexists; reflexivity.
  Qed.
End Link.

Lemma objects_eq ds : objects (Some (JArray (map dependency_to_json ds))) = Some (map dep_compound ds).
Proof.
  cbn [objects]. induction ds as [|d ds IH]; [reflexivity|]. cbn [map map_all]. rewrite IH. reflexivity.
Qed.

Lemma strings_eq (f : target_info -> str) l : strings (Some (JArray (map (fun t => JString (f t)) l))) = Some (map f l).
Proof.
  cbn [strings]. induction l as [|t l IH]; [reflexivity|]. cbn [map map_all]. rewrite IH. reflexivity.
Qed.

Lemma color_flag_format id p info cfg bi deps format :
  color_flag (command_options id p info cfg bi deps format)
  = Some (lit "-fdiagnostics-color=" ++ match format with AnsiTerm => lit "always" | _ => lit "never" end).
Proof. unfold color_flag, member. rewrite options_format. destruct format; reflexivity. Qed.

Lemma concat_split {X} (f : X -> list str) ds : forall m1 x m2, concat (map f ds) = m1 ++ x :: m2 ->
  exists l1 d l2 n1 n2, ds = l1 ++ d :: l2 /\ f d = n1 ++ x :: n2 /\ m1 = concat (map f l1) ++ n1.
Proof.
  induction ds as [|d ds IH]; intros m1 x m2 H; cbn [map concat] in H; [destruct m1; discriminate|].
  destruct (app_split_in _ _ _ _ _ H) as [(n2 & E1 & E2)|(k & E1 & E2)].
  - exists [], d, ds, m1, n2. now split.
  - destruct (IH _ _ _ (eq_sym E2)) as (l1 & d' & l2 & n1 & n2 & -> & E3 & ->).
    exists (d :: l1), d', l2, n1, n2. split; [reflexivity|]. split; [assumption|]. cbn [map concat]. now rewrite E1, app_assoc.
Qed.

Lemma link_line get_libs get_libdirs compiler id p info cfg cflags bi deps format target others args :
  Forall proper_dependency deps ->
  Forall (fun t => is_text (path_string (ti_name t))) (targets info) -> targets info = target :: others ->
  obj_get (lit "cflags") cfg = Some (JArray (map JString cflags)) ->
  linker_args get_libs get_libdirs compiler (command_options id p info cfg bi deps format) = Some args ->
  args = [compiler] ++ cflags ++
         [lit "-fdiagnostics-color=" ++ match format with AnsiTerm => lit "always" | _ => lit "never" end] ++
         filter_deps (concat (map (words_for get_libs get_libdirs) deps)) ++
         [lit "-o"; path_string (ti_name target)] /\
  forall d, In d deps -> forall x, In x (words_for get_libs get_libdirs d) <-> needed_for (pkg_words get_libs get_libdirs) d x.
Proof.
  intros F FT ET EC H. unfold linker_args, member in H.
  rewrite options_config, EC, color_flag_format, options_dependencies, objects_eq, options_targets in H by assumption.
  rewrite (strings_eq (fun t => path_string (ti_name t))), ET in H. cbn [map] in H.
  assert (S : strings (Some (JArray (map JString cflags))) = Some cflags).
  { cbn [strings]. clear. induction cflags as [|c l IH]; [reflexivity|]. cbn [map map_all]. now rewrite IH. }
  rewrite S in H.
  destruct (collect_deps get_libs get_libdirs (map dep_compound deps)) as [items|] eqn:C; [|discriminate].
  destruct (collect_deps_words _ _ _ _ F C) as (-> & W). inversion H; subst. split; [reflexivity|exact W].
Qed.

Lemma link_once get_libs get_libdirs compiler id p info cfg cflags bi deps format target others args :
  Forall proper_dependency deps ->
  Forall (fun t => is_text (path_string (ti_name t))) (targets info) -> targets info = target :: others ->
  obj_get (lit "cflags") cfg = Some (JArray (map JString cflags)) ->
  linker_args get_libs get_libdirs compiler (command_options id p info cfg bi deps format) = Some args ->
  exists color words,
    args = [compiler] ++ cflags ++ [color] ++ words ++ [lit "-o"; path_string (ti_name target)] /\
    NoDup words /\
    forall x, In x words <-> exists d, In d deps /\ needed_for (pkg_words get_libs get_libdirs) d x.
Proof.
  intros F FT ET EC H. destruct (link_line _ _ _ _ _ _ _ _ _ _ _ _ _ _ F FT ET EC H) as (-> & W).
  eexists _, _. split; [reflexivity|]. split; [apply filter_deps_nodup|].
  intro x. rewrite filter_deps_in, in_concat. split.
  - intros (l & I & J). apply in_map_iff in I. destruct I as (d & <- & I). exists d. split; [assumption|]. now apply W.
  - intros (d & I & N). exists (words_for get_libs get_libdirs d). split; [now apply in_map|now apply W].
Qed.

Lemma link_in_order get_libs get_libdirs compiler id p info cfg cflags bi deps format target others args :
  Forall proper_dependency deps ->
  Forall (fun t => is_text (path_string (ti_name t))) (targets info) -> targets info = target :: others ->
  obj_get (lit "cflags") cfg = Some (JArray (map JString cflags)) ->
  linker_args get_libs get_libdirs compiler (command_options id p info cfg bi deps format) = Some args ->
  exists words dep_words,
    args = [compiler] ++ cflags ++ [lit "-fdiagnostics-color=" ++ lit (match format with AnsiTerm => "always" | PlainText => "never" end)]
           ++ words ++ [lit "-o"; path_string (ti_name target)] /\
    Forall2 (fun d l => forall w, In w l <-> needed_for (pkg_words get_libs get_libdirs) d w) deps dep_words /\
    without_repetitions (concat dep_words) (rev words).
Proof.
  intros F FT ET EC H. destruct (link_line _ _ _ _ _ _ _ _ _ _ _ _ _ _ F FT ET EC H) as (-> & W).
  eexists _, (map (words_for get_libs get_libdirs) deps). split; [destruct format; reflexivity|]. split; [|apply filter_deps_spec].
  clear - W. induction deps as [|d l IH]; cbn [map]; constructor; [apply W; now left|]. apply IH. intros d' I. apply W. now right.
Qed.

Lemma link_succeeds get_libs get_libdirs compiler id p info cfg cflags bi deps format :
  Forall proper_dependency deps ->
  Forall (fun t => is_text (path_string (ti_name t))) (targets info) -> targets info <> [] ->
  obj_get (lit "cflags") cfg = Some (JArray (map JString cflags)) ->
  (forall d, In d deps -> dep_origin d = PkgConfig ->
     get_libs (path_string (dep_name d)) <> None /\ get_libdirs (path_string (dep_name d)) <> None) ->
  exists args, linker_args get_libs get_libdirs compiler (command_options id p info cfg bi deps format) = Some args.
Proof.
  intros F FT ET EC A. unfold linker_args, member.
  rewrite options_config, EC, color_flag_format, options_dependencies, objects_eq, options_targets by assumption.
  rewrite (strings_eq (fun t => path_string (ti_name t))).
  destruct (targets info) as [|t l]; [contradiction|]. cbn [map].
  assert (S : strings (Some (JArray (map JString cflags))) = Some cflags).
  { cbn [strings]. clear. induction cflags as [|c l' IH]; [reflexivity|]. cbn [map map_all]. now rewrite IH. }
  rewrite S. destruct (collect_deps_some get_libs get_libdirs deps F A) as (items & ->). eexists. reflexivity.
Qed.

(** *** The order *)

Lemma earlier fs ds : ~ known fs empty_path ->
  (forall l1 d l2, ds = l1 ++ d :: l2 -> forall q, file_depends fs (dep_name d) q ->
                   q <> empty_path -> In q (map dep_name l1)) ->
  forall a b, file_reachable fs a b -> a <> b ->
  forall l1 d l2, ds = l1 ++ d :: l2 -> dep_name d = a -> In b (map dep_name l1).
Proof.
  intros NE O a b R. induction R as [p|p q r D R IH]; intros N l1 d l2 E <-; [contradiction|].
  assert (I : In q (map dep_name l1)).
  { eapply O; [eassumption|exact D|]. intros ->. apply NE. apply D. }
  destruct (path_eq_dec q r) as [->|N2]; [assumption|].
  apply in_map_iff in I. destruct I as (dq & EQ & I). apply in_split in I. destruct I as (k1 & k2 & ->).
  rewrite map_app. apply in_or_app. left. eapply (IH N2 k1 dq (k2 ++ d :: l2)); [|assumption].
  now rewrite E, <- app_assoc.
Qed.

Lemma words_order fs ds (f : dependency -> list str) a b : ~ known fs empty_path ->
  NoDup (map dep_name ds) ->
  (forall l1 d l2, ds = l1 ++ d :: l2 -> forall q, file_depends fs (dep_name d) q ->
                   q <> empty_path -> In q (map dep_name l1)) ->
  file_reachable fs a b -> a <> b ->
  (exists d, In d ds /\ dep_name d = a /\ In (path_string a) (f d)) ->
  (exists d, In d ds /\ dep_name d = b /\ In (path_string b) (f d)) ->
  (forall d, In d ds -> In (path_string a) (f d) -> dep_name d = a) ->
  precedes (path_string a) (path_string b) (filter_deps (concat (map f ds))).
Proof.
  intros NE ND O R N (da & Ia & <- & Wa) (db & Ib & Eb & Wb) U.
  apply (filter_deps_order (fun x y => x = path_string (dep_name da) /\ y = path_string b)).
  - intros m1 x m2 E y (-> & ->) _. destruct (concat_split f ds _ _ _ E) as (l1 & d & l2 & n1 & n2 & E1 & E2 & ->).
    assert (D : dep_name d = dep_name da).
    { apply U; [rewrite E1; apply in_or_app; right; now left|]. rewrite E2. apply in_or_app. right. now left. }
    pose proof (earlier fs ds NE O _ _ R N l1 d l2 E1 D) as I.
    apply in_map_iff in I. destruct I as (db' & Eb' & I). apply in_or_app. left. apply in_concat.
    exists (f db'). split; [now apply in_map|].
    assert (db' = db); [|now subst].
    assert (Ib' : In db' ds) by (rewrite E1; apply in_or_app; now left).
    clear - ND Ib Ib' Eb Eb'. rewrite <- Eb in Eb'. clear Eb b. revert Ib Ib' Eb'. induction ds as [|d ds IH]; intros Ib Ib' E; [destruct Ib|].
    inversion ND; subst. destruct Ib as [->|Ib], Ib' as [->|Ib']; auto.
    + exfalso. apply H1. rewrite <- E. now apply in_map.
    + exfalso. apply H1. rewrite E. now apply in_map.
  - apply in_concat. exists (f da). split; [now apply in_map|assumption].
  - apply in_concat. exists (f db). split; [now apply in_map|assumption].
  - split; reflexivity.
Qed.

Lemma link_order get_libs get_libdirs compiler id p info cfg cflags bi format target others args ign fs g root name ds a b :
  sorted_map fs -> unresolved fs -> make_graph ign fs = Some g -> numbered fs root name ->
  get_use_deps_recursive g root = DepsFound ds ->
  ~ known fs empty_path -> names_distinct fs -> Forall proper_dependency ds ->
  Forall (fun t => is_text (path_string (ti_name t))) (targets info) -> targets info = target :: others ->
  obj_get (lit "cflags") cfg = Some (JArray (map JString cflags)) ->
  linker_args get_libs get_libdirs compiler (command_options id p info cfg bi ds format) = Some args ->
  file_reachable fs a b -> a <> b ->
  (exists d, In d ds /\ dep_name d = a /\ is_object d) -> (exists d, In d ds /\ dep_name d = b /\ is_object d) ->
  (forall d, In d ds -> ~ is_object d -> ~ needed_for (pkg_words get_libs get_libdirs) d (path_string a)) ->
  exists color words,
    args = [compiler] ++ cflags ++ [color] ++ words ++ [lit "-o"; path_string (ti_name target)] /\
    precedes (path_string a) (path_string b) words.
Proof.
  intros Hs Hu Hg Hp HD NE NM F FT ET EC H R N (da & Ia & Ea & Oa) (db & Ib & Eb & Ob) X.
  destruct (link_line _ _ _ _ _ _ _ _ _ _ _ _ _ _ F FT ET EC H) as (-> & W). eexists _, _. split; [reflexivity|].
  destruct (use_deps_recursive_spec ign fs g root name Hs Hu Hg Hp) as [(_ & B)|(_ & ds' & E & ND & _ & K & _ & O)]; [congruence|].
  assert (ds' = ds) by congruence. subst ds'.
  eapply words_order; try eassumption.
  - exists da. split; [assumption|]. split; [assumption|]. apply W; [assumption|]. left. split; [assumption|]. now subst.
  - exists db. split; [assumption|]. split; [assumption|]. apply W; [assumption|]. left. split; [assumption|]. now subst.
  - intros d I J. apply W in J; [|assumption].
    assert (OD : is_object d \/ ~ is_object d).
    { unfold is_object, relation_is. assert (forall q q' : property, {q = q'} + {q <> q'}) as DEC by (repeat decide equality).
      destruct (in_dec DEC (mk_property (lit "rel") (lit "implementation")) (dep_props d)); destruct (dep_origin d);
        (left; tauto) || (right; intros [[?|?] ?]; tauto || discriminate). }
    destruct OD as [OD|OD]; [|exfalso; exact (X d I OD J)].
    destruct J as [(_ & J)|[((J & _) & _)|(J & _)]].
    + destruct (K d I) as (k & _ & Kd). destruct (K da Ia) as (ka & _ & Ka). rewrite Ea in Ka.
      symmetry. apply NM; [exists ka; assumption|exists k; assumption|assumption].
    + destruct OD as [[OD|OD] _]; congruence.
    + destruct OD as [[OD|OD] _]; congruence.
Qed.

(** ** Libraries *)

Definition lib_words (item : compound) : option (list str) :=
  match member "origin" item with
  | None => None
  | Some _ as origin =>
      let rel := member "rel" item in
      if (is_string origin "generated" || is_string origin "project")
         && match rel with Some _ => true | None => false end && is_string rel "implementation" then
        match member "ref" item with
        | Some (JString s) => Some [s]
        | _ => None
        end
      else Some []
  end.

Definition object_words (d : dependency) : list str :=
  match lib_words (dep_compound d) with Some l => l | None => [] end.

Lemma lib_words_some d : proper_dependency d ->
  lib_words (dep_compound d) = Some (object_words d) /\
  forall x, In x (object_words d) <-> is_object d /\ x = path_string (dep_name d).
Proof.
  intro P. unfold object_words.
  assert (E : exists l, lib_words (dep_compound d) = Some l /\
                        forall x, In x l <-> is_object d /\ x = path_string (dep_name d)).
  { unfold lib_words, member. rewrite (dep_compound_origin d P), (dep_compound_ref d P). unfold is_object, relation_is.
    destruct (dep_compound_rel d P) as [(v & I & G & U)|(G & U)]; rewrite G; cbn [is_string].
    - assert (R : forall s, In (mk_property (lit "rel") (lit s)) (dep_props d) <-> str_eqb v (lit s) = true).
      { intro s. rewrite str_eqb_eq. split; [intro H; symmetry; now apply U|]. now intros <-. }
      specialize (R "implementation"%string). revert R.
      destruct (str_eqb v (lit "implementation")), (dep_origin d); intro R; eexists; (split; [reflexivity|]); intro x; rewrite R;
        cbn [In]; intuition (try discriminate; try congruence).
    - exists []. split; [now rewrite andb_false_r|]. intro x. cbn. split; [tauto|]. intros ((_ & I) & _). now apply U in I. }
  destruct E as (l & -> & W). now split.
Qed.

Lemma collect_lib_words deps : Forall proper_dependency deps ->
  collect_lib_deps (map dep_compound deps) = Some (concat (map object_words deps)).
Proof.
  intro F. change (option_map (@concat str) (map_all lib_words (map dep_compound deps)) = Some (concat (map object_words deps))).
  assert (E : map_all lib_words (map dep_compound deps) = Some (map object_words deps)); [|now rewrite E].
  induction F as [|d l P F IH]; [reflexivity|]. cbn [map map_all]. rewrite IH. now destruct (lib_words_some d P) as (-> & _).
Qed.

Lemma archive_line archiver id p info cfg bi deps format target others :
  Forall proper_dependency deps ->
  Forall (fun t => is_text (path_string (ti_name t))) (targets info) -> targets info = target :: others ->
  archiver_args archiver (command_options id p info cfg bi deps format)
  = Some ([archiver; lit "rcs"; path_string (ti_name target)] ++ filter_deps (concat (map object_words deps))).
Proof.
  intros F FT ET. unfold archiver_args, member. rewrite options_targets, options_dependencies, objects_eq by assumption.
  rewrite (strings_eq (fun t => path_string (ti_name t))), ET. cbn [map]. now rewrite collect_lib_words.
Qed.

Lemma archive_once archiver id p info cfg bi deps format target others :
  Forall proper_dependency deps ->
  Forall (fun t => is_text (path_string (ti_name t))) (targets info) -> targets info = target :: others ->
  exists words,
    archiver_args archiver (command_options id p info cfg bi deps format)
    = Some ([archiver; lit "rcs"; path_string (ti_name target)] ++ words) /\
    NoDup words /\
    forall x, In x words <-> exists d, In d deps /\ is_object d /\ x = path_string (dep_name d).
Proof.
  intros F FT ET. eexists. split; [now apply archive_line with (others := others)|]. split; [apply filter_deps_nodup|].
  intro x. rewrite filter_deps_in, in_concat. rewrite Forall_forall in F. split.
  - intros (l & I & J). apply in_map_iff in I. destruct I as (d & <- & I). exists d. split; [assumption|].
    now apply (lib_words_some d (F d I)).
  - intros (d & I & N). exists (object_words d). split; [now apply in_map|]. now apply (lib_words_some d (F d I)).
Qed.

(** ** Exit codes *)

Lemma py_exit_zero r : py_exit r = 0%Z -> exists n, r = Some n /\ (n mod 256 = 0)%Z.
Proof. destruct r as [n|]; cbn; [|discriminate]. intro. now exists n. Qed.

Lemma ordinary_zero n : (-255 <= n <= 255)%Z -> (n mod 256 = 0)%Z -> n = 0%Z.
Proof. intros B M. pose proof (Z.div_mod n 256). lia. Qed.

Lemma run_and_exit_zero run args : ordinary run ->
  (run_and_exit run args = 0%Z <-> exists a, args = Some a /\ run a = Some 0%Z).
Proof.
  intro O. unfold run_and_exit. destruct args as [a|].
  - split.
    + intro E. apply py_exit_zero in E. destruct E as (n & E & M). exists a. split; [reflexivity|].
      rewrite E. f_equal. apply ordinary_zero; [exact (O a n E)|assumption].
    + intros (a' & E & R). inversion E; subst. now rewrite R.
  - split; [discriminate|]. intros (a' & E & _). discriminate.
Qed.

Lemma cxx_compile_zero run header args source targets copy link execute sanitize : ordinary run ->
  (py_exit (cxx_compile run header args source targets copy link execute sanitize) = 0%Z <->
   header = true \/
   (run args = Some 0%Z /\ (forall t, In t (tl targets) -> copy t = true) /\
    (execute = true -> link = true /\ exists t ts, targets = t :: ts /\ run [t] = Some 0%Z) /\
    (sanitize = true ->
     run ([lit "clang-tidy"; source; lit "--"; lit "-Wno-unknown-warning-option"] ++ args) = Some 0%Z))).
Proof.
  intro O. unfold cxx_compile. destruct header; [cbn; tauto|].
  assert (Z0 : forall a, py_exit (run a) = 0%Z <-> run a = Some 0%Z).
  { intro a. split; [|intros ->; reflexivity]. intro E. apply py_exit_zero in E. destruct E as (n & E & M).
    rewrite E. f_equal. exact (ordinary_zero n (O a n E) M). }
  destruct (run args) as [r|] eqn:ER.
  2: { split; [discriminate|]. intros [?|(? & _)]; discriminate. }
  destruct (forallb copy (tl targets)) eqn:EC.
  2: { split; [discriminate|]. intros [?|(_ & C & _)]; [discriminate|]. rewrite <- forallb_forall in C. congruence. }
  rewrite forallb_forall in EC.
  destruct (Z.eqb_spec r 0) as [->|N].
  - destruct execute; cbn [andb].
    + destruct link.
      * destruct targets as [|t ts]; [split; [discriminate|]; intros [?|(_ & _ & X & _)]; [discriminate|];
          destruct (X eq_refl) as (_ & t & ts & E & _); discriminate|].
        destruct (run [t]) as [r|] eqn:ET.
        2: { split; [discriminate|]. intros [?|(_ & _ & X & _)]; [discriminate|].
             destruct (X eq_refl) as (_ & t' & ts' & E & R). inversion E; subst. congruence. }
        destruct (Z.eqb_spec r 0) as [->|N].
        -- destruct sanitize; cbn [andb].
           ++ rewrite Z0. split; [|intros [?|(_ & _ & _ & X)]; [discriminate|now apply X]].
              intro R. right. repeat split; auto. now exists t, ts.
           ++ split; [|reflexivity]. intros _. right. repeat split; auto; try discriminate. now exists t, ts.
        -- rewrite andb_false_r. split; [|].
           ++ intro E. exfalso. apply N. apply ordinary_zero; [exact (O _ _ ET)|]. exact E.
           ++ intros [?|(_ & _ & X & _)]; [discriminate|]. destruct (X eq_refl) as (_ & t' & ts' & E & R). inversion E; subst. congruence.
      * split; [discriminate|]. intros [?|(_ & _ & X & _)]; [discriminate|]. destruct (X eq_refl). discriminate.
    + cbn [Z.eqb]. destruct sanitize; cbn [andb].
      * rewrite Z0. split; [|intros [?|(_ & _ & _ & X)]; [discriminate|now apply X]].
        intro R. right. repeat split; auto; discriminate.
      * split; [|reflexivity]. intros _. right. repeat split; auto; discriminate.
  - rewrite andb_false_r. destruct (Z.eqb_spec r 0) as [|_]; [contradiction|]. rewrite andb_false_r. split.
    + intro E. exfalso. apply N. apply ordinary_zero; [exact (O _ _ ER)|]. exact E.
    + intros [?|(E & _)]; [discriminate|]. inversion E. contradiction.
Qed.

(** ** Flags *)

Lemma collect_cflags_words get_cflags cwd src target dir cflags iquote deps l :
  collect_cflags get_cflags cwd src target dir cflags iquote deps = Some l ->
  NoDup l /\ (forall x, In x cflags -> In x l) /\ (NoDup cflags -> exists rest, l = cflags ++ rest).
Proof.
  unfold collect_cflags, unique. destruct (map_all (dependency_flags get_cflags) deps) as [ls|]; [|discriminate].
  intro E. inversion E; subst. split; [apply filter_loop_nodup|]. split.
  - intros x I. rewrite filter_loop_in. cbn. split; [|tauto]. apply in_or_app. now left.
  - intro ND. rewrite filter_loop_app, filter_loop_id; [eexists; reflexivity|assumption|]. cbn. tauto.
Qed.

(** ** Revisions *)

Lemma numeric_published s n : numeric_rev s = Some n <-> published s n.
Proof.
  split.
  - unfold numeric_rev. cbn [lookup]. intro H.
    repeat match type of H with
    | (if str_eqb ?a ?b then _ else _) = _ => destruct (str_eqb a b) eqn:?
    end; try discriminate; inversion H; subst.
    all: match goal with E : str_eqb _ _ = true |- _ => apply str_eqb_eq in E; subst end; constructor.
  - intros []; reflexivity.
Qed.

Section Rev.
  Variable revision_tag : str -> option str -> option Z.

  Lemma select_cpp_rev_within c rev_min rev_max rev : select_cpp_rev revision_tag c rev_min rev_max = Some rev ->
    (rev = [] /\ forall n, revision_tag c None = Some n -> within rev_min rev_max n) \/
    (rev <> [] /\ exists n, published rev n /\ within rev_min rev_max n).
  Proof.
    assert (NE : forall s n, numeric_rev s = Some n -> s <> []) by (intros s n H ->; discriminate).
    unfold select_cpp_rev. destruct rev_min as [rmin|], rev_max as [rmax|].
    - destruct (numeric_rev rmin) as [a|] eqn:EA; [|discriminate]. destruct (numeric_rev rmax) as [b|] eqn:EB; [|discriminate].
      destruct (Z.ltb_spec b a); [discriminate|].
      assert (W : forall n, (a <= n <= b)%Z -> within (Some rmin) (Some rmax) n).
      { intros n B. split; intros s E; inversion E; subst; [exists a|exists b]; (split; [now apply numeric_published|lia]). }
      destruct (str_eqb rmin rmax).
      + intro E. inversion E; subst. right. split; [eapply NE; eassumption|]. exists a. split; [now apply numeric_published|]. apply W. lia.
      + destruct (revision_tag c None) as [d|]; [|discriminate]. destruct (Z.ltb_spec d a).
        * intro E. inversion E; subst. right. split; [eapply NE; eassumption|]. exists a. split; [now apply numeric_published|]. apply W. lia.
        * destruct (Z.ltb_spec b d); intro E; inversion E; subst.
          -- right. split; [eapply NE; eassumption|]. exists b. split; [now apply numeric_published|]. apply W. lia.
          -- left. split; [reflexivity|]. intros n E2. inversion E2; subst. apply W. lia.
    - destruct (numeric_rev rmin) as [a|] eqn:EA; [|discriminate]. destruct (revision_tag c None) as [d|]; [|discriminate].
      assert (W : forall n, (a <= n)%Z -> within (Some rmin) None n).
      { intros n B. split; intros s E; inversion E; subst. exists a. split; [now apply numeric_published|assumption]. }
      destruct (Z.ltb_spec d a); intro E; inversion E; subst.
      + right. split; [eapply NE; eassumption|]. exists a. split; [now apply numeric_published|]. apply W. lia.
      + left. split; [reflexivity|]. intros n E2. inversion E2; subst. now apply W.
    - discriminate.
    - intro E. inversion E; subst. left. split; [reflexivity|]. intros n _. split; discriminate.
  Qed.

  Definition acceptable (rev_min rev_max : option str) (x : str * str * Z) : Prop :=
    let '(c, rev, cfg) := x in
    (rev = [] /\ forall n, revision_tag c None = Some n -> within rev_min rev_max n) \/
    (rev <> [] /\ revision_tag c (Some rev) = Some cfg /\ exists n, published rev n /\ within rev_min rev_max n).

  Lemma select_loop_ok rev_min rev_max compilers : forall candidates r,
    Forall (acceptable rev_min rev_max) candidates ->
    select_loop revision_tag compilers rev_min rev_max candidates = Some r ->
    match r with
    | inl x => In (fst (fst x)) compilers /\ acceptable rev_min rev_max x
    | inr l => Forall (acceptable rev_min rev_max) l /\
               forall x, In x l -> In x candidates \/ In (fst (fst x)) compilers
    end.
  Proof.
    induction compilers as [|c compilers IH]; intros candidates r F H; cbn [select_loop] in H.
    - inversion H; subst. split; [assumption|]. tauto.
    - destruct (select_cpp_rev revision_tag c rev_min rev_max) as [rev|] eqn:ES; [|discriminate].
      apply select_cpp_rev_within in ES. destruct rev as [|ch rev'].
      + inversion H; subst. split; [now left|]. destruct ES as [ES|(N & _)]; [now left|contradiction].
      + destruct ES as [(N & _)|(_ & n & EN & W)]; [discriminate|]. rewrite (proj2 (numeric_published _ _) EN) in H.
        match type of H with context [revision_tag ?a ?b] => destruct (revision_tag a b) as [cfg|] eqn:EC end.
        * assert (A : acceptable rev_min rev_max (c, ch :: rev', cfg)).
          { right. split; [discriminate|]. split; [assumption|]. now exists n. }
          destruct (cfg <? n)%Z.
          -- apply IH in H; [|apply Forall_app; split; [assumption|now constructor]].
             destruct r as [x|l]; [split; [now right|apply H]|]. destruct H as (H1 & H2). split; [assumption|].
             intros x I. apply H2 in I. destruct I as [I|I]; [|right; now right]. apply in_app_or in I. destruct I as [I|[<-|[]]]; [now left|].
             right. now left.
          -- inversion H; subst. split; [now left|assumption].
        * apply IH in H; [|assumption]. destruct r as [x|l]; [split; [now right|apply H]|].
          destruct H as (H1 & H2). split; [assumption|]. intros x I. apply H2 in I. destruct I as [I|I]; [now left|right; now right].
  Qed.

  Lemma least_in l : forall best, In (least best l) (best :: l).
  Proof.
    induction l as [|x l IH]; intros best; [now left|]. cbn [least]. destruct (IH (if (snd x <? snd best)%Z then x else best)) as [E|I].
    - destruct (snd x <? snd best)%Z; [right; left|left]; assumption.
    - right. now right.
  Qed.

  Lemma select_compiler_ok rev_min rev_max compilers c rev cfg :
    select_compiler revision_tag compilers rev_min rev_max = Some (c, rev, cfg) ->
    In c compilers /\
    ((rev = [] /\ forall n, revision_tag c None = Some n -> within rev_min rev_max n) \/
     (rev <> [] /\ revision_tag c (Some rev) = Some cfg /\ exists n, published rev n /\ within rev_min rev_max n)).
  Proof.
    unfold select_compiler. destruct (select_loop revision_tag compilers rev_min rev_max []) as [r|] eqn:E; [|discriminate].
    apply select_loop_ok in E; [|constructor]. destruct r as [x|[|x l]]; [| |].
    - intro H. inversion H; subst. destruct E. now split.
    - discriminate.
    - intro H. inversion H as [H']. destruct E as (F & I). pose proof (least_in l x) as L. rewrite H' in L.
      rewrite Forall_forall in F. split; [|exact (F _ L)]. apply I in L. now destruct L.
  Qed.
End Rev.

(** ** Refutations *)

Lemma shell_exec_path p : comps p <> [] ->
  make_shell_exec_path p = (if absolute p then p else match comps p with [name] => mk_path false [lit "."; name] | _ => p end).
Proof.
  intro N. unfold make_shell_exec_path, parent_path. destruct p as [ab [|x [|y l]]]; cbn [comps absolute] in *; [contradiction| |].
  - destruct ab; cbn [removelast]; [reflexivity|]. cbn. reflexivity.
  - change (removelast (x :: y :: l)) with (x :: removelast (y :: l)). destruct ab; reflexivity.
Qed.

Lemma name_lost : exists p, forall id info cfg bi deps format,
  obj_get (lit "source_file") (command_options id p info cfg bi deps format) = None.
Proof.
  exists (mk_path false [["255"%char]]). intros. unfold command_options.
  destruct (log_format_text format) as (s & -> & _).
  change (json_string (path_string (mk_path false [["255"%char]]))) with (@None json). cbn [set_new].
  do 6 (rewrite obj_get_set_other by discriminate). reflexivity.
Qed.

Lemma generic_succeeds run args r : run args = Some r -> generic_main run (Some args) = 0%Z.
Proof. unfold generic_main. now intros ->. Qed.

Lemma flag_lost : exists cflags : list str, forall get_cflags cwd src target,
  collect_cflags get_cflags cwd src target None cflags [] [] = Some [lit "-isystem"; lit "a"; lit "b"] /\
  cflags = [lit "-isystem"; lit "a"; lit "-isystem"; lit "b"].
Proof. eexists. intros. split; [|reflexivity]. reflexivity. Qed.

Lemma max_fails revision_tag c compilers rev_max :
  select_compiler revision_tag (c :: compilers) None (Some rev_max) = None.
Proof. reflexivity. Qed.

Lemma broken_fails revision_tag c compilers rev_min :
  revision_tag c None = None -> select_compiler revision_tag (c :: compilers) (Some rev_min) None = None.
Proof.
  intro E. unfold select_compiler. cbn [select_loop select_cpp_rev]. rewrite E. destruct (numeric_rev rev_min); reflexivity.
Qed.

Lemma oldest_used : exists revision_tag : str -> option str -> option Z,
  select_compiler revision_tag [lit "g++-9"; lit "g++-11"] (Some (lit "c++20")) None = Some (lit "g++-9", lit "c++20", 201709%Z) /\
  revision_tag (lit "g++-11") (Some (lit "c++20")) = Some 202000%Z.
Proof.
  exists (fun c s => match s with
                     | None => Some 201703%Z
                     | Some _ => if str_eqb c (lit "g++-9") then Some 201709%Z else Some 202000%Z
                     end).
  split; reflexivity.
Qed.

(** A file that is an object for one header, and an ordinary file for the other. *)
Definition lost_object (rel : bool) : dependency :=
  mk_dependency None (parse_path (lit "foo.o")) Generated
    (if rel then [mk_property (lit "rel") (lit "implementation")] else []).

Definition lossy_project : file_list :=
  let src u := set_use_deps u (placeholder_info Project no_compiler) in
  let on name := mk_dependency None (parse_path name) Project [] in
  [(parse_path (lit "a.hpp"), src [lost_object true]);
   (parse_path (lit "b.hpp"), src [lost_object false]);
   (parse_path (lit "foo.o"), src []);
   (parse_path (lit "main.cpp"), src [on (lit "a.hpp"); on (lit "b.hpp")])].

Lemma object_lost : exists fs g root name ds q d,
  sorted_map fs /\ unresolved fs /\ make_graph false fs = Some g /\ numbered fs root name /\
  get_use_deps_recursive g root = DepsFound ds /\ Forall proper_dependency ds /\
  file_reachable fs name q /\ declared_by fs q d /\ is_object d /\
  forall get_libs get_libdirs, exists items,
    collect_deps get_libs get_libdirs (map dep_compound ds) = Some items /\ ~ In (path_string (dep_name d)) (filter_deps items).
Proof.
  pose (ds := [mk_dependency (Some 2) (parse_path (lit "foo.o")) Generated [];
               mk_dependency (Some 1) (parse_path (lit "b.hpp")) Project [];
               mk_dependency (Some 0) (parse_path (lit "a.hpp")) Project []]).
  assert (E : match make_graph false lossy_project with
              | Some g => get_use_deps_recursive g 3 = DepsFound ds
              | None => False
              end) by (vm_compute; reflexivity).
  destruct (make_graph false lossy_project) as [g|] eqn:EG; [|destruct E].
  exists lossy_project, g, 3, (parse_path (lit "main.cpp")), ds, (parse_path (lit "a.hpp")), (lost_object true).
  split; [repeat constructor|].
  split. { intros d [p [info [Hin Hd]]]. simpl in Hin.
    repeat (destruct Hin as [Hin|Hin]; [inversion Hin; subst; simpl in Hd; intuition (subst; auto)|]). contradiction. }
  split; [assumption|]. split; [reflexivity|]. split; [assumption|].
  assert (T : forall s, forallb (fun c => N.ltb (N_of_ascii c) 128) s = true -> is_text s).
  { intros s H. apply ascii_text. rewrite Forall_forall. rewrite forallb_forall in H. intros c I. apply N.ltb_lt. now apply H. }
  split. { repeat (constructor; [split; [apply T; reflexivity|]; cbn; repeat split; try constructor; tauto|]). constructor. }
  split. { eapply reach_step; [|apply reach_self]. split; [exists 0; reflexivity|].
    exists (mk_dependency None (parse_path (lit "a.hpp")) Project []). split; [|reflexivity].
    eexists. split; [do 3 right; left; reflexivity|]. left. left. reflexivity. }
  split. { eexists. split; [left; reflexivity|]. left. left. reflexivity. }
  split. { split; [now right|]. now left. }
  intros. exists []. split; [reflexivity|]. intros [].
Qed.
