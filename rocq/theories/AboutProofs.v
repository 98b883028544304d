(** Proofs for C93. *)

From Coq Require Import Ascii String ZArith Lia.
From Coq Require Import List Bool Permutation Sorted.
From Verif Require Import Str PathProofs ValueModel ValueSpec ValueProofs TimeProofs AboutModel AboutSpec.
Import ListNotations.

Local Open Scope list_scope.

(** ** Literals *)

Lemma literal_plain v rest : plain_text v -> literal (v ++ "034"%char :: rest) v rest.
Proof.
  induction 1; cbn; constructor; auto.
Qed.

Lemma literal_app v s w rest : plain_text v -> literal s w rest -> literal (v ++ s) (v ++ w) rest.
Proof. induction 1; cbn; intro L; [exact L|]. constructor; auto. Qed.

Lemma literal_joined ls rest : Forall plain_text ls ->
  literal (join (lit "\n") ls ++ "034"%char :: rest) (join nl ls) rest.
Proof.
  induction 1 as [|a l A L IH]; [constructor|].
  destruct l as [|b l]; [now apply literal_plain|].
  change (join (lit "\n") (a :: b :: l)) with (a ++ lit "\n" ++ join (lit "\n") (b :: l)).
  change (join nl (a :: b :: l)) with (a ++ nl ++ join nl (b :: l)).
  repeat rewrite <- app_assoc. apply literal_app; [exact A|].
  cbn [lit list_ascii_of_string app nl]. now apply literal_newline.
Qed.

Lemma literal_unique s v r : literal s v r -> forall v' r', literal s v' r' -> v = v' /\ r = r'.
Proof.
  assert (NP : ~ plain "\"%char) by (intros (_ & H & _); now apply H).
  assert (NQ : ~ plain "034"%char) by (intros (H & _); now apply H).
  induction 1; intros v' r' L; inversion L; subst; try tauto;
    match goal with I : forall v r, literal ?s v r -> _, H : literal ?s _ _ |- _ => destruct (I _ _ H) as [-> ->]; tauto end.
Qed.

(** ** Definitions *)

Lemma letter_not_space : ~ letter " "%char.
Proof. intro H. cbn in H. repeat (destruct H as [H | H]; [discriminate H|]). exact H. Qed.

Lemma split_letters a : forall b x y, Forall letter a -> Forall letter b ->
  a ++ " "%char :: x = b ++ " "%char :: y -> a = b /\ x = y.
Proof.
  induction a as [|c a IH]; intros [|d b] x y A B E; cbn in E.
  - injection E as ->. tauto.
  - injection E as <- _. inversion B; subst. now destruct letter_not_space.
  - injection E as -> _. inversion A; subst. now destruct letter_not_space.
  - injection E as -> E. inversion A; inversion B; subst. destruct (IH b x y) as [-> ->]; tauto.
Qed.

Lemma split_line (a : str) : forall b x y, ~ In "010"%char a -> ~ In "010"%char b ->
  a ++ "010"%char :: x = b ++ "010"%char :: y -> a = b /\ x = y.
Proof.
  induction a as [|c a IH]; intros [|d b] x y A B E; cbn in E.
  - injection E as ->. tauto.
  - injection E as <- _. destruct B. now left.
  - injection E as -> _. destruct A. now left.
  - injection E as -> E. destruct (IH b x y) as [-> ->]; cbn in A, B; tauto.
Qed.

Lemma defines_unique s d : defines s d -> forall d', defines s d' -> d = d'.
Proof.
  induction 1 as [|s d D IH|line s d L1 L2 D IH|name text value s d N L D IH]; intros d' D'.
  - inversion D'; reflexivity.
  - inversion D'; subst. now apply IH.
  - inversion D'; subst.
    match goal with E : _ ++ _ = _ ++ _ |- _ => apply split_line in E; [destruct E as [-> ->]|assumption..] end.
    now apply IH.
  - inversion D' as [X|s' e D2 X|line' s' e A B D2 X|n' t' v' s' e N' L' D2 X]; subst; try discriminate X.
    assert (E : name ++ " "%char :: lit "= " ++ "034"%char :: text = n' ++ " "%char :: lit "= " ++ "034"%char :: t').
    { symmetry. exact X. }
    apply split_letters in E; [|assumption..]. destruct E as [-> E]. injection E as ->.
    destruct (literal_unique _ _ _ L _ _ L') as [-> E]. injection E as ->. f_equal. now apply IH.
Qed.

Lemma defines_definition name text value s d :
  Forall letter name -> literal (text ++ "034"%char :: ";"%char :: "010"%char :: s) value (";"%char :: "010"%char :: s) ->
  defines s d -> defines (definition name text ++ s) ((name, value) :: d).
Proof.
  intros N L D. unfold definition. repeat rewrite <- app_assoc.
  apply (defines_variable name (text ++ "034"%char :: ";"%char :: "010"%char :: s) value s d N L D).
Qed.

Lemma defines_nl s d : defines s d -> defines (nl ++ s) d.
Proof. apply defines_empty_line. Qed.

Lemma defines_skip line s d : ~ In "010"%char line -> ~ In "\"%char line -> defines s d ->
  defines ("#"%char :: line ++ nl ++ s) d.
Proof. intros. now apply defines_preprocessor. Qed.

(** ** Numbers are plain *)

Lemma plain_of_check c : negb (existsb (Ascii.eqb c) ["034"; "\"; "010"; "013"]%char) = true -> plain c.
Proof.
  intro H. apply negb_true_iff in H. repeat split; intros ->; discriminate H.
Qed.

Lemma digit_plain c d : digit c d -> plain c.
Proof.
  intro H. apply plain_of_check.
  assert (In c (lit "0123456789abcdefABCDEF")) as I.
  { destruct H as [H | H]; apply nth_error_In in H; cbn in H |- *; tauto. }
  clear H. cbn in I. repeat (destruct I as [<- | I]; [reflexivity|]). contradiction.
Qed.

Lemma numeral_plain s n : numeral 10 s n -> plain_text s.
Proof.
  induction 1 as [c d D _|s n c d _ IH D _].
  - repeat constructor; apply (digit_plain c d D).
  - apply Forall_app. split; [exact IH|]. constructor; [exact (digit_plain c d D)|constructor].
Qed.

Lemma decimal_plain z : plain_text (decimal z).
Proof.
  destruct (decimal_integer z) as [s n H|s n H|s n H]; [now apply (numeral_plain s n)| |];
    (constructor; [now apply plain_of_check|now apply (numeral_plain s n)]).
Qed.

Lemma plain_lit s : forallb (fun c => negb (existsb (Ascii.eqb c) ["034"; "\"; "010"; "013"]%char)) s = true -> plain_text s.
Proof.
  intro H. rewrite forallb_forall in H. apply Forall_forall. intros c I. apply plain_of_check. now apply H.
Qed.

Ltac plain_parts :=
  repeat (apply Forall_app; split); try assumption; try (apply plain_lit; reflexivity); try apply decimal_plain.

Lemma join_plain sep l : plain_text sep -> Forall plain_text l -> plain_text (join sep l).
Proof.
  intros S L. induction L as [|a l A L IH]; [constructor|]. destruct l as [|b l]; [exact A|].
  change (join sep (a :: b :: l)) with (a ++ sep ++ join sep (b :: l)). plain_parts.
Qed.

(** ** Time *)

Lemma format_start_text t : start_in_range t -> date_text (format_start t) t.
Proof.
  intro R. pose proof (year_bounds (t * 1000000000) R) as Y.
  assert (T' : to_time_t (t * 1000000000) = t) by (apply Z.quot_mul; lia). rewrite T' in Y.
  destruct (gmtime_correct t) as ((M & D) & H & N & S & T).
  unfold format_start. cbv zeta.
  generalize dependent (gmtime t). intros g Y M D H N S T.
  pose proof (month_days_le (year g) (month g)).
  destruct (padded4 (year g) ltac:(lia)) as [L1 V1].
  destruct (padded2 (month g) ltac:(lia)) as [L2 V2].
  destruct (padded2 (day g) ltac:(lia)) as [L3 V3].
  destruct (padded2 (hour g) ltac:(lia)) as [L4 V4].
  destruct (padded2 (minute g) ltac:(lia)) as [L5 V5].
  destruct (padded2 (second g) ltac:(lia)) as [L6 V6].
  exists (padded 4 (year g)), (padded 2 (month g)), (padded 2 (day g)), (padded 2 (hour g)),
    (padded 2 (minute g)), (padded 2 (second g)),
    (year g), (month g), (day g), (hour g), (minute g), (second g).
  split; [reflexivity|].
  split; [apply padded_numeral; [lia|exact V1]|].
  split; [apply padded_numeral; [lia|exact V2]|].
  split; [apply padded_numeral; [lia|exact V3]|].
  split; [apply padded_numeral; [lia|exact V4]|].
  split; [apply padded_numeral; [lia|exact V5]|].
  split; [apply padded_numeral; [lia|exact V6]|].
  split; [rewrite L1, L2, L3, L5, L6; repeat split|].
  split; [split; assumption|]. repeat split; try lia.
Qed.

Lemma date_plain s t : date_text s t -> plain_text s.
Proof.
  intros (ys & ms & ds & hs & ns & ss & y & m & d & hh & mm & sec & -> & A & B & C & D & E & F & _).
  repeat match goal with H : numeral 10 ?s ?n |- _ => apply numeral_plain in H end. plain_parts.
Qed.

(** ** Holders *)

Lemma insert_year_perm y l : Permutation (insert_year y l) (y :: l).
Proof.
  induction l as [|x l IH]; cbn; [constructor; constructor|]. destruct (y <=? x)%Z; [reflexivity|].
  rewrite IH. apply perm_swap.
Qed.

Lemma sorted_perm l : Permutation (sorted l) l.
Proof. induction l as [|x l IH]; cbn; [constructor|]. rewrite insert_year_perm. now constructor. Qed.

Lemma insert_year_sorted y l : StronglySorted Z.le l -> StronglySorted Z.le (insert_year y l).
Proof.
  induction 1 as [|x l S IH F]; cbn; [repeat constructor|]. destruct (Z.leb_spec y x).
  - constructor; [now constructor|]. constructor; [assumption|]. eapply Forall_impl; [|exact F]. intros; cbn in *. lia.
  - constructor; [exact IH|]. rewrite (insert_year_perm y l). constructor; [lia|exact F].
Qed.

Lemma sorted_sorted l : StronglySorted Z.le (sorted l).
Proof. induction l; cbn; [constructor|]. now apply insert_year_sorted. Qed.

Lemma join_separated sep l : separated sep l (join sep l).
Proof.
  induction l as [|a l IH]; [constructor|]. destruct l as [|b l]; [constructor|].
  apply (separated_more sep a (b :: l)); [discriminate|exact IH].
Qed.

Lemma copyright_presents l :
  Forall2 (fun h line => presents decimal (years h) (author h) line) l (get_copyright l).
Proof.
  induction l as [|h l IH]; cbn; constructor; [|exact IH].
  exists (sorted (years h)), (join (lit ", ") (map decimal (sorted (years h)))).
  split; [apply sorted_perm|]. split; [apply sorted_sorted|]. split; [apply join_separated|reflexivity].
Qed.

(** ** The file *)

Lemma copyright_plain l : Forall (fun h => plain_text (author h)) l -> Forall plain_text (get_copyright l).
Proof.
  induction 1 as [|h l A L IH]; cbn [get_copyright map]; constructor; [|exact IH].
  plain_parts. apply join_plain; [apply plain_lit; reflexivity|].
  apply Forall_forall. intros s I. apply in_map_iff in I. destruct I as (y & <- & _). apply decimal_plain.
Qed.

Definition definitions (a : about) : list (str * str) :=
  [ (lit "BuildId", about_id a); (lit "BuildStartTime", format_start (start_time a)); (lit "BuildHost", build_host a);
    (lit "VcsRevisionId", commit a); (lit "VcsTag", tag a);
    (lit "Copyright", join nl (get_copyright (copyright a)));
    (lit "DescriptionShort", description_short a); (lit "LegalBrief", license_short a)].

Ltac letters := apply Forall_forall; intros ? I; cbn in I |- *; repeat (destruct I as [<- | I]; [tauto|]); contradiction.

Lemma not_in_line (c : ascii) l : existsb (Ascii.eqb c) l = false -> ~ In c l.
Proof.
  intros H I. assert (existsb (Ascii.eqb c) l = true) by (apply existsb_exists; exists c; split; [exact I|apply Ascii.eqb_refl]).
  congruence.
Qed.

Lemma about_defines a : plain_about a -> defines (about_file a) (definitions a).
Proof.
  intro P. unfold about_file, build_info_text, vcs_info_text. repeat rewrite <- app_assoc.
  apply (defines_skip (lit "ifndef MAIKE_BIN_ABOUTIMPL_HPP")); [apply not_in_line; reflexivity..|].
  apply (defines_skip (lit "define MAIKE_BIN_ABOUTIMPL_HPP")); [apply not_in_line; reflexivity..|].
  apply defines_nl. unfold definitions.
  apply defines_definition; [letters|apply literal_plain; apply P|]. apply defines_nl.
  apply defines_definition; [letters|apply literal_plain; eapply date_plain; apply format_start_text; apply P|]. apply defines_nl.
  apply defines_definition; [letters|apply literal_plain; apply P|]. do 2 apply defines_nl.
  apply defines_definition; [letters|apply literal_plain; apply P|]. apply defines_nl.
  apply defines_definition; [letters|apply literal_plain; apply P|]. do 2 apply defines_nl.
  apply defines_definition; [letters|apply literal_joined; apply copyright_plain; apply P|]. apply defines_nl.
  apply defines_definition; [letters|apply literal_plain; apply P|]. apply defines_nl.
  apply defines_definition; [letters|apply literal_plain; apply P|]. apply defines_nl.
  replace (lit "#endif" ++ nl) with ("#"%char :: lit "endif" ++ nl ++ []) by reflexivity.
  apply (defines_skip (lit "endif") [] []); [apply not_in_line; reflexivity..|]. constructor.
Qed.

Lemma about_read a d : plain_about a -> defines (about_file a) d -> d = definitions a.
Proof. intros P D. eapply defines_unique; [exact D|now apply about_defines]. Qed.

(** ** What is printed *)

Definition unlines (ls : list str) : str := concat (map (fun l => l ++ nl) ls).

Lemma unlines_has ls l : In l ls -> has_line (unlines ls) l.
Proof.
  intro I. apply in_split in I. destruct I as (l1 & l2 & ->).
  exists (unlines l1), (unlines l2). split.
  - unfold unlines. rewrite map_app, concat_app. cbn [map concat]. now rewrite <- app_assoc.
  - destruct l1 as [|x l1 _] using rev_ind; [now left|right].
    exists (unlines l1 ++ x). unfold unlines. rewrite map_app, concat_app. cbn [map concat].
    rewrite app_nil_r. now rewrite <- app_assoc.
Qed.

Lemma join_unlines ls : ls <> [] -> join nl ls ++ nl = unlines ls.
Proof.
  induction ls as [|a ls IH]; intro NE; [congruence|]. destruct ls as [|b ls].
  - unfold unlines. cbn. now rewrite app_nil_r.
  - change (join nl (a :: b :: ls)) with (a ++ nl ++ join nl (b :: ls)).
    change (unlines (a :: b :: ls)) with ((a ++ nl) ++ unlines (b :: ls)).
    rewrite <- IH by discriminate. now repeat rewrite <- app_assoc.
Qed.

Lemma value_of_definitions a v : (forall n x, value_in (definitions a) n = Some x -> v n = x) ->
  v (lit "BuildId") = about_id a /\ v (lit "BuildStartTime") = format_start (start_time a) /\
  v (lit "BuildHost") = build_host a /\ v (lit "VcsRevisionId") = commit a /\ v (lit "VcsTag") = tag a /\
  v (lit "Copyright") = join nl (get_copyright (copyright a)) /\
    v (lit "DescriptionShort") = description_short a /\ v (lit "LegalBrief") = license_short a.
Proof. intro H. repeat split; apply H; reflexivity. Qed.

Lemma version_shown a d v : plain_about a -> defines (about_file a) d ->
  (forall n x, value_in d n = Some x -> v n = x) ->
  exists start, date_text start (start_time a) /\
    Forall (has_line (print_version v))
      [lit "# Maike " ++ tag a ++ lit " (" ++ commit a ++ lit ")"; lit "Build start time: " ++ start;
       lit "Build id: " ++ about_id a; lit "Build host: " ++ build_host a].
Proof.
  intros P D V. rewrite (about_read a d P D) in V.
  destruct (value_of_definitions a v V) as (V1 & V2 & V3 & V4 & V5 & _).
  exists (format_start (start_time a)). split; [apply format_start_text; apply P|].
  set (start := format_start (start_time a)) in *.
  replace (print_version v) with
    (unlines [lit "# Maike " ++ tag a ++ lit " (" ++ commit a ++ lit ")"; []; lit "Build start time: " ++ start; [];
              lit "Build id: " ++ about_id a; []; lit "Build host: " ++ build_host a; []]).
  - repeat constructor; apply unlines_has; cbn [In]; tauto.
  - unfold print_version. rewrite V1, V2, V3, V4, V5. unfold unlines. cbn [map concat].
    repeat rewrite <- app_assoc. reflexivity.
Qed.

Lemma about_shown a d v : plain_about a -> defines (about_file a) d ->
  (forall n x, value_in d n = Some x -> v n = x) ->
  exists start holders, date_text start (start_time a) /\
    Forall2 (fun h line => presents decimal (years h) (author h) line) (copyright a) holders /\
    Forall (has_line (print_about v))
      (holders ++ [lit "# Maike " ++ tag a ++ lit " (" ++ commit a ++ lit ")"; description_short a; license_short a;
       lit "Start time: " ++ start; lit "Id: " ++ about_id a; lit "Build host: " ++ build_host a]).
Proof.
  intros P D V. rewrite (about_read a d P D) in V.
  destruct (value_of_definitions a v V) as (V1 & V2 & V3 & V4 & V5 & V6 & V7 & V8).
  exists (format_start (start_time a)), (get_copyright (copyright a)).
  split; [apply format_start_text; apply P|]. split; [apply copyright_presents|].
  set (start := format_start (start_time a)) in *. set (hs := get_copyright (copyright a)) in *.
  set (shown := match hs with [] => [[]] | _ => hs end).
  assert (S : join nl hs ++ nl = unlines shown).
  { unfold shown. destruct hs as [|h hs']; [reflexivity|]. now apply join_unlines. }
  replace (print_about v) with
    (unlines ([lit "# Maike " ++ tag a ++ lit " (" ++ commit a ++ lit ")"; []; description_short a; []] ++ shown ++
              [[]; license_short a; []; lit "## Build info"; []; lit "Start time: " ++ start; [];
              lit "Id: " ++ about_id a; []; lit "Build host: " ++ build_host a; []])).
  - apply Forall_forall. intros l I. apply unlines_has. apply in_app_or in I. destruct I as [I | I].
    + apply in_or_app. right. apply in_or_app. left. unfold shown. destruct hs; [contradiction|exact I].
    + apply in_or_app. cbn [In] in I. repeat (destruct I as [I | I];
        [subst l; first [left; cbn [In]; tauto | right; apply in_or_app; right; cbn [In]; tauto]|]). contradiction.
  - unfold unlines. repeat rewrite map_app, concat_app. fold (unlines shown). rewrite <- S.
    unfold print_about. rewrite V1, V2, V3, V4, V5, V6, V7, V8. cbn [map concat].
    repeat rewrite <- app_assoc. reflexivity.
Qed.

(** ** Texts that are not plain *)

Lemma defines_nl_inv s d : defines (nl ++ s) d -> defines s d.
Proof. intro D. inversion D; subst. assumption. Qed.

Lemma defines_skip_inv line s d : ~ In "010"%char line -> defines ("#"%char :: line ++ nl ++ s) d -> defines s d.
Proof.
  intros N D. inversion D; subst.
  match goal with E : _ ++ _ = _ ++ _ |- _ => apply split_line in E; [destruct E as [-> ->]|assumption..] end. assumption.
Qed.

Lemma defines_definition_inv name text s d : Forall letter name -> defines (definition name text ++ s) d ->
  exists value s' d', literal (text ++ "034"%char :: ";"%char :: "010"%char :: s) value (";"%char :: "010"%char :: s') /\
    defines s' d'.
Proof.
  intros N D. unfold definition in D. repeat rewrite <- app_assoc in D.
  inversion D as [X|s' e D2 X|line' s' e A B D2 X|n' t' v' s' e N' L' D2 X]; subst; try discriminate X.
  assert (E : name ++ " "%char :: lit "= " ++ "034"%char :: text ++ quote ++ lit ";" ++ nl ++ s =
              n' ++ " "%char :: lit "= " ++ "034"%char :: t').
  { symmetry. exact X. }
  apply split_letters in E; [|assumption..]. destruct E as [-> E]. injection E as E.
  exists v', s', e. split; [|exact D2]. rewrite <- E in L'. exact L'.
Qed.

Lemma defines_plain_inv name text s d : Forall letter name -> plain_text text ->
  defines (definition name text ++ s) d -> exists d', defines s d'.
Proof.
  intros N P D. destruct (defines_definition_inv name text s d N D) as (v & s' & d' & L & D').
  destruct (literal_unique _ _ _ L _ _ (literal_plain text _ P)) as [_ E]. injection E as ->. eauto.
Qed.

Definition quoting : about :=
  mk_about (lit "1f") 0 (lit "host") (lit "abc") (lit "v1") []
    (lit "A " ++ quote ++ lit "make" ++ quote ++ lit " program") (lit "GPL").

Lemma quote_case : forall d, ~ defines (about_file quoting) d.
Proof.
  intros d D. unfold about_file, build_info_text, vcs_info_text in D. repeat rewrite <- app_assoc in D.
  apply (defines_skip_inv (lit "ifndef MAIKE_BIN_ABOUTIMPL_HPP")) in D; [|apply not_in_line; reflexivity].
  apply (defines_skip_inv (lit "define MAIKE_BIN_ABOUTIMPL_HPP")) in D; [|apply not_in_line; reflexivity].
  apply defines_nl_inv in D.
  apply defines_plain_inv in D; [|letters|apply plain_lit; reflexivity]. destruct D as [? D]. apply defines_nl_inv in D.
  apply defines_plain_inv in D; [|letters|apply plain_lit; reflexivity]. destruct D as [? D]. apply defines_nl_inv in D.
  apply defines_plain_inv in D; [|letters|apply plain_lit; reflexivity]. destruct D as [? D]. do 2 apply defines_nl_inv in D.
  apply defines_plain_inv in D; [|letters|apply plain_lit; reflexivity]. destruct D as [? D]. apply defines_nl_inv in D.
  apply defines_plain_inv in D; [|letters|apply plain_lit; reflexivity]. destruct D as [? D]. do 2 apply defines_nl_inv in D.
  apply defines_plain_inv in D; [|letters|apply plain_lit; reflexivity]. destruct D as [? D]. apply defines_nl_inv in D.
  apply defines_definition_inv in D; [|letters]. destruct D as (v & s' & d' & L & _).
  assert (P : plain_text (lit "A ")) by (apply plain_lit; reflexivity).
  unfold quoting, description_short in L. repeat rewrite <- app_assoc in L.
  match type of L with literal (lit "A " ++ quote ++ ?r) _ _ =>
    destruct (literal_unique _ _ _ L _ _ (literal_plain (lit "A ") r P)) as [_ E] end.
  discriminate E.
Qed.

Definition backslash : about :=
  mk_about (lit "1f") 0 (lit "host") (lit "abc") (lit "v1") [] (lit "Builds C:\new") (lit "GPL").

Lemma backslash_case : exists d, defines (about_file backslash) d /\
    value_in d (lit "DescriptionShort") = Some (lit "Builds C:" ++ nl ++ lit "ew").
Proof.
  eexists. split.
  - unfold about_file, build_info_text, vcs_info_text. repeat rewrite <- app_assoc.
    apply (defines_skip (lit "ifndef MAIKE_BIN_ABOUTIMPL_HPP")); [apply not_in_line; reflexivity..|].
    apply (defines_skip (lit "define MAIKE_BIN_ABOUTIMPL_HPP")); [apply not_in_line; reflexivity..|].
    apply defines_nl.
    apply defines_definition; [letters|apply literal_plain; apply plain_lit; reflexivity|]. apply defines_nl.
    apply defines_definition; [letters|apply literal_plain; apply plain_lit; reflexivity|]. apply defines_nl.
    apply defines_definition; [letters|apply literal_plain; apply plain_lit; reflexivity|]. do 2 apply defines_nl.
    apply defines_definition; [letters|apply literal_plain; apply plain_lit; reflexivity|]. apply defines_nl.
    apply defines_definition; [letters|apply literal_plain; apply plain_lit; reflexivity|]. do 2 apply defines_nl.
    apply defines_definition; [letters|apply literal_plain; apply plain_lit; reflexivity|]. apply defines_nl.
    apply defines_definition; [letters| |].
    { apply (literal_app (lit "Builds C:") _ (nl ++ lit "ew")); [apply plain_lit; reflexivity|].
      apply literal_newline. apply (literal_plain (lit "ew")). apply plain_lit; reflexivity. }
    apply defines_nl.
    apply defines_definition; [letters|apply literal_plain; apply plain_lit; reflexivity|]. apply defines_nl.
    apply (defines_skip (lit "endif") [] []); [apply not_in_line; reflexivity..|]. constructor.
  - reflexivity.
Qed.

Lemma about_compiles a : plain_about a -> exists d, defines (about_file a) d.
Proof. intro P. exists (definitions a). now apply about_defines. Qed.

Lemma quote_refuted : exists a, forall d, ~ defines (about_file a) d.
Proof. exists quoting. exact quote_case. Qed.

Lemma backslash_refuted : exists a d x,
  defines (about_file a) d /\ value_in d (lit "DescriptionShort") = Some x /\ x <> description_short a.
Proof.
  destruct backslash_case as (d & D & V). exists backslash, d. eexists. split; [exact D|]. split; [exact V|discriminate].
Qed.
