(** Proofs about links on the pages made from documents. *)

From Coq Require Import Ascii String Bool Lia.
From Coq Require Import List.
From Verif Require Import Str PathProofs DocModel SheetModel SheetSpec SheetProofs.
Import ListNotations.

(** * Pages *)

Lemma on_page_elem x name a kids : on_page x kids -> on_page x [HElem name a kids].
Proof. intros (h & I & W). exists (HElem name a kids). split; [now left|]. exact (within_kid _ _ _ _ h I W). Qed.

Lemma on_page_cons x h p : on_page x (h :: p) <-> on_page x [h] \/ on_page x p.
Proof.
  split.
  - intros (k & [<-|I] & W); [left; exists h; split; [now left|exact W]|right; now exists k].
  - intros [(k & [<-|[]] & W)|(k & I & W)]; [exists h; split; [now left|exact W]|exists k; split; [now right|exact W]].
Qed.

Lemma on_page_app x p q : on_page x (p ++ q) <-> on_page x p \/ on_page x q.
Proof.
  split.
  - intros (h & I & W). apply in_app_or in I. destruct I; [left|right]; now exists h.
  - intros [(h & I & W)|(h & I & W)]; exists h; (split; [apply in_or_app; auto|exact W]).
Qed.

Lemma on_page_flat {A} x (f : A -> list html) l : on_page x (flat_map f l) <-> exists k, In k l /\ on_page x (f k).
Proof.
  split.
  - intros (h & I & W). apply in_flat_map in I. destruct I as (k & I & J). exists k. split; [exact I|]. now exists h.
  - intros (k & I & h & J & W). exists h. split; [|exact W]. apply in_flat_map. now exists k.
Qed.

Lemma on_page_nil x : ~ on_page x [].
Proof. intros (h & [] & _). Qed.

Lemma on_page_one x name a kids : on_page x [HElem name a kids] -> x = HElem name a kids \/ on_page x kids.
Proof.
  intros (h & [<-|[]] & W). inversion W; subst; [now left|]. right. exists k. now split.
Qed.

Lemma on_page_text n a kids s : ~ on_page (HElem n a kids) [HText s].
Proof. intros (h & [<-|[]] & W). inversion W. Qed.

Lemma on_page_texts n a kids s : ~ on_page (HElem n a kids) (text s).
Proof. destruct s; [apply on_page_nil|apply on_page_text]. Qed.

Lemma on_page_some x (f : node -> bool) (g : node -> list html) l : on_page x (flat_map (fun k => if f k then g k else []) l) <->
  exists k, In k l /\ f k = true /\ on_page x (g k).
Proof.
  rewrite on_page_flat. split.
  - intros (k & I & O). exists k. destruct (f k); [now repeat split|]. now apply on_page_nil in O.
  - intros (k & I & E & O). exists k. now rewrite E.
Qed.

(** What an element of a page is made from: [x] is on the page for [n]. *)
Lemma copied above name root a kids : ~ among special name -> usual above ->
  exists name', apply Plain root above (Elem name a kids) = [HElem name' a (flat_map (apply Plain root (name :: above)) kids)] /\
    (name' = name \/ name = lit "caption" /\ name' = lit "figcaption").
Proof.
  intros N U. cbn [apply]. destruct (choose_other above name N U) as [E|E]; rewrite E.
  - exists name. split; [reflexivity|now left].
  - exists (lit "figcaption"). split; [reflexivity|right]. split; [|reflexivity].
    unfold choose in E. destruct (named "document" name && _); [discriminate|].
    destruct (named "caption" name) eqn:C; [now apply named_iff|]. cbn [andb] in E.
    repeat (match type of E with (if ?b then _ else _) = _ => destruct b end; [discriminate|]). discriminate.
Qed.

Lemma section_made above name root a kids : among sections name ->
  apply Plain root above (Elem name a kids) =
  [section_of name (if in_appendix above then lit "_appendix" else []) a
     (flat_map (fun k => if is_element k then apply Plain root (name :: above) k else []) kids)].
Proof. intro S. cbn [apply]. now rewrite (choose_section above name S). Qed.

Lemma section_made_appendix above name root a kids : among sections name ->
  apply Appendix root above (Elem name a kids) =
  [section_of name (lit "_appendix") a
     (flat_map (fun k => if is_element k then apply Plain root (name :: above) k else []) kids)].
Proof. intro S. cbn [apply]. replace (one_of section_names name) with true by (symmetry; now apply one_of_iff). reflexivity. Qed.

(** * Things that are rendered

    [covered q p]: whatever is on page [q] is on page [p]. *)

Definition covered (q p : list html) : Prop := forall x, on_page x q -> on_page x p.

Lemma covered_elem name a kids : covered kids [HElem name a kids].
Proof. intro x. apply on_page_elem. Qed.

Lemma covered_trans p q r : covered p q -> covered q r -> covered p r.
Proof. unfold covered. auto. Qed.

Lemma covered_flat {A} (f : A -> list html) l k : In k l -> covered (f k) (flat_map f l).
Proof. intros I x O. apply on_page_flat. now exists k. Qed.

Lemma covered_some (f : node -> bool) (g : node -> list html) l k : In k l -> f k = true ->
  covered (g k) (flat_map (fun k => if f k then g k else []) l).
Proof. intros I E x O. apply on_page_some. now exists k. Qed.

Lemma covered_section name suffix a content : covered content [section_of name suffix a content].
Proof. intros x O. unfold section_of. apply on_page_elem. apply on_page_cons. now right. Qed.

Lemma covered_refl p : covered p p.
Proof. intros x O. exact O. Qed.

(** A node that is rendered somewhere on page [p], in a file with the root element [root] *)
Definition rendered (root x : node) (p : list html) : Prop :=
  exists above, usual above /\ flow (in_appendix above) x /\ covered (apply Plain root above x) p.

Lemma rendered_weaken root x p q : rendered root x p -> covered p q -> rendered root x q.
Proof. intros (above & U & F & C) D. exists above. repeat split; try apply U; auto. exact (covered_trans _ _ _ C D). Qed.

(** Elements that are not just read by the element above them *)
Definition own_element (x : node) : Prop :=
  match x with
  | Elem name _ _ => name <> lit "property" /\ name <> lit "item"
  | Include _ _ _ => True
  | Text _ => False
  end.

Lemma own_is_element x : own_element x -> is_element x = true.
Proof. now destruct x. Qed.

Lemma kid_is_element x k : own_element x -> inside x k -> is_element k = true.
Proof. intros O I. destruct k; try reflexivity. inversion I; subst. contradiction. Qed.

Lemma rendered_inside app n : flow app n -> forall root above, usual above -> in_appendix above = app ->
  forall x, own_element x -> inside x n -> rendered root x (apply Plain root above n).
Proof.
  intro F. assert (Here : forall root above, usual above -> in_appendix above = app -> rendered root n (apply Plain root above n)).
  { intros root above U A. exists above. split; [exact U|]. split; [now rewrite A|apply covered_refl]. }
  revert Here.
  induction F as [app s|app name a kids N FK IH|app name a kids S B FK IH|app a kids C FK IH|app a|app a|app a kids B P FK IH|
    app a kids B P FK IH|app a a' kids B FK IH G];
    intros Here root above U A x O I.
  - inversion I; subst. contradiction.
  - inversion I as [|n' b ks k J K|]; subst; [now apply Here|].
    destruct (copied above name root a kids N U) as (name' & -> & _).
    eapply rendered_weaken; [|apply covered_elem]. eapply rendered_weaken; [|exact (covered_flat (apply Plain root (name :: above)) kids k J)].
    refine (IH k J _ root (name :: above) (usual_other _ _ N) (appendix_other _ above N) x O K).
    intros root' above' U' A'. exists above'. split; [exact U'|]. rewrite A'. split; [exact (FK k J)|apply covered_refl].
  - inversion I as [|n' b ks k J K|]; subst; [now apply Here|].
    rewrite (section_made above name root a kids S).
    eapply rendered_weaken; [|apply covered_section].
    eapply rendered_weaken; [|exact (covered_some is_element (apply Plain root (name :: above)) kids k J (kid_is_element _ _ O K))].
    refine (IH k J _ root (name :: above) (usual_section _ _ S) (appendix_section _ above S) x O K).
    intros root' above' U' A'. exists above'. split; [exact U'|]. rewrite A'. split; [exact (FK k J)|apply covered_refl].
  - inversion I as [|n' b ks k J K|]; subst; [now apply Here|].
    destruct C as (s & Is & Ns); [intros ->; destruct J|]. pose proof (own_text s _ Is Ns) as Nt.
    cbn [apply]. change (choose above (lit "ref")) with TRef. destruct (flat_map string_value kids); [contradiction|].
    eapply rendered_weaken; [|apply covered_elem]. eapply rendered_weaken; [|exact (covered_flat (apply Plain root (lit "ref" :: above)) kids k J)].
    refine (IH k J _ root (lit "ref" :: above) (conj eq_refl eq_refl) eq_refl x O K).
    intros root' above' U' A'. exists above'. split; [exact U'|]. rewrite A'. split; [exact (FK k J)|apply covered_refl].
  - inversion I as [|n' b ks k J K|]; subst; [now apply Here|destruct J].
  - inversion I as [|n' b ks k J K|]; subst; [now apply Here|destruct J].
  - inversion I as [|n' b ks k J K|]; subst; [now apply Here|].
    destruct (P k J (kid_is_element _ _ O K)) as (b & types & descs & -> & B' & Ty & De).
    inversion K as [|n' c ks t J' K'|]; subst; [now destruct O|].
    cbn [apply]. change (choose above (lit "property-list")) with TPropertyList.
    eapply rendered_weaken; [|apply covered_elem].
    eapply rendered_weaken; [|intros y Y; apply on_page_cons; right; exact Y].
    eapply rendered_weaken; [|exact (covered_some (is_named "property") (apply Plain root (lit "property-list" :: above)) kids _ J eq_refl)].
    cbn [apply]. change (choose (lit "property-list" :: above) (lit "property")) with TProperty.
    eapply rendered_weaken; [|apply covered_elem].
    assert (R : rendered root x (apply Plain root (lit "property" :: lit "property-list" :: above) t)).
    { refine (IH b _ t J J' _ root (lit "property" :: lit "property-list" :: above) (conj eq_refl eq_refl) eq_refl x O K').
      intros root' above' U' A'. exists above'. split; [exact U'|]. rewrite A'. split; [exact (FK b _ t J J')|apply covered_refl]. }
    pose proof (kid_is_element _ _ O K') as El. destruct (in_app_or _ _ _ J') as [T|T].
    + destruct (Ty t T El) as (c & ks & ->). eapply rendered_weaken; [exact R|]. intros y Y. apply on_page_cons. right. apply on_page_cons. left.
      apply on_page_elem. exact (covered_some (is_named "type") _ _ _ J' eq_refl y Y).
    + destruct (De t T El) as (c & ks & ->). eapply rendered_weaken; [exact R|]. intros y Y. do 2 (apply on_page_cons; right).
      apply on_page_elem. exact (covered_some (is_named "desc") _ _ _ J' eq_refl y Y).
  - inversion I as [|n' b ks k J K|]; subst; [now apply Here|].
    destruct (P k J (kid_is_element _ _ O K)) as (b & ks & ->).
    inversion K as [|n' c ks' t J' K'|]; subst; [now destruct O|].
    cbn [apply]. change (choose above (lit "enum")) with TEnum.
    eapply rendered_weaken; [|apply covered_elem].
    eapply rendered_weaken; [|intros y Y; apply on_page_cons; right; exact Y].
    eapply rendered_weaken; [|exact (covered_some (is_named "item") (apply Plain root (lit "enum" :: above)) kids _ J eq_refl)].
    cbn [apply]. change (choose (lit "enum" :: above) (lit "item")) with TItem.
    eapply rendered_weaken; [|apply covered_elem].
    eapply rendered_weaken; [|intros y Y; apply on_page_cons; right; exact Y].
    eapply rendered_weaken; [|apply covered_elem].
    eapply rendered_weaken; [|exact (covered_flat (apply Plain root (lit "item" :: lit "enum" :: above)) ks t J')].
    refine (IH b _ t J J' _ root (lit "item" :: lit "enum" :: above) (conj eq_refl eq_refl) eq_refl x O K').
    intros root' above' U' A'. exists above'. split; [exact U'|]. rewrite A'. split; [exact (FK b _ t J J')|apply covered_refl].
  - inversion I as [| |b ks l k J K]; subst; [now apply Here|destruct J].
Qed.

(** ** Files that are included *)

Definition below_root (x f : node) : Prop := exists name a kids k, f = Elem name a kids /\ In k kids /\ inside x k.

(** Sections at the top of a file that is included into the appendix, and what is as in
    HTML, are rendered in another way. *)
Definition made (root x : node) (p : list html) : Prop :=
  rendered root x p \/
  exists name a kids above, x = Elem name a kids /\ (among sections name \/ markup x) /\ covered (apply Appendix root above x) p.

Lemma markup_inside x n : markup n -> forall root above, own_element x -> inside x n ->
  exists name a kids above', x = Elem name a kids /\ markup x /\ covered (apply Appendix root above' x) (apply Appendix root above n).
Proof.
  induction 1 as [s|name a kids N K IH]; intros root above O I.
  - inversion I; subst. destruct O.
  - inversion I as [|n' b ks k J Q|]; subst.
    + exists name, a, kids, above. split; [reflexivity|]. split; [now constructor|apply covered_refl].
    + destruct (IH k J root (name :: above) O Q) as (m & c & l & above' & E & Mx & C). exists m, c, l, above'. split; [exact E|]. split; [exact Mx|].
      rewrite (appendix_markup _ _ _ _ _ N). eapply covered_trans; [exact C|]. eapply covered_trans; [|apply covered_elem].
      exact (covered_flat (apply Appendix root (name :: above)) kids k J).
Qed.

Lemma flow_in_section app name a kids : among sections name -> flow app (Elem name a kids) ->
  only_blanks kids /\ forall k, In k kids -> flow app k.
Proof.
  intros S F. inversion F; subst; try (split; assumption); exfalso; revert S;
    try solve [intro S; cbn in S; repeat (destruct S as [S|S]; [discriminate|]); destruct S].
  match goal with H : ~ among special _ |- _ => intro S; apply H end. unfold among, special. rewrite map_app. apply in_or_app. now left.
Qed.

Lemma flow_include_inv app a kids loaded : flow app (Include a kids loaded) -> exists a' ks, kids = [] /\
  loaded = Some (Elem (lit "content") a' ks) /\ only_blanks ks /\ (forall k, In k ks -> flow false k) /\
  (app = true -> forall k, In k ks -> is_element k = true -> (exists name a'' ks', k = Elem name a'' ks' /\ among sections name) \/ markup k).
Proof. intro F. inversion F; subst. eexists _, _. repeat split; eauto. Qed.

Lemma content_made root above a kids g x : flow (in_appendix above) (Include a kids (Some g)) -> own_element x -> below_root x g ->
  made g x (apply Plain root above (Include a kids (Some g))).
Proof.
  intros F O (name & b & ks & k & -> & I & J). destruct (flow_include_inv _ _ _ _ F) as (a' & kids' & -> & E & B & FK & G).
  injection E as -> <- <-.
  cbn [apply]. change (named "content" (lit "content")) with true. cbv iota.
  set (g := Elem (lit "content") b ks) in *. pose proof (kid_is_element _ _ O J) as El.
  destruct (in_appendix above) eqn:A.
  - destruct (G eq_refl k I El) as [(name & c & kids' & -> & S)|Mk].
    2:{ right. destruct (markup_inside x k Mk g [lit "content"] O J) as (m & c & l & above' & E & Mx & C). exists m, c, l, above'.
        split; [exact E|]. split; [now right|]. eapply covered_trans; [exact C|].
        exact (covered_some is_element (apply Appendix g [lit "content"]) ks k I El). }
    pose proof (covered_some is_element (apply Appendix g [lit "content"]) ks _ I eq_refl) as C.
    inversion J as [|n' c' ks' t T K|]; subst.
    + right. exists name, c, kids', [lit "content"]. split; [reflexivity|]. split; [now left|assumption].
    + left. destruct (flow_in_section _ _ _ _ S (FK _ I)) as [_ FT].
      eapply rendered_weaken; [|exact C]. rewrite (section_made_appendix _ _ _ _ _ S).
      eapply rendered_weaken; [|apply covered_section].
      eapply rendered_weaken; [|exact (covered_some is_element (apply Plain g [name; lit "content"]) kids' t T (kid_is_element _ _ O K))].
      apply (rendered_inside false t (FT t T)); try assumption; [now apply usual_section|now apply (appendix_section name [lit "content"])].
  - left. eapply rendered_weaken; [|exact (covered_some is_element (apply Plain g [lit "content"]) ks _ I El)].
    now apply (rendered_inside false k (FK k I)).
Qed.

Definition parts : list string := ["resources"; "prelims"; "main"; "appendix"]%string.

Definition no_part (x : node) : Prop := 
  match x with
  | Elem name a _ => ~ among parts name /\ (attribute (lit "id") a = None -> ~ among ["copyright"; "author"; "year"]%string name)
  | _ => True
  end.

Lemma about_inside k x : about k -> inside x k -> own_element x -> no_part x -> False.
Proof.
  induction 1 as [s B|name a kids Na E K IH]; intros J O N.
  - inversion J; subst. exact O.
  - inversion J as [|n' b ks t T Q|]; subst; [destruct N as [_ N]; exact (N E Na)|]. exact (IH t T Q O N).
Qed.

Lemma part_rendered name app kids d x k : part name app kids -> In k kids -> inside x k -> own_element x -> no_part x ->
  among parts (lit name) -> usual [lit name; lit "document"] -> in_appendix [lit name; lit "document"] = app ->
  exists a ks t, k = Elem (lit name) a ks /\ In t ks /\ is_element t = true /\
    rendered d x (apply Plain d [lit name; lit "document"] t).
Proof.
  intros [_ P] I J O N Pn U A. destruct (P k I (kid_is_element _ _ O J)) as (a & ks & -> & F).
  inversion J as [|n' c ks' t T K|]; subst; [destruct N; contradiction|]. exists a, ks, t. split; [reflexivity|]. split; [exact T|].
  split; [exact (kid_is_element _ _ O K)|]. now apply (rendered_inside _ t (F t T)).
Qed.

Lemma document_rendered d : document d -> forall x, own_element x -> no_part x -> below_root x d -> rendered d x (page d).
Proof.
  intros [a Ab R P M A HN HR BR HP HM HA] x O N (name & b & ks & k & E & I & J). injection E as <- <- <-.
  rewrite page_parts by assumption. set (d0 := Elem (lit "document") a (Ab ++ R ++ P ++ M ++ A)).
  rewrite !in_app_iff in I.
  assert (V : forall s app l, part s app l -> In k l -> among parts (lit s) -> usual [lit s; lit "document"] ->
    in_appendix [lit s; lit "document"] = app -> choose [lit "document"] (lit s) = TVisit ->
    rendered d0 x (flat_map (fun k => if is_named s k then apply Plain d0 [lit "document"] k else []) l)).
  { intros s app l H I' Ps Us As Cs. destruct (part_rendered s app l d0 x k H I' J O N Ps Us As) as (c & ks' & t & -> & T & El & Rt).
    eapply rendered_weaken; [|apply (covered_some (is_named s) (apply Plain d0 [lit "document"]) l _ I')].
    - cbn [apply]. rewrite Cs. eapply rendered_weaken; [exact Rt|]. exact (covered_flat (apply Plain d0 [lit s; lit "document"]) ks' t T).
    - cbn. unfold named. apply str_eqb_refl. }
  destruct I as [I|[I|[I|[I|I]]]].
  - destruct (about_inside k x (HN k I) J O N).
  - destruct (part_rendered "resources" false R d0 x k HR I J O N) as (c & ks' & t & -> & T & El & Rt);
      [special_name|now split|reflexivity|].
    eapply rendered_weaken; [exact Rt|]. intros y Y. apply on_page_elem. apply on_page_cons. left. apply on_page_elem. apply on_page_cons. right.
    unfold resources_of. apply on_page_flat. exists (Elem (lit "resources") c ks'). split; [exact I|].
    change (named "resources" (lit "resources")) with true. cbv iota.
    exact (covered_some is_element (apply Plain d0 [lit "resources"; lit "document"]) ks' t T El y Y).
  - eapply rendered_weaken; [apply (V "prelims"%string false P HP I)|]; try reflexivity; [special_name|now split|].
    intros y Y. apply on_page_elem. apply on_page_cons. right. apply on_page_elem. apply on_page_cons. right. rewrite !on_page_app. auto.
  - eapply rendered_weaken; [apply (V "main"%string false M HM I)|]; try reflexivity; [special_name|now split|].
    intros y Y. apply on_page_elem. apply on_page_cons. right. apply on_page_elem. apply on_page_cons. right. rewrite !on_page_app. auto.
  - eapply rendered_weaken; [apply (V "appendix"%string true A HA I)|]; try reflexivity; [special_name|now split|].
    intros y Y. apply on_page_elem. apply on_page_cons. right. apply on_page_elem. apply on_page_cons. right. rewrite !on_page_app. auto.
Qed.

Lemma include_not_section root a kids l p : made root (Include a kids l) p -> rendered root (Include a kids l) p.
Proof. intros [H|(name & b & ks & above & E & _)]; [exact H|discriminate]. Qed.

Lemma file_root d f : document d -> file_of d f -> (exists name a kids, f = Elem name a kids) /\
  forall x, own_element x -> no_part x -> below_root x f -> made f x (page d).
Proof.
  intros D. induction 1 as [|f a kids g Ff [(n & b & ks & ->) IH] I].
  - split; [destruct D; eauto|]. intros x O N B. left. now apply document_rendered.
  - assert (Bf : below_root (Include a kids (Some g)) (Elem n b ks)).
    { inversion I as [|n' c ks' t T K|]; subst. exists n, b, ks, t. auto. }
    destruct (include_not_section _ _ _ _ _ (IH (Include a kids (Some g)) Logic.I Logic.I Bf)) as (above & U & F & C).
    split; [destruct (flow_include_inv _ _ _ _ F) as (a' & ks' & _ & E & _); injection E as ->; eauto|]. intros x O N B.
    destruct (content_made (Elem n b ks) above a kids g x F O B) as [H|(name & c & kids' & above' & E & S & H)].
    + left. exact (rendered_weaken _ _ _ _ H C).
    + right. exists name, c, kids', above'. split; [exact E|]. split; [exact S|]. exact (covered_trans _ _ _ H C).
Qed.

Lemma inside_trans x y z : inside x y -> inside y z -> inside x z.
Proof.
  intros A B. induction B as [|name a kids k I _ IH|a kids l k I _ IH]; [exact A| |].
  - exact (inside_kid _ _ _ _ k I IH).
  - exact (inside_own _ _ _ _ k I IH).
Qed.

Lemma below_root_trans x y f : inside x y -> below_root y f -> below_root x f.
Proof. intros A (n & a & ks & k & -> & I & J). exists n, a, ks, k. repeat split; auto. exact (inside_trans _ _ _ A J). Qed.

Lemma below_root_inside y f : below_root y f -> inside y f.
Proof. intros (n & a & ks & k & -> & I & J). exact (inside_kid _ _ _ _ k I J). Qed.

Lemma part_file x n : part_of x n -> forall d f, file_of d f -> below_root n f -> exists g, file_of d g /\ below_root x g.
Proof.
  induction 1 as [|name a kids k I _ IH|a kids l k I _ IH|a kids name a' ks k I _ IH]; intros d f F B.
  - now exists f.
  - apply (IH d f F). refine (below_root_trans _ _ _ _ B). exact (inside_kid _ _ _ _ k I (inside_here k)).
  - apply (IH d f F). refine (below_root_trans _ _ _ _ B). exact (inside_own _ _ _ _ k I (inside_here k)).
  - apply (IH d (Elem name a' ks)).
    + exact (file_included _ f a kids _ F (below_root_inside _ _ B)).
    + exists name, a', ks, k. repeat split; auto. apply inside_here.
Qed.

Lemma part_made d x : document d -> part_of x d -> x <> d -> own_element x -> no_part x ->
  exists f, file_of d f /\ below_root x f /\ made f x (page d).
Proof.
  intros D P N O Np.
  assert (B : exists f, file_of d f /\ below_root x f).
  { destruct D as [a Ab R Pr M A]. inversion P as [|name b kids k I K| |]; subst; [contradiction|].
    apply (part_file x k K _ _ (file_top _)). eexists _, _, _, k. repeat split; eauto. apply inside_here. }
  destruct B as (f & F & B). exists f. split; [exact F|]. split; [exact B|]. now apply (file_root d f D F).
Qed.

(** * Targets of links *)

Lemma covered_target q p x : covered q p -> target q x -> target p x.
Proof. intros C (n & a & ks & O & E). exists n, a, ks. split; [exact (C _ O)|exact E]. Qed.

Lemma section_target name suffix a content : target [section_of name suffix a content] (value_of "id" a).
Proof.
  unfold section_of. eexists _, _, _. split; [exists (section_of name suffix a content); split; [now left|apply within_here]|]. reflexivity.
Qed.

Lemma section_made_target root name a kids p : among sections name -> made root (Elem name a kids) p -> target p (value_of "id" a).
Proof.
  intros S [(above & U & F & C)|(n & b & ks & above & E & _ & C)]; apply (covered_target _ _ _ C).
  - rewrite (section_made above name root a kids S). apply section_target.
  - rewrite (section_made_appendix above name root a kids S). apply section_target.
Qed.

Lemma section_own name : among sections name -> name <> lit "property" /\ name <> lit "item" /\ (~ among parts name /\ forall a : list (str * str), attribute (lit "id") a = None -> ~ among ["copyright"; "author"; "year"]%string name) /\
  name <> lit "document".
Proof.
  revert name. apply section_cases; (repeat split; try discriminate); intros;
    intro H'; cbn in H'; repeat (destruct H' as [H'|H']; [discriminate|]); destruct H'.
Qed.

Lemma sections_targets d name a kids : document d -> among sections name -> part_of (Elem name a kids) d -> target (page d) (value_of "id" a).
Proof.
  intros D S P. destruct (section_own name S) as (N1 & N2 & N3 & N4).
  destruct (part_made d (Elem name a kids) D P) as (f & _ & _ & M); [|now split|exact (conj (proj1 N3) (proj2 N3 a))|].
  - intro E. destruct D. injection E as E _ _. contradiction.
  - exact (section_made_target f name a kids _ S M).
Qed.

Lemma items_are_targets d x : document d -> has_item d x -> target (page d) x.
Proof.
  intros D (name & a & kids & P & E & [S|N]).
  - replace x with (value_of "id" a) by (unfold value_of; now rewrite E). now apply (sections_targets d name a kids D S P).
  - assert (Ns : ~ among special name) by (intro H; apply N; unfold among; rewrite map_app; apply in_or_app; now left).
    assert (No : forall s, In s ["property"; "item"; "resources"]%string -> name <> lit s).
    { intros s I ->. apply N. unfold among. rewrite map_app. apply in_or_app. right. apply in_map. exact I. }
    destruct (part_made d (Elem name a kids) D P) as (f & _ & _ & M).
    + intro H. destruct D. injection H as -> _ _. apply Ns. special_name.
    + split; apply No; cbn; auto.
    + split; [|congruence]. intro H. unfold among, parts in H. cbn [map In] in H. destruct H as [H|[H|[H|[H|[]]]]]; symmetry in H; revert H;
        [apply No; cbn; auto|..]; intros ->; apply Ns; special_name.
    + destruct M as [(above & U & F & C)|(n & b & ks & above & H & S & C)].
      * apply (covered_target _ _ _ C). destruct (copied above name f a kids Ns U) as (name' & -> & _).
        eexists _, _, _. split; [eexists; split; [now left|apply within_here]|exact E].
      * injection H as <- <- <-. apply (covered_target _ _ _ C). rewrite (appendix_markup _ _ _ _ _ Ns).
        eexists _, _, _. split; [eexists; split; [now left|apply within_here]|exact E].
Qed.

(** * Where links come from *)

Section NodeInd.
  Variable P : node -> Prop.
  Hypothesis on_elem : forall name a kids, (forall k, In k kids -> P k) -> P (Elem name a kids).
  Hypothesis on_include : forall a kids loaded, (forall k, In k kids -> P k) -> P (Include a kids loaded).
  Hypothesis on_text : forall s, P (Text s).

  Fixpoint node_ind2 (n : node) : P n :=
    let all := (fix all (l : list node) : forall k, In k l -> P k :=
      match l with
      | [] => fun k I => match I with end
      | x :: l' => fun k I => match I with
                              | or_introl E => eq_ind x P (node_ind2 x) k E
                              | or_intror J => all l' k J
                              end
      end) in
    match n with
    | Elem name a kids => on_elem name a kids (all kids)
    | Include a kids loaded => on_include a kids loaded (all kids)
    | Text s => on_text s
    end.
End NodeInd.

Definition is_link (h : html) (x : str) : Prop := exists a kids, h = HElem (lit "a") a kids /\ attribute (lit "href") a = Some (lit "#" ++ x).

Lemma link_to_iff p x : link_to p x <-> exists h, is_link h x /\ on_page h p.
Proof.
  split.
  - intros (a & ks & O & E). exists (HElem (lit "a") a ks). split; [exists a, ks; now split|exact O].
  - intros (h & (a & ks & -> & E) & O). exists a, ks. now split.
Qed.

Lemma link_app p q x : link_to (p ++ q) x <-> link_to p x \/ link_to q x.
Proof.
  rewrite !link_to_iff. split.
  - intros (h & L & O). apply on_page_app in O. destruct O; [left|right]; now exists h.
  - intros [(h & L & O)|(h & L & O)]; exists h; (split; [exact L|apply on_page_app]); auto.
Qed.

Lemma link_cons h p x : link_to (h :: p) x <-> link_to [h] x \/ link_to p x.
Proof. apply (link_app [h] p). Qed.

Lemma link_nil x : ~ link_to [] x.
Proof. intros (a & ks & O & _). now apply on_page_nil in O. Qed.

Lemma link_text s x : ~ link_to [HText s] x.
Proof. intros (a & ks & O & _). now apply on_page_text in O. Qed.

Lemma link_texts s x : ~ link_to (text s) x.
Proof. intros (a & ks & O & _). now apply on_page_texts in O. Qed.

Lemma link_flat {A} (f : A -> list html) l x : link_to (flat_map f l) x -> exists k, In k l /\ link_to (f k) x.
Proof. intros (a & ks & O & E). apply on_page_flat in O. destruct O as (k & I & O). exists k. split; [exact I|]. now exists a, ks. Qed.

Lemma link_some (f : node -> bool) (g : node -> list html) l x : link_to (flat_map (fun k => if f k then g k else []) l) x ->
  exists k, In k l /\ f k = true /\ link_to (g k) x.
Proof. intros (a & ks & O & E). apply on_page_some in O. destruct O as (k & I & F & O). exists k. repeat split; auto. now exists a, ks. Qed.

Lemma link_elem name a kids x : link_to [HElem name a kids] x ->
  (name = lit "a" /\ attribute (lit "href") a = Some (lit "#" ++ x)) \/ link_to kids x.
Proof.
  intros (b & ks & O & E). destruct (on_page_one _ _ _ _ O) as [H|H].
  - injection H as <- <- <-. left. now split.
  - right. now exists b, ks.
Qed.

Lemma link_other name a kids x : name <> lit "a" -> link_to [HElem name a kids] x -> link_to kids x.
Proof. intros N L. destruct (link_elem _ _ _ _ L) as [[E _]|H]; [contradiction|exact H]. Qed.

Lemma link_heading s x : ~ link_to [heading s] x.
Proof. intro L. apply link_other in L; [|discriminate]. now apply link_texts in L. Qed.

(** Tables of contents *)
Definition is_section_of (n : node) (x : str) : Prop :=
  exists name a kids, among sections name /\ part_of (Elem name a kids) n /\ value_of "id" a = x.

Lemma toc_link_of a kids x : link_to (toc_link a :: kids) x -> value_of "id" a = x \/ link_to kids x.
Proof.
  intro L. apply link_cons in L. destruct L as [L|L]; [left|now right]. destruct (link_elem _ _ _ _ L) as [[_ E]|H].
  - cbn in E. now injection E.
  - now apply link_texts in H.
Qed.

Lemma is_section_kid name a kids k x : In k kids -> is_section_of k x -> is_section_of (Elem name a kids) x.
Proof. intros I (n & b & ks & S & P & E). exists n, b, ks. repeat split; auto. exact (part_kid _ _ _ _ k I P). Qed.

Lemma toc_links n : forall x, link_to (toc n) x -> is_section_of n x.
Proof.
  induction n as [name a kids IH|a kids l IH|s] using node_ind2; intros x L; cbn [toc] in L.
  - assert (All : forall f, link_to (flat_map (fun k => if is_named f k then toc k else []) kids) x -> is_section_of (Elem name a kids) x).
    { intros f H. apply link_some in H. destruct H as (k & I & _ & H). exact (is_section_kid _ _ _ k x I (IH k I x H)). }
    assert (All' : link_to (flat_map toc kids) x -> is_section_of (Elem name a kids) x).
    { intro H. apply link_flat in H. destruct H as (k & I & H). exact (is_section_kid _ _ _ k x I (IH k I x H)). }
    assert (Here : among sections name -> value_of "id" a = x -> is_section_of (Elem name a kids) x).
    { intros S E. exists name, a, kids. repeat split; auto. apply part_here. }
    destruct (named "subsection" name) eqn:E1.
    { apply link_other in L; [|discriminate]. apply toc_link_of in L. destruct L as [L|L]; [|now apply link_nil in L].
      apply Here; [|exact L]. apply named_iff in E1. subst. special_name. }
    destruct (named "section" name) eqn:E2.
    { apply link_other in L; [|discriminate]. apply toc_link_of in L. destruct L as [L|L].
      - apply Here; [|exact L]. apply named_iff in E2. subst. special_name.
      - apply link_other in L; [|discriminate]. exact (All _ L). }
    destruct (named "chapter" name) eqn:E3.
    { apply link_other in L; [|discriminate]. apply toc_link_of in L. destruct L as [L|L].
      - apply Here; [|exact L]. apply named_iff in E3. subst. special_name.
      - apply link_other in L; [|discriminate]. exact (All _ L). }
    destruct (named "main" name); [apply link_other in L; [|discriminate]; exact (All' L)|].
    destruct (named "appendix" name); [apply link_other in L; [|discriminate]; exact (All' L)|]. exact (All' L).
  - apply link_flat in L. destruct L as (k & I & L). destruct (IH k I x L) as (n & b & ks & S & P & E). exists n, b, ks. repeat split; auto.
    exact (part_own _ _ _ _ k I P).
  - now apply link_text in L.
Qed.

Lemma contents_links root x : link_to [table_of_contents root] x -> is_section_of root x /\ exists a kids, root = Elem (lit "document") a kids.
Proof.
  intro L. unfold table_of_contents in L. apply link_other in L; [|discriminate]. apply link_cons in L.
  destruct L as [L|L]; [apply link_other in L; [now apply link_text in L|discriminate]|].
  destruct root as [name a kids|a kids l|s]; [|now apply link_nil in L|now apply link_nil in L].
  destruct (named "document" name) eqn:E; [|now apply link_nil in L]. apply named_iff in E. subst name. split; [|eauto].
  apply link_app in L. destruct L as [L|L]; apply link_some in L; destruct L as (k & I & _ & L);
    exact (is_section_kid _ _ _ k x I (toc_links k x L)).
Qed.

Lemma refers_kid name a kids k x : In k kids -> refers_to k x -> refers_to (Elem name a kids) x.
Proof.
  intros I [b ks P E|b ks P E]; [eapply by_ref|eapply by_link]; try exact E; exact (part_kid _ _ _ _ k I P).
Qed.

Lemma href_manpage s t x : Some (lit "https://linux.die.net/man/" ++ s ++ t) <> Some (lit "#" ++ x).
Proof. discriminate. Qed.

Lemma table_links a rows x (cells : list string) c : link_to [HElem (lit "table") c (HElem (lit "tr") a (map th cells) :: rows)] x -> link_to rows x.
Proof.
  intro L. apply link_other in L; [|discriminate]. apply link_cons in L. destruct L as [L|L]; [|exact L].
  apply link_other in L; [|discriminate]. exfalso. induction cells as [|s cells IH]; cbn [map] in L; [now apply link_nil in L|].
  apply link_cons in L. destruct L as [L|L]; [|exact (IH L)]. apply link_other in L; [now apply link_text in L|discriminate].
Qed.

Lemma markup_links n : markup n -> forall root above x, link_to (apply Appendix root above n) x -> refers_to n x.
Proof.
  induction 1 as [s|name a kids N K IH]; intros root above x L; [now apply link_text in L|].
  rewrite (appendix_markup _ _ _ _ _ N) in L. destruct (link_elem _ _ _ _ L) as [[-> E]|H].
  - eapply by_link; [apply part_here|exact E].
  - apply link_flat in H. destruct H as (k & I & H). exact (refers_kid _ _ _ k x I (IH k I _ _ x H)).
Qed.

Lemma flow_links app n : flow app n -> forall root above, usual above -> in_appendix above = app -> forall x,
  link_to (apply Plain root above n) x -> refers_to n x \/ link_to [table_of_contents root] x.
Proof.
  induction 1 as [app s|app name a kids N FK IH|app name a kids S B FK IH|app a kids C FK IH|app a|app a|app a kids B P FK IH|
    app a kids B P FK IH|app a a' kids B FK IH G];
    intros root above U A x L.
  - now apply link_text in L.
  - destruct (copied above name root a kids N U) as (name' & E & [-> | [_ ->]]); rewrite E in L.
    + destruct (link_elem _ _ _ _ L) as [[-> Eh]|H].
      * left. eapply by_link; [apply part_here|exact Eh].
      * apply link_flat in H. destruct H as (k & I & H).
        destruct (IH k I root (name :: above) (usual_other _ _ N) (eq_trans (appendix_other _ above N) A) x H) as [R|R]; [left|now right].
        exact (refers_kid _ _ _ k x I R).
    + apply link_other in L; [|discriminate]. apply link_flat in L. destruct L as (k & I & H).
      destruct (IH k I root (name :: above) (usual_other _ _ N) (eq_trans (appendix_other _ above N) A) x H) as [R|R]; [left|now right].
      exact (refers_kid _ _ _ k x I R).
  - rewrite (section_made above name root a kids S) in L. apply link_other in L; [|discriminate]. apply link_cons in L.
    destruct L as [L|L]; [now apply link_heading in L|]. apply link_some in L. destruct L as (k & I & _ & L).
    destruct (IH k I root (name :: above) (usual_section _ _ S) (eq_trans (appendix_section _ above S) A) x L) as [R|R]; [left|now right].
    exact (refers_kid _ _ _ k x I R).
  - cbn [apply] in L. change (choose above (lit "ref")) with TRef in L. destruct (link_elem _ _ _ _ L) as [[_ E]|H].
    + cbn in E. injection E as E. left. eapply by_ref; [apply part_here|exact E].
    + destruct (flat_map string_value kids); [now apply link_texts in H|]. apply link_flat in H. destruct H as (k & I & H).
      destruct (IH k I root (lit "ref" :: above) (conj eq_refl eq_refl) A x H) as [R|R]; [left|now right].
      exact (refers_kid _ _ _ k x I R).
  - cbn [apply] in L. change (choose above (lit "manpage")) with TManpage in L. destruct (link_elem _ _ _ _ L) as [[_ E]|H].
    + cbn [attribute] in E. change (str_eqb (lit "href") (lit "href")) with true in E. cbv iota in E. now apply href_manpage in E.
    + exfalso. apply link_cons in H. destruct H as [H|H]; [apply link_other in H; [now apply link_texts in H|discriminate]|].
      apply link_cons in H. destruct H as [H|H]; [now apply link_text in H|]. apply link_app in H.
      destruct H as [H|H]; [now apply link_texts in H|now apply link_text in H].
  - right. exact L.
  - cbn [apply] in L. change (choose above (lit "property-list")) with TPropertyList in L.
    apply (table_links _ _ _ ["Name"; "Type"; "Description"]%string) in L. apply link_some in L. destruct L as (k & I & E & L).
    assert (El : is_element k = true) by (destruct k; [reflexivity|reflexivity|discriminate]).
    destruct (P k I El) as (b & types & descs & -> & _). cbn [apply] in L.
    change (choose (lit "property-list" :: above) (lit "property")) with TProperty in L.
    assert (K : exists t, In t (types ++ descs) /\ link_to (apply Plain root (lit "property" :: lit "property-list" :: above) t) x).
    { apply link_other in L; [|discriminate]. apply link_cons in L. destruct L as [L|L].
      - apply link_other in L; [now apply link_texts in L|discriminate].
      - apply link_cons in L. destruct L as [L|L]; (apply link_other in L; [|discriminate]); apply link_some in L;
          destruct L as (t & J & _ & L); now exists t. }
    destruct K as (t & J & K).
    destruct (IH b _ t I J root (lit "property" :: lit "property-list" :: above) (conj eq_refl eq_refl) A x K) as [R|R]; [left|now right].
    apply (refers_kid _ _ _ _ x I). exact (refers_kid _ _ _ t x J R).
  - cbn [apply] in L. change (choose above (lit "enum")) with TEnum in L.
    apply (table_links _ _ _ ["Value"; "Description"]%string) in L. apply link_some in L. destruct L as (k & I & E & L).
    assert (El : is_element k = true) by (destruct k; [reflexivity|reflexivity|discriminate]).
    destruct (P k I El) as (b & ks & ->). cbn [apply] in L. change (choose (lit "enum" :: above) (lit "item")) with TItem in L.
    apply link_other in L; [|discriminate]. apply link_cons in L. destruct L as [L|L]; [apply link_other in L; [now apply link_texts in L|discriminate]|].
    apply link_other in L; [|discriminate]. apply link_flat in L. destruct L as (t & J & L).
    destruct (IH b _ t I J root (lit "item" :: lit "enum" :: above) (conj eq_refl eq_refl) A x L) as [R|R]; [left|now right].
    apply (refers_kid _ _ _ _ x I). exact (refers_kid _ _ _ t x J R).
  - cbn [apply] in L. change (named "content" (lit "content")) with true in L. cbv iota in L. apply link_some in L.
    destruct L as (k & I & El & L). left.
    assert (K : forall k', part_of k' k -> link_to (apply Plain (Elem (lit "content") a' kids) [lit "content"] k) x -> refers_to k x).
    { intros k' _ L'. destruct (IH k I (Elem (lit "content") a' kids) [lit "content"] (conj eq_refl eq_refl) eq_refl x L') as [R|R]; [exact R|].
      destruct (contents_links _ _ R) as (_ & b & ks & E). discriminate. }
    assert (R : refers_to k x).
    { destruct (in_appendix above); [|exact (K k (part_here k) L)]. destruct (G (eq_sym A) k I El) as [(name & b & ks & -> & S)|Mk].
      2: exact (markup_links k Mk _ _ x L).
      apply (K _ (part_here _)). rewrite (section_made_appendix _ _ _ _ _ S) in L. rewrite (section_made _ _ _ _ _ S).
      destruct L as (c & l & O & E). exists c, l. split; [|exact E]. destruct (on_page_one _ _ _ _ O) as [H|H]; [discriminate|].
      now apply on_page_elem. }
    destruct R as [b ks Q E|b ks Q E]; [eapply by_ref|eapply by_link]; try exact E; exact (part_included _ _ _ _ _ _ k I Q).
Qed.

Lemma page_links d x : document d -> link_to (page d) x -> refers_to d x \/ is_section_of d x.
Proof.
  intros D L. assert (Y : forall y, link_to [table_of_contents d] y -> is_section_of d y) by (intros y H; now apply contents_links).
  revert L Y. destruct D as [a Ab R P M A HN HR BR HP HM HA]. rewrite page_parts by assumption.
  set (d0 := Elem (lit "document") a (Ab ++ R ++ P ++ M ++ A)). intros L Y.
  assert (K : forall s app l k, part s app l -> In k l -> is_named s k = true -> choose [lit "document"] (lit s) = TVisit ->
    usual [lit s; lit "document"] -> in_appendix [lit s; lit "document"] = app -> In k (Ab ++ R ++ P ++ M ++ A) ->
    link_to (apply Plain d0 [lit "document"] k) x -> refers_to d0 x \/ is_section_of d0 x).
  { intros s app l k [_ H] I E C U Ap I0 L'. assert (El : is_element k = true) by (destruct k; [reflexivity|reflexivity|discriminate]).
    destruct (H k I El) as (b & ks & -> & F). cbn [apply] in L'. rewrite C in L'. apply link_flat in L'. destruct L' as (t & J & L').
    destruct (flow_links app t (F t J) d0 [lit s; lit "document"] U Ap x L') as [X|X]; [left|right; exact (Y x X)].
    apply (refers_kid _ _ _ _ x I0). exact (refers_kid _ _ _ t x J X). }
  apply link_other in L; [|discriminate]. apply link_cons in L. destruct L as [L|L].
  - apply link_other in L; [|discriminate]. apply link_cons in L. destruct L as [L|L]; [apply link_other in L; [now apply link_texts in L|discriminate]|].
    unfold resources_of in L. apply link_flat in L. destruct L as (k & I & L). destruct k as [n b ks| |]; try now apply link_nil in L.
    destruct (named "resources" n) eqn:E; [|now apply link_nil in L]. apply named_iff in E. subst n. apply link_some in L.
    destruct L as (t & J & _ & L). destruct HR as [_ HR]. destruct (HR _ I eq_refl) as (b' & ks' & Eq & F). injection Eq as <- <-.
    destruct (flow_links false t (F t J) d0 [lit "resources"; lit "document"] (conj eq_refl eq_refl) eq_refl x L) as [X|X]; [left|right; exact (Y x X)].
    apply (refers_kid _ _ _ (Elem (lit "resources") b ks) x); [rewrite !in_app_iff; auto|]. exact (refers_kid _ _ _ t x J X).
  - apply link_other in L; [|discriminate]. apply link_cons in L. destruct L as [L|L]; [now apply link_heading in L|].
    apply link_app in L. destruct L as [L|L]; [|apply link_app in L; destruct L as [L|L]]; apply link_some in L; destruct L as (k & I & E & L).
    + apply (K "prelims"%string false P k HP I E); try reflexivity; try exact L; [now split|]. rewrite !in_app_iff. auto.
    + apply (K "main"%string false M k HM I E); try reflexivity; try exact L; [now split|]. rewrite !in_app_iff. auto.
    + apply (K "appendix"%string true A k HA I E); try reflexivity; try exact L; [now split|]. rewrite !in_app_iff. auto.
Qed.

Lemma no_dead_links d : document d -> (forall x, refers_to d x -> has_item d x) -> forall x, link_to (page d) x -> target (page d) x.
Proof.
  intros D H x L. destruct (page_links d x D L) as [R|(name & a & kids & S & P & <-)].
  - exact (items_are_targets d x D (H x R)).
  - exact (sections_targets d name a kids D S P).
Qed.

(** * Titles of what is referred to *)

Lemma key_titles_iff x t n : In t (key_titles x n) <->
  exists name a kids, among titled name /\ inside (Elem name a kids) n /\ attribute (lit "id") a = Some x /\ attribute (lit "title") a = Some t.
Proof.
  induction n as [name a kids IH|a kids l IH|s] using node_ind2; cbn [key_titles].
  - rewrite in_app_iff, in_flat_map. split.
    + intros [H|(k & I & H)].
      * destruct (one_of key_names name) eqn:K; [|destruct H]. destruct (attribute (lit "id") a) as [v|] eqn:E; [|destruct H].
        cbn [andb] in H. destruct (str_eqb v x) eqn:Ev; [|destruct H]. apply str_eqb_eq in Ev. subst v.
        destruct (attribute (lit "title") a) as [u|] eqn:Et; [|destruct H]. destruct H as [<-|[]].
        exists name, a, kids. apply one_of_iff in K. repeat split; auto. apply inside_here.
      * apply (IH k I) in H. destruct H as (n & b & ks & N & In_ & E). exists n, b, ks. repeat split; try tauto.
        exact (inside_kid _ _ _ _ k I In_).
    + intros (n & b & ks & N & J & E & Et). inversion J as [|n' b' ks' k I K|]; subst.
      * left. apply one_of_iff in N. change titled with key_names in N. rewrite N, E, str_eqb_refl, Et. now left.
      * right. exists k. split; [exact I|]. apply (IH k I). now exists n, b, ks.
  - rewrite in_flat_map. split.
    + intros (k & I & H). apply (IH k I) in H. destruct H as (n & b & ks & N & In_ & E). exists n, b, ks. repeat split; try tauto.
      exact (inside_own _ _ _ _ k I In_).
    + intros (n & b & ks & N & J & E & Et). inversion J as [| |b' ks' l' k I K]; subst. exists k. split; [exact I|]. apply (IH k I). now exists n, b, ks.
  - split; [intros []|]. intros (n & b & ks & N & J & E & Et). inversion J.
Qed.

Lemma key_title_is f x t : item_title f x t -> key_title f (Some x) = t.
Proof.
  intros [(name & a & kids & N & I & E) H]. cbn. destruct (key_titles x f) as [|u l] eqn:K.
  - pose proof (H name a kids N I E) as Et. assert (J : In t (key_titles x f)) by (apply key_titles_iff; now exists name, a, kids).
    rewrite K in J. destruct J.
  - assert (J : In u (key_titles x f)) by (rewrite K; now left). apply key_titles_iff in J. destruct J as (n & b & ks & N' & I' & E' & Et).
    rewrite (H n b ks N' I' E') in Et. now injection Et.
Qed.

Lemma text_concat s : concat (flat_map texts (text s)) = s.
Proof. destruct s; [reflexivity|]. cbn. now rewrite app_nil_r. Qed.

Lemma file_name d f : document d -> file_of d f -> exists name a kids, f = Elem name a kids /\ (name = lit "document" \/ name = lit "content").
Proof.
  intros D F. destruct F as [|f a kids g Ff J]; [destruct D; eauto 6|].
  destruct (file_root d f D Ff) as [(n & b & ks & ->) M].
  assert (B : below_root (Include a kids (Some g)) (Elem n b ks)).
  { inversion J as [|n2 c2 ks2 t T K|]; subst. exists n, b, ks, t. auto. }
  destruct (include_not_section _ _ _ _ _ (M (Include a kids (Some g)) Logic.I Logic.I B)) as (above & U & Fl & C).
  destruct (flow_include_inv _ _ _ _ Fl) as (c & l & _ & E & _). injection E as ->. eauto 6.
Qed.

Lemma reference_made d f a kids : document d -> file_of d f -> inside (Elem (lit "ref") a kids) f ->
  exists content, on_page (HElem (lit "a") [(lit "href", lit "#" ++ value_of "item" a)] content) (page d) /\
    (kids = [] -> forall x t, attribute (lit "item") a = Some x -> item_title f x t -> concat (flat_map texts content) = t) /\
    subsequence (visible (flat_map (pieces (lit "ref")) kids)) (visible (flat_map texts content)).
Proof.
  intros D F I. destruct (file_root d f D F) as [(n & b & ks & ->) M].
  assert (B : below_root (Elem (lit "ref") a kids) (Elem n b ks)).
  { destruct (file_name d _ D F) as (n' & b' & ks' & E & Hn). injection E as <- <- <-.
    inversion I as [E|n' b' ks' k J K|]; [|exists n, b, ks, k; auto]. exfalso. rewrite <- E in Hn. destruct Hn; discriminate. }
  destruct (M (Elem (lit "ref") a kids)) as [(above & U & Fl & C)|(n' & b' & ks' & above & E & S & _)].
  - split; discriminate.
  - split; [|intros _]; intro H; cbn in H; repeat (destruct H as [H|H]; [discriminate|]); destruct H.
  - exact B.
  - pose proof (flow_shown _ _ Fl (Elem n b ks) above U eq_refl) as Sh. unfold shown in Sh.
    cbn [apply] in C, Sh. change (choose above (lit "ref")) with TRef in C, Sh. cbv iota in C, Sh.
    match type of C with covered [HElem _ _ ?c] _ => exists c end. split; [apply C; eexists; split; [now left|apply within_here]|].
    split.
    + intros -> x t E T. cbn [flat_map]. rewrite E, (key_title_is _ x t T). apply text_concat.
    + cbn [pieces flat_map texts] in Sh. rewrite app_nil_r in Sh. exact Sh.
  - injection E as <- <- <-. destruct S as [S|S]; [|apply markup_name in S; destruct S as [S _]; exfalso; apply S; special_name].
    cbn in S. repeat (destruct S as [S|S]; [discriminate|]). destruct S.
Qed.

(** * What is copied *)

Lemma copied_made d name a kids : document d -> part_of (Elem name a kids) d ->
  ~ among (special ++ ["property"; "item"; "resources"; "copyright"; "author"; "year"]%string) name ->
  exists name' content, on_page (HElem name' a content) (page d) /\ (name' = name \/ (name = lit "caption" /\ name' = lit "figcaption")).
Proof.
  intros D P N.
  assert (Ns : ~ among special name) by (intro H; apply N; unfold among; rewrite map_app; apply in_or_app; now left).
  assert (No : forall s, In s ["property"; "item"; "resources"; "copyright"; "author"; "year"]%string -> name <> lit s).
  { intros s I ->. apply N. unfold among. rewrite map_app. apply in_or_app. right. apply in_map. exact I. }
  destruct (part_made d (Elem name a kids) D P) as (f & _ & _ & M).
  - intro H. destruct D. injection H as -> _ _. apply Ns. special_name.
  - split; apply No; cbn; auto.
  - split.
    + intro H. unfold among, parts in H. cbn [map In] in H. destruct H as [H|[H|[H|[H|[]]]]]; symmetry in H; revert H;
        [apply No; cbn; auto|..]; intros ->; apply Ns; special_name.
    + intros _ [H|[H|[H|[]]]]; symmetry in H; revert H; apply No; cbn; auto 10.
  - destruct M as [(above & U & F & C)|(n & b & ks & above & H & S & C)].
    + destruct (copied above name f a kids Ns U) as (name' & E & Hn). rewrite E in C. eexists name', _. split; [|exact Hn].
      apply C. eexists. split; [now left|apply within_here].
    + injection H as <- <- <-. rewrite (appendix_markup _ _ _ _ _ Ns) in C. eexists name, _. split; [|now left].
      apply C. eexists. split; [now left|apply within_here].
Qed.

Lemma resources_copied d a kids b rs name c l : document d -> d = Elem (lit "document") a kids -> In (Elem (lit "resources") b rs) kids ->
  In (Elem name c l) rs -> ~ among special name ->
  exists head body content, page d = [HElem (lit "html") [] [HElem (lit "head") [] head; body]] /\ In (HElem name c content) head.
Proof.
  intros [a' Ab R P M A HN HR BR HP HM HA] E I J N. injection E as <- <-. rewrite page_parts by assumption. set (d0 := Elem _ _ _).
  eexists _, _, (flat_map (apply Plain d0 [name; lit "resources"; lit "document"]) l). split; [reflexivity|]. right. unfold resources_of. apply in_flat_map.
  exists (Elem (lit "resources") b rs). split.
  - rewrite !in_app_iff in I. destruct I as [I|[I|[I|[I|I]]]]; [|exact I|..]; exfalso.
    + pose proof (about_name _ (HN _ I)) as K. destruct K as [K|[K|[K|[]]]]; discriminate.
    + destruct HP as [_ H]. destruct (H _ I eq_refl) as (x & y & Q & _). discriminate.
    + destruct HM as [_ H]. destruct (H _ I eq_refl) as (x & y & Q & _). discriminate.
    + destruct HA as [_ H]. destruct (H _ I eq_refl) as (x & y & Q & _). discriminate.
  - change (named "resources" (lit "resources")) with true. cbv iota. apply in_flat_map. exists (Elem name c l). split; [exact J|].
    cbn [is_element apply]. assert (U : usual [lit "resources"; lit "document"]) by now split.
    destruct (choose_other _ name N U) as [C|C]; rewrite C; [now left|]. exfalso.
    unfold choose in C. destruct (named "document" name && _); [discriminate|]. rewrite andb_false_r in C. 
    repeat (match type of C with (if ?b then _ else _) = _ => destruct b end; [discriminate|]). discriminate.
Qed.
