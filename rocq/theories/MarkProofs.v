From Coq Require Import Ascii String ZArith Bool Lia.
From Coq Require Import List.
From Verif Require Import Str PathProofs MakeModel MakeProofs MarkModel MarkSpec.
Import ListNotations.

Lemma node_induction (P : node -> Prop) :
  (forall tag attributes text children, (forall c, In c children -> P (fst c)) -> P (Node tag attributes text children)) -> forall n, P n.
Proof.
  intro H. fix IH 1. intros [tag attributes text children]. apply H.
  induction children as [|c cs IHc]; intros x; [intros []|]. intros [E|I].
  - rewrite <- E. destruct c as [n t]. apply IH.
  - apply IHc. assumption.
Qed.

Lemma tag_kept n : tag_of (title_sections n) = tag_of n.
Proof.
  destruct n as [tag attributes text children]. cbn [title_sections title_section]. destruct (str_eqb tag (lit "section")); [|reflexivity].
  destruct (take_heading _) as [[h rest]|]; reflexivity.
Qed.

Lemma title_set l v : ~ In (lit "title") (map fst l) -> title_of (pop_attribute (lit "class") (set_attribute (lit "title") v l)) = shown v.
Proof.
  induction l as [|[k w] l IH]; intro N.
  - reflexivity.
  - cbn [map fst In] in N. cbn [set_attribute]. destruct (str_eqb k (lit "title")) eqn:E.
    + apply str_eqb_eq in E. subst k. elim N. now left.
    + unfold pop_attribute. cbn [filter fst]. destruct (str_eqb k (lit "class")); cbn [negb]; [apply IH; tauto|].
      cbn [title_of]. rewrite E. apply IH. tauto.
Qed.

Lemma title_absent l : ~ In (lit "title") (map fst l) -> title_of l = [].
Proof.
  induction l as [|[k w] l IH]; intro N; [reflexivity|]. cbn [map fst In] in N. cbn [title_of].
  destruct (str_eqb k (lit "title")) eqn:E; [apply str_eqb_eq in E; subst k; elim N; now left|apply IH; tauto].
Qed.

Lemma children_reading l : (forall c, In c l -> reading (title_sections (fst c)) = reading (fst c)) ->
  flat_map (fun c => reading (fst c) ++ shown (snd c)) (map (fun c => (title_sections (fst c), snd c)) l) =
  flat_map (fun c => reading (fst c) ++ shown (snd c)) l.
Proof.
  induction l as [|c l IH]; intro H; [reflexivity|]. cbn [map flat_map fst snd]. rewrite (H c (or_introl eq_refl)), IH; [reflexivity|].
  intros x I. apply H. now right.
Qed.

Lemma heading_kept h : plain_heading h -> title_sections h = h.
Proof.
  intros (tag & attributes & s & -> & N & _). cbn [title_sections map title_section].
  destruct (str_eqb tag (lit "section")) eqn:E; [apply str_eqb_eq in E; contradiction|reflexivity].
Qed.

Lemma reading_kept n : sectioned n -> reading (title_sections n) = reading n.
Proof.
  induction n as [tag attributes text children IH] using node_induction. intro S. inversion S as [? ? ? ? C T]; subst.
  cbn [title_sections]. unfold title_section.
  destruct (str_eqb tag (lit "section")) eqn:E.
  - pose proof E as E'. apply str_eqb_eq in E'. destruct (T E') as (NT & ST & h & tail & rest & -> & H & STl). cbn [map fst snd].
    rewrite (heading_kept h H). destruct H as (ht & ha & s & -> & NS & HH). cbn [take_heading tag_of]. rewrite HH.
    cbn [reading fst snd flat_map text_of]. rewrite E. rewrite (title_set _ _ NT), (title_absent _ NT), ST, STl.
    assert (str_eqb ht (lit "section") = false) as EH.
    { destruct (str_eqb ht (lit "section")) eqn:X; [apply str_eqb_eq in X; contradiction|reflexivity]. }
    rewrite EH. cbn [app]. rewrite !app_nil_r. f_equal. apply children_reading. intros c I. apply IH; [now right|]. apply C. now right.
  - cbn [reading]. rewrite E. cbn [app]. f_equal. apply children_reading. intros c I. exact (IH c I (C c I)).
Qed.

Lemma attributes_ok esc l : (forall k, ~ In (k, None) l) -> snd (serialize_attributes esc l) = true.
Proof.
  induction l as [|[k [v|]] l IH]; intro H.
  - reflexivity.
  - cbn [serialize_attributes]. destruct (serialize_attributes esc l) as [out ok]. cbn [snd] in *. apply IH. intros k' I. apply (H k'). now right.
  - elim (H k). now left.
Qed.

Lemma serialize_ok ea et n : valued n -> snd (serialize ea et n) = true.
Proof.
  induction n as [tag attributes text children IH] using node_induction. intro V. inversion V as [? ? ? ? A C]; subst.
  cbn [serialize]. pose proof (attributes_ok ea attributes A) as X. destruct (serialize_attributes ea attributes) as [out ok].
  cbn [snd] in X. subst ok. cbn [negb].
  set (go := fix go (l : list (node * option str)) : str * bool :=
       match l with
       | [] => ([], true)
       | (c, tail) :: l' =>
           let (a, ok) := serialize ea et c in
           if negb ok then (a, false) else let (b, ok) := go l' in (a ++ serialize_text et tail ++ b, ok)
       end).
  assert (G : snd (go children) = true).
  { clear - IH C. induction children as [|[c tail] l IHl]; [reflexivity|]. cbn [go].
    pose proof (IH (c, tail) (or_introl eq_refl) (C (c, tail) (or_introl eq_refl))) as Y. cbn [fst] in Y.
    destruct (serialize ea et c) as [a ok]. cbn [snd] in Y. subst ok. cbn [negb].
    assert (Z : snd (go l) = true).
    { apply IHl; [intros x I; apply IH; now right|intros x I; apply C; now right]. }
    destruct (go l) as [b ok]. exact Z. }
  fold go. destruct (serialize_text et text) as [|y ys]; [destruct children as [|c cs]; [reflexivity|]|]; destruct (go _) as [inner ok]; exact G.
Qed.

Lemma valued_set l k v : (forall k', ~ In (k', None) l) -> v <> None ->
  forall k', ~ In (k', None) (pop_attribute (lit "class") (set_attribute k v l)).
Proof.
  intros H N k' I. apply filter_In in I. destruct I as [I _]. induction l as [|[a w] l IH]; cbn [set_attribute] in I.
  - destruct I as [I|[]]. injection I as _ I. contradiction.
  - destruct (str_eqb a k).
    + destruct I as [I|I]; [injection I as _ I; contradiction|]. apply (H k'). now right.
    + destruct I as [I|I]; [apply (H k'); now left|]. apply IH; [|exact I]. intros x X. apply (H x). now right.
Qed.

Lemma titled_valued n : sectioned n -> valued n -> valued (title_sections n).
Proof.
  induction n as [tag attributes text children IH] using node_induction. intros S V.
  inversion S as [? ? ? ? C T]; subst. inversion V as [? ? ? ? A D]; subst.
  assert (CH : forall c, In c (map (fun c => (title_sections (fst c), snd c)) children) -> valued (fst c)).
  { intros c I. apply in_map_iff in I. destruct I as (x & <- & I). exact (IH x I (C x I) (D x I)). }
  cbn [title_sections]. unfold title_section. destruct (str_eqb tag (lit "section")) eqn:E; [|constructor; assumption].
  apply str_eqb_eq in E. destruct (T E) as (_ & _ & h & tail & rest & -> & H & _). cbn [map fst snd] in *.
  rewrite (heading_kept h H) in *. destruct H as (ht & ha & s & -> & _ & HH). cbn [take_heading tag_of text_of]. rewrite HH.
  constructor; [apply valued_set; [exact A|discriminate]|]. intros c I. apply CH. now right.
Qed.

Lemma converted_text ea et pandoc fromstring writable source target others F html root :
  pandoc source = Some (html, 0%Z) -> fromstring (lit "<content>" ++ html ++ lit "</content>") = Some root -> sectioned root -> valued root ->
  writable target = true ->
  exists F' result, md2htmlpart ea et pandoc fromstring writable source (target :: others) F = (F', 0%Z) /\
    (exists out, serialize ea et result = (out, true) /\ F' target = Some out) /\ reading result = reading root /\
    forall q, q <> target -> F' q = F q.
Proof.
  intros P X S V W. unfold md2htmlpart. rewrite P, X, W.
  pose proof (serialize_ok ea et _ (titled_valued root S V)) as O. destruct (serialize ea et (title_sections root)) as [out ok] eqn:E. cbn [snd] in O. subst ok.
  exists (set_file target out F), (title_sections root). split; [reflexivity|].
  split; [exists out; split; [exact E|apply set_same]|]. split; [apply reading_kept, S|]. intros q Q. apply set_other, Q.
Qed.

(** Whatever pandoc has returned *)
Lemma pandoc_ignored ea et pandoc fromstring writable source target others F html r root :
  pandoc source = Some (html, r) -> fromstring (lit "<content>" ++ html ++ lit "</content>") = Some root -> sectioned root -> valued root ->
  writable target = true -> snd (md2htmlpart ea et pandoc fromstring writable source (target :: others) F) = 0%Z.
Proof.
  intros P X S V W. unfold md2htmlpart. rewrite P, X, W.
  pose proof (serialize_ok ea et _ (titled_valued root S V)) as O. destruct (serialize ea et (title_sections root)) as [out ok]. cbn [snd] in O. now subst ok.
Qed.

Lemma xsltproc_zero run : (forall r, run = Some r -> (-255 <= r <= 255)%Z) -> doc2html_compile run = 0%Z <-> run = Some 0%Z.
Proof.
  intro H. destruct run as [r|]; cbn [doc2html_compile]; [|split; discriminate]. specialize (H r eq_refl). split.
  - intro E. f_equal. apply Z.mod_divide in E; [|discriminate]. destruct E as [k ->]. destruct k as [|k|k]; [reflexivity|exfalso; lia..].
  - intro E. injection E as ->. reflexivity.
Qed.

(** ** Reading the file *)

From Coq Require Import Permutation.

Fixpoint read_to (p : place) (s : str) : place * str :=
  match s with
  | [] => (p, [])
  | c :: s' => let (q, r) := read_to (fst (read_char p c)) s' in (q, snd (read_char p c) ++ r)
  end.

Lemma read_to_from s p : snd (read_to p s) = read_from p s.
Proof.
  revert p. induction s as [|c s IH]; intro p; [reflexivity|]. cbn [read_to read_from]. rewrite <- IH.
  destruct (read_to _ s) as [q r]. reflexivity.
Qed.

Lemma read_to_app s1 s2 p : read_to p (s1 ++ s2) =
  (fst (read_to (fst (read_to p s1)) s2), snd (read_to p s1) ++ snd (read_to (fst (read_to p s1)) s2)).
Proof.
  revert p. induction s1 as [|c s IH]; intro p; cbn [app read_to].
  - cbn [fst snd app]. now destruct (read_to p s2).
  - rewrite IH. destruct (read_to (fst (read_char p c)) s) as [q r]. cbn [fst snd]. now rewrite app_assoc.
Qed.

Lemma read_text s : ~ In "<"%char s -> read_to Outside s = (Outside, s).
Proof.
  induction s as [|c s IH]; intro N; [reflexivity|]. cbn [read_to read_char]. destruct (Ascii.eqb_spec c "<") as [->|D].
  - elim N. now left.
  - cbn [fst snd]. rewrite IH; [reflexivity|]. intro I. apply N. now right.
Qed.

Lemma read_name s name : ~ In " "%char s -> ~ In ">"%char s -> read_to (InName name) s = (InName (name ++ s), []).
Proof.
  revert name. induction s as [|c s IH]; intros name N M; [now rewrite app_nil_r|]. cbn [read_to read_char].
  destruct (Ascii.eqb_spec c " ") as [->|D]; [elim N; now left|].
  destruct (Ascii.eqb_spec c ">") as [->|D']; [elim M; now left|].
  cbn [fst snd]. rewrite IH.
  - now rewrite <- app_assoc.
  - intro I. apply N. now right.
  - intro I. apply M. now right.
Qed.

Lemma read_key s name key : ~ In "="%char s -> ~ In ">"%char s -> read_to (InKey name key) s = (InKey name (key ++ s), []).
Proof.
  revert key. induction s as [|c s IH]; intros key N M; [now rewrite app_nil_r|]. cbn [read_to read_char].
  destruct (Ascii.eqb_spec c "=") as [->|D]; [elim N; now left|].
  destruct (Ascii.eqb_spec c ">") as [->|D']; [elim M; now left|].
  cbn [fst snd]. rewrite IH.
  - now rewrite <- app_assoc.
  - intro I. apply N. now right.
  - intro I. apply M. now right.
Qed.

Lemma read_value s name key : ~ In """"%char s ->
  read_to (InValue name key) s = (InValue name key, if str_eqb name (lit "section") && str_eqb key (lit "title") then s else []).
Proof.
  induction s as [|c s IH]; intro N; [now destruct (_ && _)|]. cbn [read_to read_char].
  destruct (Ascii.eqb_spec c """") as [->|D]; [elim N; now left|].
  cbn [fst snd]. rewrite IH; [now destruct (_ && _)|]. intro I. apply N. now right.
Qed.

(** Behind the name of an element, or the value of an attribute *)
Definition ready (name : str) (p : place) : Prop := p = InName name \/ p = BehindValue name.

Lemma ready_blank name p : ready name p -> read_char p " " = (InKey name [], []).
Proof. intros [-> | ->]; reflexivity. Qed.

Lemma ready_end name p : ready name p -> read_char p ">" = (Outside, []).
Proof. intros [-> | ->]; reflexivity. Qed.

Lemma read_equals name key s : read_to (InKey name key) ("="%char :: """"%char :: s) = read_to (InValue name key) s.
Proof. cbn [read_to]. cbn. now destruct (read_to (InValue name key) s). Qed.

Lemma read_quote name key s : read_to (InValue name key) (""""%char :: s) = read_to (BehindValue name) s.
Proof. cbn [read_to]. cbn. now destruct (read_to (BehindValue name) s). Qed.

Lemma read_open s : read_to Outside ("<"%char :: s) = read_to (InName []) s.
Proof. cbn [read_to]. cbn. now destruct (read_to (InName []) s). Qed.

Lemma read_attributes ea name l out : (forall s, ~ In """"%char (ea s)) ->
  (forall k v, In (k, v) l -> ~ In "="%char k /\ ~ In ">"%char k) -> serialize_attributes ea l = (out, true) ->
  forall p, ready name p -> exists p', ready name p' /\
    read_to p out = (p', if str_eqb name (lit "section") then escaped_title ea l else []).
Proof.
  intros Q. revert out. induction l as [|[k [v|]] l IH]; intros out K E p R; cbn [serialize_attributes] in E; [| |discriminate].
  - injection E as <-. exists p. split; [exact R|]. cbn. now destruct (str_eqb name _).
  - destruct (serialize_attributes ea l) as [o ok] eqn:EL. injection E as <- ->.
    destruct (K k (Some v) (or_introl eq_refl)) as [K1 K2].
    change (lit " " ++ k ++ lit "=""" ++ ea v ++ lit """" ++ o) with (" "%char :: k ++ "="%char :: """"%char :: ea v ++ """"%char :: o).
    destruct (IH o (fun k v I => K k v (or_intror I)) eq_refl (BehindValue name) (or_intror eq_refl)) as (p' & R' & E').
    exists p'. split; [exact R'|]. cbn [read_to]. rewrite (ready_blank name p R). cbn [fst snd app].
    match goal with |- (let (q, r) := ?x in (q, r)) = _ => replace (let (q, r) := x in (q, r)) with x by (now destruct x) end.
    rewrite read_to_app, (read_key k name [] K1 K2). cbn [fst snd app]. rewrite read_equals.
    rewrite read_to_app, (read_value (ea v) name k (Q v)). cbn [fst snd app]. rewrite read_quote.
    rewrite E'. cbn [fst snd]. unfold escaped_title. cbn [flat_map fst snd].
    destruct (str_eqb name (lit "section")); cbn [andb]; [|reflexivity]. now destruct (str_eqb k (lit "title")).
Qed.

Lemma text_escaped et t : serialize_text et t = escaped et t.
Proof. reflexivity. Qed.

Lemma read_serialized ea et n out : escapes ea et -> xml_names n -> serialize ea et n = (out, true) ->
  read_to Outside out = (Outside, escaped_reading ea et n).
Proof.
  intros [Q1 Q2]. revert out. induction n as [tag attributes text children IH] using node_induction.
  intros out X E. inversion X as [? ? ? ? X1 X2 X3 X4]; subst. cbn [serialize] in E.
  destruct (serialize_attributes ea attributes) as [o ok] eqn:EA. destruct ok; cbn [negb] in E; [|discriminate].
  set (go := fix go (l : list (node * option str)) : str * bool :=
       match l with
       | [] => ([], true)
       | (c, tail) :: l' =>
           let (a, ok) := serialize ea et c in
           if negb ok then (a, false) else let (b, ok) := go l' in (a ++ serialize_text et tail ++ b, ok)
       end) in E.
  destruct (read_attributes ea tag attributes o Q2 X3 EA (InName tag) (or_introl eq_refl)) as (p & R & EO).
  assert (NT : ~ In "<"%char (escaped et text)) by (destruct text; [apply Q1|intros []]).
  (* the start tag *)
  assert (ST : forall rest, read_to Outside ((lit "<" ++ tag ++ o) ++ rest) =
     (fst (read_to p rest), (if str_eqb tag (lit "section") then escaped_title ea attributes else []) ++ snd (read_to p rest))).
  { intro rest. rewrite <- !app_assoc. change (lit "<" ++ tag ++ o ++ rest) with ("<"%char :: tag ++ o ++ rest).
    rewrite read_open, read_to_app, (read_name tag [] X1 X2). cbn [fst snd app]. rewrite read_to_app, EO. reflexivity. }
  (* the children *)
  assert (CH : forall inner, go children = (inner, true) ->
     read_to Outside inner = (Outside, flat_map (fun c => escaped_reading ea et (fst c) ++ escaped et (snd c)) children)).
  { clear - IH X4 Q1. induction children as [|[c tail] l IHl]; intros inner E; cbn [go] in E; [injection E as <-; reflexivity|].
    destruct (serialize ea et c) as [a ok] eqn:EC. destruct ok; cbn [negb] in E; [|discriminate].
    destruct (go l) as [b ok] eqn:EG. injection E as <- ->.
    rewrite read_to_app, (IH (c, tail) (or_introl eq_refl) a (X4 _ (or_introl eq_refl)) EC). cbn [fst snd].
    assert (NTl : ~ In "<"%char (escaped et tail)) by (destruct tail; [apply Q1|intros []]).
    rewrite text_escaped, read_to_app, (read_text _ NTl). cbn [fst snd].
    rewrite (IHl (fun x I => IH x (or_intror I)) (fun x I => X4 x (or_intror I)) b eq_refl). cbn [fst snd flat_map]. now rewrite app_assoc. }
  assert (EN : read_to Outside (lit "</" ++ tag ++ lit ">") = (Outside, [])).
  { change (lit "</" ++ tag ++ lit ">") with ("<"%char :: ("/"%char :: tag) ++ [">"%char]).
    rewrite read_open, read_to_app, read_name.
    - reflexivity.
    - intros [I|I]; [discriminate|exact (X1 I)].
    - intros [I|I]; [discriminate|exact (X2 I)]. }
  assert (FULL : forall inner, go children = (inner, true) ->
     read_to Outside ((lit "<" ++ tag ++ o) ++ lit ">" ++ serialize_text et text ++ inner ++ lit "</" ++ tag ++ lit ">") =
     (Outside, escaped_reading ea et (Node tag attributes text children))).
  { intros inner G. rewrite ST. change (lit ">" ++ serialize_text et text ++ inner ++ lit "</" ++ tag ++ lit ">")
      with (">"%char :: serialize_text et text ++ inner ++ lit "</" ++ tag ++ lit ">").
    cbn [read_to]. rewrite (ready_end tag p R). cbn [fst snd app].
    match goal with |- context [let (q, r) := ?x in (q, r)] => replace (let (q, r) := x in (q, r)) with x by (now destruct x) end.
    rewrite text_escaped, read_to_app, (read_text _ NT). cbn [fst snd]. rewrite read_to_app, (CH inner G). cbn [fst snd].
    rewrite EN. cbn [fst snd escaped_reading]. now rewrite app_nil_r. }
  destruct (serialize_text et text) as [|y ys] eqn:ET.
  - destruct children as [|c cs].
    + apply (f_equal fst) in E. cbn [fst] in E. subst out. rewrite ST. cbn [escaped_reading flat_map].
      change (lit " />") with [" "%char; "/"%char; ">"%char]. cbn [read_to]. rewrite (ready_blank tag p R). cbn [fst snd].
      unfold escaped. unfold serialize_text in ET. rewrite ET. reflexivity.
    + destruct (go (c :: cs)) as [inner ok] eqn:G. pose proof (f_equal snd E) as EOK. cbn [snd] in EOK. subst ok.
      apply (f_equal fst) in E. cbn [fst] in E. subst out. exact (FULL inner eq_refl).
  - destruct (go children) as [inner ok] eqn:G. pose proof (f_equal snd E) as EOK. cbn [snd] in EOK. subst ok.
      apply (f_equal fst) in E. cbn [fst] in E. subst out. exact (FULL inner eq_refl).
Qed.

Lemma names_titled n : xml_names n -> xml_names (title_sections n).
Proof.
  induction n as [tag attributes text children IH] using node_induction. intro X. inversion X as [? ? ? ? X1 X2 X3 X4]; subst.
  assert (CH : forall c, In c (map (fun c => (title_sections (fst c), snd c)) children) -> xml_names (fst c)).
  { intros c I. apply in_map_iff in I. destruct I as (x & <- & I). exact (IH x I (X4 x I)). }
  cbn [title_sections]. unfold title_section. destruct (str_eqb tag (lit "section")) eqn:E; [|constructor; assumption].
  set (l := map _ children) in *. clearbody l.
  assert (TK : forall h rest, take_heading l = Some (h, rest) -> forall c, In c rest -> In c l).
  { clear. induction l as [|[n t] l IH]; intros h rest H; [discriminate|]. cbn [take_heading] in H.
    destruct (starts_with_h (tag_of n)); [injection H as <- <-; intros c I; now right|].
    destruct (take_heading l) as [[h' r]|]; [|discriminate]. injection H as <- <-. intros c [<- | I]; [now left|right]. exact (IH h' r eq_refl c I). }
  destruct (take_heading l) as [[h rest]|]; [|constructor; assumption].
  constructor; auto.
  - intros k v I. apply filter_In in I. destruct I as [I _].
    assert (J : k = lit "title" \/ exists w, In (k, w) attributes).
    { clear - I. induction attributes as [|[a w] l IH]; cbn [set_attribute] in I.
      - destruct I as [I|[]]. injection I as <- _. now left.
      - destruct (str_eqb a (lit "title")) eqn:E.
        + destruct I as [I|I]; [injection I as <- _; left; now apply str_eqb_eq in E|right; exists v; now right].
        + destruct I as [I|I]; [injection I as <- <-; right; exists w; now left|].
          destruct (IH I) as [J|[w' J]]; [now left|right; exists w'; now right]. }
    destruct J as [-> | [w J]]; [|exact (X3 k w J)]. split; cbn; intuition discriminate.
  - intros c I. apply CH. exact (TK h rest eq_refl c I).
Qed.

(** ** Headings anywhere *)

Lemma take_none l : (forall c, In c l -> starts_with_h (tag_of (fst c)) = false) -> take_heading l = None.
Proof.
  induction l as [|[n t] l IH]; intro H; [reflexivity|]. cbn [take_heading]. rewrite (H (n, t) (or_introl eq_refl) : starts_with_h (tag_of n) = false).
  rewrite IH; [reflexivity|]. intros c I. apply H. now right.
Qed.

Lemma take_first before h tail after : (forall c, In c before -> starts_with_h (tag_of (fst c)) = false) -> starts_with_h (tag_of h) = true ->
  take_heading (before ++ (h, tail) :: after) = Some (h, before ++ after).
Proof.
  intros H E. induction before as [|[n t] l IH]; cbn [app take_heading]; [now rewrite E|].
  rewrite (H (n, t) (or_introl eq_refl) : starts_with_h (tag_of n) = false). rewrite IH; [reflexivity|]. intros c I. apply H. now right.
Qed.

Lemma children_permuted l : (forall c, In c l -> Permutation (reading (title_sections (fst c))) (reading (fst c))) ->
  Permutation (flat_map (fun c => reading (fst c) ++ shown (snd c)) (map (fun c => (title_sections (fst c), snd c)) l))
              (flat_map (fun c => reading (fst c) ++ shown (snd c)) l).
Proof.
  induction l as [|c l IH]; intro H; [constructor|]. cbn [map flat_map fst snd].
  apply Permutation_app; [apply Permutation_app_tail, H; now left|]. apply IH. intros x I. apply H. now right.
Qed.

Lemma headed_kept n : headed n -> Permutation (reading (title_sections n)) (reading n).
Proof.
  induction n as [tag attributes text children IH] using node_induction. intro S. inversion S as [? ? ? ? C T]; subst.
  assert (CH : forall c, In c children -> Permutation (reading (title_sections (fst c))) (reading (fst c))) by (intros c I; exact (IH c I (C c I))).
  cbn [title_sections]. unfold title_section. destruct (str_eqb tag (lit "section")) eqn:E.
  - pose proof E as E'. apply str_eqb_eq in E'. destruct (T E') as (NT & [NH | (before & h & tail & after & -> & NB & H & STl)]).
    + rewrite take_none.
      * cbn [reading]. rewrite E. do 2 apply Permutation_app_head. now apply children_permuted.
      * intros c I. apply in_map_iff in I. destruct I as (x & <- & I). cbn [fst]. rewrite tag_kept. now apply NH.
    + rewrite map_app. cbn [map fst snd]. rewrite (heading_kept h H). destruct H as (ht & ha & s & -> & NS & HH).
      rewrite take_first; [|intros c I; apply in_map_iff in I; destruct I as (x & <- & I); cbn [fst]; rewrite tag_kept; now apply NB|exact HH].
      cbn [text_of]. rewrite <- map_app. cbn [reading]. rewrite E, (title_set _ _ NT), (title_absent _ NT). cbn [app].
      rewrite !flat_map_app. cbn [flat_map fst snd reading].
      assert (str_eqb ht (lit "section") = false) as EH.
      { destruct (str_eqb ht (lit "section")) eqn:Y; [apply str_eqb_eq in Y; contradiction|reflexivity]. }
      rewrite EH, STl. cbn [app]. rewrite !app_nil_r.
      assert (P : Permutation (flat_map (fun c => reading (fst c) ++ shown (snd c)) (map (fun c => (title_sections (fst c), snd c)) (before ++ after)))
                    (flat_map (fun c => reading (fst c) ++ shown (snd c)) before ++ flat_map (fun c => reading (fst c) ++ shown (snd c)) after)).
      { rewrite <- flat_map_app. apply children_permuted. intros c I. apply CH. apply in_app_or in I. apply in_or_app.
        destruct I; [now left|right; now right]. }
      rewrite P. rewrite !app_assoc. apply Permutation_app_tail. rewrite <- app_assoc. apply Permutation_app_comm.
  - cbn [reading]. rewrite E. cbn [app]. apply Permutation_app_head. now apply children_permuted.
Qed.

Lemma headed_valued n : headed n -> valued n -> valued (title_sections n).
Proof.
  induction n as [tag attributes text children IH] using node_induction. intros S V.
  inversion S as [? ? ? ? C T]; subst. inversion V as [? ? ? ? A D]; subst.
  assert (CH : forall c, In c (map (fun c => (title_sections (fst c), snd c)) children) -> valued (fst c)).
  { intros c I. apply in_map_iff in I. destruct I as (x & <- & I). exact (IH x I (C x I) (D x I)). }
  cbn [title_sections]. unfold title_section. destruct (str_eqb tag (lit "section")) eqn:E; [|constructor; assumption].
  apply str_eqb_eq in E. destruct (T E) as (_ & [NH | (before & h & tail & after & -> & NB & H & _)]).
  - rewrite take_none; [constructor; assumption|]. intros c I. apply in_map_iff in I. destruct I as (x & <- & I). cbn [fst]. rewrite tag_kept. now apply NH.
  - rewrite map_app in *. cbn [map fst snd] in *. rewrite (heading_kept h H) in *. destruct H as (ht & ha & s & -> & _ & HH).
    rewrite take_first; [|intros c I; apply in_map_iff in I; destruct I as (x & <- & I); cbn [fst]; rewrite tag_kept; now apply NB|exact HH].
    cbn [text_of]. constructor; [apply valued_set; [exact A|discriminate]|]. intros c I. apply CH. apply in_app_or in I. apply in_or_app.
    destruct I; [now left|right; now right].
Qed.

Lemma written_text ea et pandoc fromstring writable source target others F html root :
  escapes ea et -> pandoc source = Some (html, 0%Z) -> fromstring (lit "<content>" ++ html ++ lit "</content>") = Some root ->
  xml_names root -> valued root -> valued (title_sections root) -> writable target = true ->
  exists F' out, md2htmlpart ea et pandoc fromstring writable source (target :: others) F = (F', 0%Z) /\
    F' target = Some out /\ read_file out = escaped_reading ea et (title_sections root) /\ forall q, q <> target -> F' q = F q.
Proof.
  intros Q P X N V V' W. unfold md2htmlpart. rewrite P, X, W.
  pose proof (serialize_ok ea et _ V') as O. destruct (serialize ea et (title_sections root)) as [out ok] eqn:E. cbn [snd] in O. subst ok.
  exists (set_file target out F), out. split; [reflexivity|]. split; [apply set_same|]. split.
  - unfold read_file. rewrite <- read_to_from, (read_serialized ea et _ out Q (names_titled root N) E). reflexivity.
  - intros q H. apply set_other, H.
Qed.

Lemma converted_read ea et pandoc fromstring writable source target others F html root :
  escapes ea et -> pandoc source = Some (html, 0%Z) -> fromstring (lit "<content>" ++ html ++ lit "</content>") = Some root ->
  xml_names root -> sectioned root -> valued root -> writable target = true ->
  exists F' out result, md2htmlpart ea et pandoc fromstring writable source (target :: others) F = (F', 0%Z) /\
    F' target = Some out /\ read_file out = escaped_reading ea et result /\ reading result = reading root /\
    forall q, q <> target -> F' q = F q.
Proof.
  intros Q P X N S V W.
  destruct (written_text ea et pandoc fromstring writable source target others F html root Q P X N V (titled_valued root S V) W) as (F' & out & A & B & C & D).
  exists F', out, (title_sections root). repeat (split; [assumption|]). split; [apply reading_kept, S|exact D].
Qed.

Lemma converted_anywhere ea et pandoc fromstring writable source target others F html root :
  escapes ea et -> pandoc source = Some (html, 0%Z) -> fromstring (lit "<content>" ++ html ++ lit "</content>") = Some root ->
  xml_names root -> headed root -> valued root -> writable target = true ->
  exists F' out result, md2htmlpart ea et pandoc fromstring writable source (target :: others) F = (F', 0%Z) /\
    F' target = Some out /\ read_file out = escaped_reading ea et result /\ Permutation (reading result) (reading root) /\
    forall q, q <> target -> F' q = F q.
Proof.
  intros Q P X N S V W.
  destruct (written_text ea et pandoc fromstring writable source target others F html root Q P X N V (headed_valued root S V) W) as (F' & out & A & B & C & D).
  exists F', out, (title_sections root). repeat (split; [assumption|]). split; [apply headed_kept, S|exact D].
Qed.
