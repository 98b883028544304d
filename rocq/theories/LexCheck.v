(** Deciding whether a list of items is well-formed. Only used for examples. *)

From Coq Require Import Ascii String NArith Bool Arith.
From Coq Require Import List.
From Verif Require Import Str PathProofs LexModel LexSpec.
Import ListNotations.
Local Open Scope char_scope.

Fixpoint prefixb (p s : str) : bool :=
  match p, s with
  | [], _ => true
  | c :: p', d :: s' => Ascii.eqb c d && prefixb p' s'
  | _, _ => false
  end.

Lemma prefixb_ok : forall p s, starts_with s p <-> prefixb p s = true.
Proof.
  induction p as [|c p IH]; intros s; simpl.
  - split; auto. intros _. exists s. reflexivity.
  - destruct s as [|d s].
    + split; [intros [a E]; discriminate|discriminate].
    + rewrite andb_true_iff, <- IH, Ascii.eqb_eq. split.
      * intros [a E]. inversion E; subst. split; auto. exists a. reflexivity.
      * intros [-> [a ->]]. exists a. reflexivity.
Qed.

Fixpoint occursb (p s : str) : bool :=
  prefixb p s || match s with [] => false | _ :: s' => occursb p s' end.

Lemma occursb_ok : forall p s, occurs p s -> occursb p s = true.
Proof.
  intros p s. induction s as [|c s IH]; intros (a & b & E); simpl.
  - apply orb_true_iff. left. apply prefixb_ok. destruct a; [|discriminate]. exists b. exact E.
  - destruct a as [|d a].
    + apply orb_true_iff. left. apply prefixb_ok. exists b. exact E.
    + inversion E; subst. apply orb_true_iff. right. apply IH. exists a, b. reflexivity.
Qed.

Definition ends_withb (s p : str) : bool := prefixb (rev p) (rev s).
Lemma ends_withb_ok : forall s p, ends_with s p -> ends_withb s p = true.
Proof. intros s p [a ->]. apply prefixb_ok. exists (rev a). apply rev_app_distr. Qed.

Definition inb (c : ascii) (s : str) : bool := existsb (Ascii.eqb c) s.
Lemma inb_ok : forall c s, In c s -> inb c s = true.
Proof. intros c s H. apply existsb_exists. exists c. split; auto. apply Ascii.eqb_refl. Qed.

Lemma not_b : forall (P : Prop) b, (P -> b = true) -> b = false -> ~ P.
Proof. intros P b H E X. rewrite (H X) in E. discriminate. Qed.

Definition line_blankb (s : str) : bool := forallb is_space s && negb (inb newline s).
Lemma line_blankb_ok : forall s, line_blankb s = true -> line_blank s.
Proof.
  intros s H. apply andb_true_iff in H. destruct H as [H1 H2]. split.
  - intros c Hc. rewrite forallb_forall in H1. auto.
  - apply negb_true_iff in H2. exact (not_b _ _ (inb_ok newline s) H2).
Qed.

Definition neb (c d : ascii) : bool := negb (Ascii.eqb c d).
Lemma neb_ok : forall c d, neb c d = true -> c <> d.
Proof. intros c d H. apply negb_true_iff in H. apply Ascii.eqb_neq. exact H. Qed.

Definition nonempty (s : str) : bool := match s with [] => false | _ => true end.

Definition item_okb (i : item) : bool :=
  match i with
  | Newline | Splice => true
  | Blank c => is_space c && neb c newline
  | Code s => nonempty s && forallb (fun c => negb (is_space c) && neb c quote && neb c "'") s &&
              negb (occursb (lit "//") s) && negb (occursb (lit "/*") s) && negb (ends_withb s (lit "/")) &&
              negb (ends_withb s (lit "\"))
  | Number s => match s with c :: _ => is_digit c | [] => false end &&
                forallb (fun c => in_name c || Ascii.eqb c "." || Ascii.eqb c "'") s &&
                negb (occursb (lit "''") s) && negb (occursb (lit "'.") s) && negb (occursb (lit ".'") s) &&
                negb (ends_withb s (lit "'"))
  | Quoted q s => (Ascii.eqb q quote || Ascii.eqb q "'") && literal_content q s
  | LineComment s => negb (inb newline s) && negb (ends_withb s (lit "\"))
  | BlockComment s => negb (occursb (lit "*/") (s ++ lit "*"))
  | RawString tag s =>
      forallb (fun c => negb (is_space c) && neb c "(" && neb c ")" && neb c "\" && neb c quote) tag &&
      negb (occursb (lit ")" ++ tag ++ [quote]) (s ++ lit ")" ++ tag))
  | Include b1 b2 system name =>
      line_blankb b1 && line_blankb b2 && negb (inb newline name) && negb (inb (if system then ">" else quote) name)
  | Directive b1 name b2 =>
      line_blankb b1 && line_blankb b2 && nonempty name && forallb is_lower name && negb (str_eqb name (lit "include"))
  end.

Ltac bools := repeat match goal with
  | H : _ && _ = true |- _ => apply andb_true_iff in H; destruct H
  | H : negb _ = true |- _ => apply negb_true_iff in H
  end.

Lemma nonempty_ok : forall s, nonempty s = true -> s <> [].
Proof. intros [|c s] H; [discriminate|congruence]. Qed.

Lemma item_okb_ok : forall i, item_okb i = true -> item_ok i.
Proof.
  intros [| |c|s|s|q s|s|s|tag s|b1 b2 system name|b1 name b2] H; simpl in *; auto.
  - bools. split; auto. apply neb_ok. auto.
  - bools. rewrite forallb_forall in H4. split; [apply nonempty_ok; auto|]. split.
    + intros c Hc. specialize (H4 c Hc). bools. repeat split; auto; apply neb_ok; auto.
    + repeat split; (eapply not_b; [first [apply occursb_ok | apply ends_withb_ok]|auto]).
  - bools. rewrite forallb_forall in H4. split; [destruct s as [|c s]; [discriminate|]; exists c, s; auto|]. split.
    + intros c Hc. specialize (H4 c Hc). apply orb_true_iff in H4. destruct H4 as [H4|H4]; [apply orb_true_iff in H4; destruct H4 as [H4|H4]|];
        auto; apply Ascii.eqb_eq in H4; auto.
    + repeat split; (eapply not_b; [first [apply occursb_ok | apply ends_withb_ok]|auto]).
  - bools. split; auto. apply orb_true_iff in H. rewrite !Ascii.eqb_eq in H. auto.
  - bools. split; [eapply not_b; [apply inb_ok|auto]|eapply not_b; [apply ends_withb_ok|auto]].
  - bools. eapply not_b; [apply occursb_ok|auto].
  - bools. split; [|eapply not_b; [apply occursb_ok|auto]].
    intros c Hc. rewrite forallb_forall in H. specialize (H c Hc). bools.
    repeat split; auto; apply neb_ok; auto.
  - bools. split; [apply line_blankb_ok; auto|]. split; [apply line_blankb_ok; auto|].
    split; (eapply not_b; [apply inb_ok|auto]).
  - bools. split; [apply line_blankb_ok; auto|]. split; [apply line_blankb_ok; auto|].
    split; [apply nonempty_ok; auto|]. split; [rewrite forallb_forall in H1; auto|].
    intros ->. rewrite str_eqb_refl in H0. discriminate.
Qed.

Definition no_name_at_end (s : str) : bool := match rev s with c :: _ => negb (in_name c) | [] => true end.
Lemma no_name_at_end_ok : forall s, no_name_at_end s = true -> forall c, ends_with s [c] -> in_name c = false.
Proof. intros s H c [a ->]. unfold no_name_at_end in H. rewrite rev_app_distr in H. simpl in H. bools. auto. Qed.

Definition next_okb (i : item) (l : list item) : bool :=
  match i, l with
  | _, [] => true
  | LineComment _, j :: _ => match j with Newline => true | _ => false end
  | Blank _, Splice :: _ | Newline, Splice :: _ => true
  | Directive _ _ [], j :: _ => match j with Newline | LineComment _ | BlockComment _ => true | _ => false end
  | _, Splice :: l' => match l' with [] | Newline :: _ | Blank _ :: _ => true | _ => false end
  | Code _, Code _ :: _ => false
  | Code s, RawString _ _ :: _ => no_name_at_end s
  | Code s, Quoted _ _ :: _ => negb (ends_withb s (lit "R"))
  | Code s, Number _ :: _ => no_name_at_end s
  | Number _, RawString _ _ :: _ | Quoted _ _, RawString _ _ :: _ | RawString _ _, RawString _ _ :: _ => false
  | Number _, Quoted q _ :: _ => Ascii.eqb q quote
  | Directive _ _ _, Blank _ :: _ => false
  | _, _ => true
  end.

Lemma next_okb_ok : forall i l, next_okb i l = true -> next_ok i l.
Proof.
  intros i [|j l] H; [destruct i as [| | | | | | | | | |b1 name [|]]; exact I|].
  destruct i as [| | | | | | | | | |b1 name [|]]; destruct j; simpl in *; auto; try discriminate;
    try (destruct l as [|[] l]; auto; discriminate).
  - apply no_name_at_end_ok. auto.
  - bools. eapply not_b; [apply ends_withb_ok|auto].
  - exists s, []. rewrite app_nil_r. split; auto. split; [simpl; auto|]. apply no_name_at_end_ok. auto.
  - apply Ascii.eqb_eq. auto.
Qed.

Definition is_something (b : so_far) : bool := match b with Something => true | _ => false end.

Fixpoint source_okb (b : so_far) (l : list item) : bool :=
  match l with
  | [] => true
  | i :: l' =>
      item_okb i && next_okb i l' &&
      match i with
      | Include _ _ _ _ | Directive _ _ _ => negb (is_something b)
      | Code s => is_something b || (negb (prefixb (lit "#") s) && negb (prefixb (lit "%:") s))
      | _ => true
      end &&
      source_okb (and_then b i) l'
  end.

Lemma not_prefix : forall p s, prefixb p s = false -> ~ starts_with s p.
Proof. intros p s H X. apply prefixb_ok in X. congruence. Qed.

Lemma source_okb_ok : forall l b, source_okb b l = true -> source_ok b l.
Proof.
  induction l as [|i l IH]; intros b H; simpl in *; auto. bools.
  split; [apply item_okb_ok; auto|]. split; [apply next_okb_ok; auto|]. split; [|apply IH; auto].
  destruct i; auto.
  - intro X. apply orb_true_iff in H1. destruct H1 as [H1|H1]; [destruct b; try discriminate; congruence|].
    bools. split; apply not_prefix; auto.
  - bools. intros ->. discriminate.
  - bools. intros ->. discriminate.
Qed.

Definition plainb (s : str) : bool := negb (occursb (lit "/*") s) && negb (occursb (lit "R" ++ [quote]) s).
Lemma plainb_ok : forall s, plainb s = true -> plain s.
Proof. intros s H. unfold plainb in H. bools. split; (eapply not_b; [apply occursb_ok|auto]). Qed.

Definition at_gapb (l : list item) : bool :=
  match l with [] | Newline :: _ | Splice :: _ | Blank _ :: _ => true | _ => false end.
Lemma at_gapb_ok : forall l, at_gapb l = true -> at_gap l.
Proof. intros [|[] l] H; simpl; auto; discriminate. Qed.

Definition tame_itemb (i : item) (l : list item) : bool :=
  match i with
  | Code s | Number s => negb (ends_withb s (lit "R")) || at_gapb l
  | Quoted q s => plainb (q :: s ++ [q])
  | LineComment s => plainb s
  | BlockComment s => Nat.even (stars_at_end s)
  | RawString tag s => negb (inb ")" s)
  | Include b1 b2 system name => plainb (name ++ [quote])
  | _ => true
  end.

Lemma tame_itemb_ok : forall i l, tame_itemb i l = true -> tame_item i l.
Proof.
  intros i l H.
  assert (Hr : forall s, negb (ends_withb s (lit "R")) || at_gapb l = true -> ends_with s (lit "R") -> at_gap l).
  { intros s H' X. apply ends_withb_ok in X. rewrite X in H'. apply at_gapb_ok. exact H'. }
  destruct i; try exact I; try (exact (Hr _ H)); simpl in *.
  - apply plainb_ok. auto.
  - apply plainb_ok. auto.
  - apply Nat.even_spec. auto.
  - bools. eapply not_b; [apply inb_ok|auto].
  - apply plainb_ok. auto.
Qed.

Fixpoint tame_textb (l : list item) : bool :=
  match l with
  | [] => true
  | i :: l' => tame_itemb i l' && tame_textb l'
  end.

Lemma tame_textb_ok : forall l, tame_textb l = true -> tame_text l.
Proof. induction l as [|i l IH]; intro H; simpl in *; auto. bools. split; [apply tame_itemb_ok; auto|auto]. Qed.

Definition for_operand (m : place) : bool := match m with ForOperand => true | _ => false end.

Fixpoint tame_directivesb (m : place) (l : list item) : bool :=
  match l with
  | [] => true
  | i :: l' =>
      match i with
      | Newline | Splice => tame_directivesb AtStart l'
      | Blank _ => tame_directivesb m l'
      | Include _ _ _ _ => match m with AtStart => true | _ => false end && tame_directivesb Rest l'
      | Directive _ _ b2 =>
          match m, b2 with
          | AtStart, _ :: _ => tame_directivesb ForOperand l'
          | AtStart, [] =>
              match l' with
              | [] => true
              | Newline :: l'' => tame_directivesb ForOperand l''
              | _ => false
              end
          | _, _ => tame_directivesb Rest l'
          end
      | Code s =>
          match m with
          | AtStart => negb (prefixb (lit "#") s)
          | ForOperand => negb (prefixb (lit "<") s)
          | Rest => true
          end && tame_directivesb Rest l'
      | Quoted q _ => (negb (for_operand m) || neb q quote) && tame_directivesb Rest l'
      | LineComment s => (negb (for_operand m) || negb (prefixb (lit "*") s)) && tame_directivesb Rest l'
      | BlockComment s =>
          (negb (for_operand m) || (negb (inb newline s) && plainb (s ++ lit "*") && at_gapb l')) && tame_directivesb Rest l'
      | RawString _ _ => negb (for_operand m) && tame_directivesb Rest l'
      | Number _ => tame_directivesb Rest l'
      end
  end.

Lemma tame_directivesb_ok : forall l,
    (forall m, tame_directivesb m l = true -> tame_directives m l) /\
    (forall m, match l with [] => true | Newline :: l' => tame_directivesb m l' | _ => false end = true ->
               match l with [] => True | Newline :: l' => tame_directives m l' | _ => False end).
Proof.
  induction l as [|i l [IH1 IH2]]; [split; intros; exact I|].
  split.
  - intros m H. destruct i; simpl in *; bools; auto.
    + split; auto. destruct m; auto; apply not_prefix; bools; auto.
    + split; auto. intros ->. simpl in *. apply neb_ok. auto.
    + split; auto. intros ->. simpl in *. apply not_prefix. bools. auto.
    + split; auto. intros ->. simpl in *. bools.
      split; [eapply not_b; [apply inb_ok|auto]|]. split; [apply plainb_ok; auto|apply at_gapb_ok; auto].
    + split; auto. intros ->. discriminate.
    + split; auto. destruct m; auto; discriminate.
    + destruct m; auto. destruct b2; auto. apply IH2. auto.
  - intros m H. destruct i; try discriminate. auto.
Qed.

Definition tameb (l : list item) : bool := tame_textb l && tame_directivesb AtStart l.

Lemma tameb_ok : forall l, tameb l = true -> tame l.
Proof. intros l H. unfold tameb in H. bools. split; [apply tame_textb_ok; auto|apply (proj1 (tame_directivesb_ok l)); auto]. Qed.

Lemma check_source : forall l, source_okb OnlyBlanks l = true -> cxx_source l.
Proof. intros l H. apply source_okb_ok. exact H. Qed.

Definition blankb (s : str) : bool := forallb is_space s.

Fixpoint same_tagsb (expected : list (option str)) (out : list str) : bool :=
  match expected, out with
  | [], [] => true
  | e :: es, t :: ts => match e with Some t' => str_eqb t t' | None => blankb t end && same_tagsb es ts
  | _, _ => false
  end.

Lemma same_tagsb_ok : forall e o, same_tags e o -> same_tagsb e o = true.
Proof.
  intros e o H. induction H as [|e t es ts He _ IH]; auto. simpl. rewrite IH, andb_true_r.
  destruct e as [t'|]; [subst; apply str_eqb_refl|]. apply forallb_forall. exact He.
Qed.

Lemma check_not_same : forall e o, same_tagsb e o = false -> ~ same_tags e o.
Proof. intros e o H X. apply same_tagsb_ok in X. congruence. Qed.
