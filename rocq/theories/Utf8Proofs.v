(** Only text is accepted by json_string. *)

From Coq Require Import Ascii String ZArith NArith Bool Arith Lia.
From Coq Require Import List.
From Verif Require Import Str JsonModel RecipeModel RecipeSpec RecipeProofs.
Import ListNotations.

Lemma div_part q r a : (r < a)%N -> ((q * a + r) / a = q)%N.
Proof. intro H. symmetry. apply (N.div_unique _ _ _ r); lia. Qed.

Lemma mod_part q r a : (r < a)%N -> ((q * a + r) mod a = r)%N.
Proof. intro H. symmetry. apply (N.mod_unique _ _ q); lia. Qed.

Lemma byte_is n c : n = N_of_ascii c -> ascii_of_N n = c.
Proof. intros ->. apply ascii_N_embedding. Qed.

Lemma text_cons v s : scalar_value v -> is_text s -> is_text (utf8_encode v ++ s).
Proof. intros S (vs & F & ->). exists (v :: vs). split; [now constructor|reflexivity]. Qed.

Lemma cont_byte c : (N.leb 128 (N_of_ascii c) && N.ltb (N_of_ascii c) 192)%bool = true -> (128 <= N_of_ascii c < 192)%N.
Proof. rewrite andb_true_iff, N.leb_le, N.ltb_lt. lia. Qed.

Lemma utf8_text fuel : forall s, utf8_check fuel s = true -> is_text s.
Proof.
  induction fuel as [|fuel IH]; intros [|c s] H; try (exists []; split; [constructor|reflexivity]); [discriminate|].
  cbn [utf8_check] in H. pose proof (N_ascii_bounded c) as BC. unfold utf8_length in H.
  destruct (N.ltb_spec (N_of_ascii c) 128) as [L|L].
  { replace (c :: s) with (utf8_encode (N_of_ascii c) ++ s).
    - apply text_cons; [left; lia|exact (IH _ H)].
    - unfold utf8_encode. destruct (N.ltb_spec (N_of_ascii c) 128); [|lia]. cbn. now rewrite ascii_N_embedding. }
  destruct (N.ltb_spec (N_of_ascii c) 194) as [L1|L1]; [discriminate|].
  destruct (N.ltb_spec (N_of_ascii c) 224) as [L2|L2].
  { destruct s as [|c1 s]; cbn [firstn utf8_value skipn length] in H; [discriminate|].
    destruct (N.leb 128 (N_of_ascii c1) && N.ltb (N_of_ascii c1) 192)%bool eqn:B1; [|discriminate]. apply cont_byte in B1.
    cbn [Nat.eqb] in H. rewrite !andb_true_iff in H. destruct H as [[_ V] H]. unfold utf8_valid_value in V.
    rewrite !andb_true_iff, !N.leb_le, negb_true_iff in V. destruct V as [[V1 _] V3].
    set (v := ((N_of_ascii c - 192) * 64 + (N_of_ascii c1 - 128))%N) in *.
    replace (c :: c1 :: s) with (utf8_encode v ++ s).
    - apply text_cons; [left; lia|exact (IH _ H)].
    - unfold utf8_encode. destruct (N.ltb_spec v 128); [lia|]. destruct (N.ltb_spec v 2048); [|lia]. cbn [map app].
      unfold v. rewrite div_part, mod_part by lia. rewrite (byte_is _ c) by lia. rewrite (byte_is _ c1) by lia. reflexivity. }
  destruct (N.ltb_spec (N_of_ascii c) 240) as [L3|L3].
  { destruct s as [|c1 [|c2 s]]; cbn [firstn utf8_value skipn length] in H; [discriminate| |].
    { destruct (N.leb 128 (N_of_ascii c1) && N.ltb (N_of_ascii c1) 192)%bool; discriminate. }
    destruct (N.leb 128 (N_of_ascii c1) && N.ltb (N_of_ascii c1) 192)%bool eqn:B1; [|discriminate]. apply cont_byte in B1.
    destruct (N.leb 128 (N_of_ascii c2) && N.ltb (N_of_ascii c2) 192)%bool eqn:B2; [|discriminate]. apply cont_byte in B2.
    cbn [Nat.eqb] in H. rewrite !andb_true_iff in H. destruct H as [[_ V] H]. unfold utf8_valid_value in V.
    rewrite !andb_true_iff, !N.leb_le, negb_true_iff, andb_false_iff, !N.leb_gt in V. destruct V as [[V1 V2] V3].
    set (v := (((N_of_ascii c - 224) * 64 + (N_of_ascii c1 - 128)) * 64 + (N_of_ascii c2 - 128))%N) in *.
    replace (c :: c1 :: c2 :: s) with (utf8_encode v ++ s).
    - apply text_cons; [|exact (IH _ H)]. destruct V2; [left|right]; lia.
    - unfold utf8_encode. destruct (N.ltb_spec v 128); [lia|]. destruct (N.ltb_spec v 2048); [lia|].
      destruct (N.ltb_spec v 65536); [|lia]. cbn [map app].
      change 4096%N with (64 * 64)%N. rewrite <- N.div_div by lia. unfold v. rewrite !div_part, !mod_part by lia.
      rewrite (byte_is _ c) by lia. rewrite (byte_is _ c1) by lia. rewrite (byte_is _ c2) by lia. reflexivity. }
  destruct (N.ltb_spec (N_of_ascii c) 245) as [L4|L4]; [|discriminate].
  destruct s as [|c1 [|c2 [|c3 s]]]; cbn [firstn utf8_value skipn length] in H; [discriminate| | |].
  { destruct (N.leb 128 (N_of_ascii c1) && N.ltb (N_of_ascii c1) 192)%bool; discriminate. }
  { destruct (N.leb 128 (N_of_ascii c1) && N.ltb (N_of_ascii c1) 192)%bool; [|discriminate].
    destruct (N.leb 128 (N_of_ascii c2) && N.ltb (N_of_ascii c2) 192)%bool; discriminate. }
  destruct (N.leb 128 (N_of_ascii c1) && N.ltb (N_of_ascii c1) 192)%bool eqn:B1; [|discriminate]. apply cont_byte in B1.
  destruct (N.leb 128 (N_of_ascii c2) && N.ltb (N_of_ascii c2) 192)%bool eqn:B2; [|discriminate]. apply cont_byte in B2.
  destruct (N.leb 128 (N_of_ascii c3) && N.ltb (N_of_ascii c3) 192)%bool eqn:B3; [|discriminate]. apply cont_byte in B3.
  cbn [Nat.eqb] in H. rewrite !andb_true_iff in H. destruct H as [[_ V] H]. unfold utf8_valid_value in V.
  rewrite !andb_true_iff, !N.leb_le, negb_true_iff in V. destruct V as [[V1 _] V3].
  set (v := ((((N_of_ascii c - 240) * 64 + (N_of_ascii c1 - 128)) * 64 + (N_of_ascii c2 - 128)) * 64 + (N_of_ascii c3 - 128))%N) in *.
  replace (c :: c1 :: c2 :: c3 :: s) with (utf8_encode v ++ s).
  - apply text_cons; [right; lia|exact (IH _ H)].
  - unfold utf8_encode. destruct (N.ltb_spec v 128); [lia|]. destruct (N.ltb_spec v 2048); [lia|].
    destruct (N.ltb_spec v 65536); [lia|]. cbn [map app].
    change 262144%N with (64 * 64 * 64)%N. change 4096%N with (64 * 64)%N. rewrite <- !N.div_div by lia. unfold v.
    rewrite !div_part, !mod_part by lia.
    rewrite (byte_is _ c) by lia. rewrite (byte_is _ c1) by lia. rewrite (byte_is _ c2) by lia. rewrite (byte_is _ c3) by lia.
    reflexivity.
Qed.

Lemma json_string_some s j : json_string s = Some j -> is_text s /\ j = JString s.
Proof.
  unfold json_string. destruct (utf8_check (length s) s) eqn:E; [|discriminate]. intro H. injection H as <-.
  split; [exact (utf8_text _ _ E)|reflexivity].
Qed.

Lemma json_string_not_text s : ~ is_text s -> json_string s = None.
Proof.
  intro N. destruct (json_string s) as [j|] eqn:E; [|reflexivity]. destruct (N (proj1 (json_string_some _ _ E))).
Qed.
