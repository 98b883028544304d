(** Proofs about values that are written as text. *)

From Coq Require Import Ascii String NArith ZArith Bool Decimal DecimalString DecimalPos DecimalN Lia Arith.
From Coq Require Import List.
From Verif Require Import Str Path PathProofs DbModel LoadModel ValueModel ValueSpec.
Import ListNotations.

(** ** Digits *)

Lemma digit_lt c d : digit c d -> d < 16.
Proof.
  intros [H | H]; change 16 with (length (lit "0123456789abcdef")) at 1 || idtac;
    (assert (E : nth_error (lit "0123456789abcdef") d <> None \/ nth_error (lit "0123456789ABCDEF") d <> None)
      by (rewrite H; (left; discriminate) || (right; discriminate)));
    destruct E as [E | E]; apply nth_error_Some in E; exact E.
Qed.

Lemma digit_nibble c d : digit c d -> to_nibble c = Some (N.of_nat d).
Proof.
  intro H. pose proof (digit_lt _ _ H) as L.
  do 16 (destruct d as [|d]; [destruct H as [H | H]; cbn in H; injection H as <-; reflexivity|]). lia.
Qed.

Lemma nibble_digit c n : to_nibble c = Some n -> digit c (N.to_nat n) /\ (n < 16)%N.
Proof.
  destruct c as [[] [] [] [] [] [] [] []]; intro H; vm_compute in H; try discriminate;
    injection H as <-; (split; [(left; reflexivity) || (right; reflexivity) | reflexivity]).
Qed.

Lemma digit_digit_value c d : digit c d -> digit_value c = Some (N.of_nat d).
Proof.
  intro H. pose proof (digit_lt _ _ H) as L.
  do 16 (destruct d as [|d]; [destruct H as [H | H]; cbn in H; injection H as <-; reflexivity|]). lia.
Qed.

Lemma digit_value_digit c n : digit_value c = Some n -> (n < 16)%N -> digit c (N.to_nat n).
Proof.
  destruct c as [[] [] [] [] [] [] [] []]; intros H L; vm_compute in H; try discriminate;
    injection H as <-; try (vm_compute in L; discriminate); (left; reflexivity) || (right; reflexivity).
Qed.

Lemma digit_in_spec base c d : (base <= 16)%N ->
  digit_in base c = Some d <-> digit c (N.to_nat d) /\ (d < base)%N.
Proof.
  intro B. unfold digit_in. split.
  - destruct (digit_value c) as [n|] eqn:E; [|discriminate].
    destruct (N.ltb_spec n base); [|discriminate]. injection 1 as <-.
    split; [apply digit_value_digit; [exact E|lia]|assumption].
  - intros [H L]. rewrite (digit_digit_value _ _ H), N2Nat.id.
    destruct (N.ltb_spec d base); [reflexivity|lia].
Qed.

(** ** Build ids *)

Lemma set_byte_app pre x post b k : k = length pre ->
  set_byte k b (pre ++ x :: post) = pre ++ b :: post.
Proof. intros ->. induction pre as [|y pre IH]; cbn; [reflexivity|now rewrite IH]. Qed.

Lemma nibbles_byte h l : (h < 16)%N -> (l < 16)%N ->
  N.lor (N.land (N.shiftl h 4) 255) l = (16 * h + l)%N.
Proof.
  assert (A : forallb (fun h => forallb (fun l => N.eqb (N.lor (N.land (N.shiftl h 4) 255) l) (16 * h + l))
                                  (map N.of_nat (seq 0 16))) (map N.of_nat (seq 0 16)) = true) by reflexivity.
  intros Hh Hl. rewrite forallb_forall in A. specialize (A h).
  rewrite forallb_forall in A.
  apply N.eqb_eq. apply A.
  - apply in_map_iff. exists (N.to_nat h). split; [apply N2Nat.id|]. apply in_seq. lia.
  - apply in_map_iff. exists (N.to_nat l). split; [apply N2Nat.id|]. apply in_seq. lia.
Qed.

Lemma digit_not_nul c d : digit c d -> Ascii.eqb c "000" = false.
Proof.
  intro H. pose proof (digit_lt _ _ H) as L.
  do 16 (destruct d as [|d]; [destruct H as [H | H]; cbn in H; injection H as <-; reflexivity|]). lia.
Qed.

Lemma id_loop_spells b : forall s pre v,
  spells s b -> length pre + length b = id_size ->
  exists v', forall rest,
    id_loop (s ++ rest) (2 * length pre) v (pre ++ repeat 0%N (length b)) = id_loop rest (2 * id_size) v' (pre ++ b).
Proof.
  induction b as [|x b IH]; intros s pre v [L S] E.
  - destruct s; [|discriminate]. exists v. intro rest. cbn [length repeat app].
    rewrite app_nil_r. cbn in E. now rewrite Nat.add_0_r in E; rewrite E.
  - cbn [length] in L, E. destruct s as [|c1 [|c2 s]]; cbn [length] in L; try lia.
    destruct (S 0 x eq_refl) as (d1 & d2 & h & l & A & B & D1 & D2 & ->).
    cbn in A, B. injection A as <-. injection B as <-.
    assert (S' : spells s b).
    { split; [lia|]. intros i y Y. destruct (S (Datatypes.S i) y Y) as (e1 & e2 & h' & l' & A & B & rest).
      exists e1, e2, h', l'. replace (2 * Datatypes.S i) with (Datatypes.S (Datatypes.S (2 * i))) in A by lia.
      replace (2 * Datatypes.S i + 1) with (Datatypes.S (Datatypes.S (2 * i + 1))) in B by lia.
      split; [exact A|]. split; [exact B|exact rest]. }
    specialize (IH s (pre ++ [N.of_nat (16 * h + l)]) (N.of_nat (16 * h + l)) S').
    destruct IH as (v' & IH). { rewrite app_length. cbn. lia. }
    exists v'. intro rest. specialize (IH rest).
    rewrite app_length in IH. cbn [length] in IH.
    pose proof (digit_lt _ _ D1). pose proof (digit_lt _ _ D2).
    cbn [app id_loop length repeat].
    rewrite (digit_not_nul _ _ D1), (digit_not_nul _ _ D2), (digit_nibble _ _ D1), (digit_nibble _ _ D2).
    assert (K1 : Nat.eqb (2 * length pre) (2 * id_size) = false) by (apply Nat.eqb_neq; lia).
    assert (K2 : Nat.eqb (Datatypes.S (2 * length pre)) (2 * id_size) = false) by (apply Nat.eqb_neq; lia).
    rewrite K1, K2. cbn [orb].
    assert (O1 : Nat.odd (2 * length pre) = false).
    { rewrite Nat.odd_mul. reflexivity. }
    assert (O2 : Nat.odd (Datatypes.S (2 * length pre)) = true).
    { rewrite Nat.odd_succ, Nat.even_mul. reflexivity. }
    rewrite O1, O2. rewrite nibbles_byte by lia.
    rewrite (set_byte_app pre) by (rewrite Nat.div2_succ_double; reflexivity).
    replace (2 * (length pre + 1)) with (Datatypes.S (Datatypes.S (2 * length pre))) in IH by lia.
    rewrite <- !app_assoc in IH. cbn [app] in IH.
    replace (16 * N.of_nat h + N.of_nat l)%N with (N.of_nat (16 * h + l)) by lia.
    exact IH.
Qed.

Lemma id_loop_end rest v b : id_loop rest (2 * id_size) v b = Some b.
Proof. destruct rest as [|c rest]; [reflexivity|]. cbn [id_loop]. rewrite Nat.eqb_refl, orb_true_r. reflexivity. Qed.

Lemma id_of_spelling s b rest : build_id b -> spells s b -> id_of_string (s ++ rest) = Some b.
Proof.
  intros [L _] S. unfold id_of_string.
  destruct (id_loop_spells b s [] 0%N S) as (v' & H); [exact L|].
  specialize (H rest). cbn [length app] in H. rewrite L in H.
  rewrite id_loop_end in H. exact H.
Qed.

Lemma lut_digit n : (n < 16)%N -> digit (nth (N.to_nat n) val_lut Ascii.zero) (N.to_nat n).
Proof.
  intro H. left. change (lit "0123456789abcdef") with val_lut. apply nth_error_nth'.
  change (length val_lut) with 16. lia.
Qed.

Lemma byte_parts x : (x < 256)%N ->
  N.shiftr (N.land x 240) 4 = (x / 16)%N /\ N.land x 15 = (x mod 16)%N.
Proof.
  assert (A : forallb (fun x => N.eqb (N.shiftr (N.land x 240) 4) (x / 16) && N.eqb (N.land x 15) (x mod 16))
                (map N.of_nat (seq 0 256)) = true) by reflexivity.
  intro H. rewrite forallb_forall in A. specialize (A x).
  destruct (andb_prop _ _ (A ltac:(apply in_map_iff; exists (N.to_nat x); split; [apply N2Nat.id|apply in_seq; lia]))) as [P Q].
  apply N.eqb_eq in P. apply N.eqb_eq in Q. now split.
Qed.

Lemma id_to_string_spells b : Forall (fun x => (x < 256)%N) b -> spells (id_to_string b) b.
Proof.
  induction b as [|x b IH]; intro F.
  - split; [reflexivity|]. intros [|i] y; discriminate.
  - inversion F as [|? ? X F']; subst. destruct (IH F') as [L S].
    destruct (byte_parts x X) as [P Q]. split.
    + cbn [id_to_string flat_map app length]. unfold id_to_string in L. rewrite L. lia.
    + intros [|i] y Y.
      * cbn in Y. injection Y as <-.
        exists (nth (N.to_nat (x / 16)) val_lut Ascii.zero), (nth (N.to_nat (x mod 16)) val_lut Ascii.zero),
          (N.to_nat (x / 16)), (N.to_nat (x mod 16)).
        cbn [id_to_string flat_map app Nat.mul Nat.add nth_error]. rewrite P, Q.
        assert (x / 16 < 16)%N by (apply N.div_lt_upper_bound; lia).
        assert (x mod 16 < 16)%N by (apply N.mod_upper_bound; lia).
        split; [reflexivity|]. split; [reflexivity|].
        split; [now apply lut_digit|]. split; [now apply lut_digit|].
        pose proof (N.div_mod x 16 ltac:(lia)). lia.
      * destruct (S i y Y) as (c1 & c2 & h & l & A & B & rest).
        exists c1, c2, h, l. replace (2 * Datatypes.S i) with (Datatypes.S (Datatypes.S (2 * i))) by lia.
        replace (Datatypes.S (Datatypes.S (2 * i)) + 1) with (Datatypes.S (Datatypes.S (2 * i + 1))) by lia.
        split; [exact A|]. split; [exact B|exact rest].
Qed.

Lemma id_round_trip b : build_id b -> id_of_string (id_to_string b) = Some b.
Proof.
  intro B. rewrite <- (app_nil_r (id_to_string b)). apply id_of_spelling; [exact B|].
  apply id_to_string_spells, B.
Qed.

Lemma hexadecimal_nibble c : hexadecimal c <-> to_nibble c <> None.
Proof.
  split.
  - intros (d & D). rewrite (digit_nibble _ _ D). discriminate.
  - destruct (to_nibble c) as [n|] eqn:E; [|congruence]. intros _. exists (N.to_nat n). now apply nibble_digit.
Qed.

Lemma id_loop_none s : forall k v b, k <= 2 * id_size -> ~ In "000"%char s ->
  id_loop s k v b = None <->
  exists c, In c (firstn (2 * id_size - k) s) /\ ~ hexadecimal c.
Proof.
  induction s as [|c s IH]; intros k v b K N0.
  - cbn [id_loop]. rewrite firstn_nil. split; [discriminate|]. intros (c & [] & _).
  - assert (C0 : Ascii.eqb c "000" = false).
    { apply Ascii.eqb_neq. intros ->. apply N0. now left. }
    assert (N1 : ~ In "000"%char s) by (intro; apply N0; now right).
    cbn [id_loop]. rewrite C0. cbn [orb].
    destruct (Nat.eqb_spec k (2 * id_size)) as [-> | NE].
    + rewrite Nat.sub_diag. cbn [firstn]. split; [discriminate|]. intros (x & [] & _).
    + replace (2 * id_size - k) with (S (2 * id_size - S k)) by lia. cbn [firstn].
      destruct (to_nibble c) as [n|] eqn:E.
      * assert (Hc : hexadecimal c) by (apply hexadecimal_nibble; congruence).
        assert (R : (exists x, In x (c :: firstn (2 * id_size - S k) s) /\ ~ hexadecimal x) <->
                    (exists x, In x (firstn (2 * id_size - S k) s) /\ ~ hexadecimal x)).
        { split; intros (x & I & H); exists x; (split; [|exact H]).
          - destruct I as [<- | I]; [contradiction|exact I].
          - now right. }
        rewrite R. destruct (Nat.odd k); apply IH; (lia || assumption).
      * split; [intros _|reflexivity]. exists c. split; [now left|].
        rewrite hexadecimal_nibble. congruence.
Qed.

Lemma id_rejected s : ~ In "000"%char s ->
  id_of_string s = None <-> exists c, In c (firstn 64 s) /\ ~ hexadecimal c.
Proof. intro H. apply (id_loop_none s 0); [cbn; lia|exact H]. Qed.

(** ** Numerals *)

Definition step_value (base : N) (a : N) (c : ascii) : N :=
  match digit_in base c with Some d => (base * a + d)%N | None => a end.

Definition value_of (base : N) (s : str) (acc : N) : N := fold_left (step_value base) s acc.

Definition all_digits (base : N) (s : str) : Prop := Forall (fun c => digit_in base c <> None) s.

Definition no_digit_first (base : N) (s : str) : Prop :=
  match s with c :: _ => digit_in base c = None | [] => True end.

Lemma scan_digits_app base s1 : forall s2 acc count, all_digits base s1 -> no_digit_first base s2 ->
  scan_digits base (s1 ++ s2) acc count = (value_of base s1 acc, count + length s1, s2).
Proof.
  induction s1 as [|c s1 IH]; intros s2 acc count A F.
  - cbn. rewrite Nat.add_0_r. destruct s2 as [|c s2]; [reflexivity|]. cbn in F. cbn. now rewrite F.
  - inversion A as [|? ? C A']; subst. cbn [app scan_digits value_of fold_left length].
    unfold step_value at 2. destruct (digit_in base c) as [d|]; [|congruence].
    rewrite IH by assumption. unfold value_of. f_equal. f_equal. lia.
Qed.

Lemma split_digits base s : exists s1 s2, s = s1 ++ s2 /\ all_digits base s1 /\ no_digit_first base s2.
Proof.
  induction s as [|c s (s1 & s2 & -> & A & F)].
  - exists [], []. repeat split. constructor.
  - destruct (digit_in base c) as [d|] eqn:E.
    + exists (c :: s1), s2. split; [reflexivity|]. split; [|exact F]. constructor; [congruence|exact A].
    + exists [], (c :: s1 ++ s2). split; [reflexivity|]. split; [constructor|exact E].
Qed.

Lemma value_snoc base s c acc : value_of base (s ++ [c]) acc = step_value base (value_of base s acc) c.
Proof. unfold value_of. now rewrite fold_left_app. Qed.

Lemma numeral_value base s n : (base <= 16)%N ->
  numeral (N.to_nat base) s n <-> s <> [] /\ all_digits base s /\ n = Z.of_N (value_of base s 0).
Proof.
  intro B. split.
  - induction 1 as [c d D L|s n c d _ (NE & A & ->) D L].
    + assert (E : digit_in base c = Some (N.of_nat d)).
      { apply digit_in_spec; [exact B|]. rewrite Nat2N.id. split; [exact D|lia]. }
      split; [discriminate|]. split; [constructor; [congruence|constructor]|].
      cbn. unfold step_value. rewrite E. lia.
    + assert (E : digit_in base c = Some (N.of_nat d)).
      { apply digit_in_spec; [exact B|]. rewrite Nat2N.id. split; [exact D|lia]. }
      split; [now destruct s|]. split.
      * apply Forall_app. split; [exact A|]. constructor; [congruence|constructor].
      * rewrite value_snoc. unfold step_value. rewrite E. lia.
  - revert n. induction s as [|c s IH] using rev_ind; intros n (NE & A & ->); [congruence|].
    apply Forall_app in A. destruct A as [A C]. inversion C as [|? ? C' _]; subst.
    destruct (digit_in base c) as [d|] eqn:E; [|congruence].
    pose proof E as E'. apply digit_in_spec in E'; [|exact B]. destruct E' as [D L].
    rewrite value_snoc. unfold step_value. rewrite E.
    destruct s as [|c0 s].
    + cbn [app value_of fold_left]. replace (Z.of_N (base * 0 + d)) with (Z.of_nat (N.to_nat d)) by lia.
      constructor; [exact D|lia].
    + replace (Z.of_N (base * value_of base (c0 :: s) 0 + d))
        with (Z.of_nat (N.to_nat base) * Z.of_N (value_of base (c0 :: s) 0) + Z.of_nat (N.to_nat d))%Z
        by lia.
      constructor; [|exact D|lia]. apply IH. split; [discriminate|]. split; [exact A|reflexivity].
Qed.

(** ** Decimal notation *)

Definition digits (d : uint) : str := lit (NilEmpty.string_of_uint d).

Lemma digits_all d : all_digits 10 (digits d).
Proof. unfold digits, lit. induction d; cbn; constructor; (exact IHd || discriminate). Qed.

Lemma digits_acc d : forall p, value_of 10 (digits d) (N.pos p) = N.pos (Pos.of_uint_acc d p).
Proof.
  induction d; intro p; [reflexivity|..];
    unfold digits, lit, value_of in *; cbn [NilEmpty.string_of_uint list_ascii_of_string fold_left Pos.of_uint_acc];
    rewrite <- IHd; f_equal; unfold step_value;
    match goal with |- context [digit_in 10 ?c] =>
      let e := eval vm_compute in (digit_in 10 c) in change (digit_in 10 c) with e end;
    cbv beta iota; lia.
Qed.

Lemma digits_value d : value_of 10 (digits d) 0 = Pos.of_uint d.
Proof.
  induction d; [reflexivity|..];
    unfold digits, lit, value_of in *; cbn [NilEmpty.string_of_uint list_ascii_of_string fold_left Pos.of_uint];
    [exact IHd|..];
    rewrite <- digits_acc; reflexivity.
Qed.

Lemma decimal_pos p :
  decimal (Z.pos p) = digits (Pos.to_uint p) /\
  exists c s, digits (Pos.to_uint p) = c :: s /\ c <> "0"%char.
Proof.
  pose proof (DecimalPos.Unsigned.of_to p) as O.
  pose proof (DecimalPos.Unsigned.to_of (Pos.to_uint p)) as T.
  rewrite O in T. cbn [N.to_uint] in T.
  unfold decimal. cbn [Z.to_int NilZero.string_of_int].
  destruct (Pos.to_uint p) as [|u|u|u|u|u|u|u|u|u|u] eqn:E; [discriminate O|..];
    try (split; [reflexivity|]; eexists; eexists; split; [reflexivity|discriminate]).
  exfalso. unfold unorm in T.
  assert (Z0 : Pos.of_uint (D0 u) <> 0%N) by (rewrite O; discriminate).
  cbn [nzhead] in T.
  assert (NZ : forall w, nzhead w <> D0 u).
  { intros w. induction w; cbn; try discriminate. exact IHw. }
  specialize (NZ u). destruct (nzhead u) eqn:W; try discriminate T; [|congruence].
  injection T as ->. discriminate O.
Qed.

Lemma decimal_natural z : (0 <= z)%Z ->
  all_digits 10 (decimal z) /\ value_of 10 (decimal z) 0 = Z.to_N z /\
  exists c s, decimal z = c :: s /\ (c = "0"%char -> z = 0%Z /\ s = []).
Proof.
  destruct z as [|p|p]; intro H; [|clear H|lia].
  - split; [repeat constructor; discriminate|]. split; [reflexivity|].
    exists "0"%char, []. split; [reflexivity|]. intros _. split; reflexivity.
  - destruct (decimal_pos p) as (E & c & s & D & C). rewrite E.
    split; [apply digits_all|]. split.
    + rewrite digits_value, DecimalPos.Unsigned.of_to. reflexivity.
    + exists c, s. split; [exact D|]. intro; contradiction.
Qed.

Lemma decimal_numeral z : (0 <= z)%Z -> numeral 10 (decimal z) z.
Proof.
  intro H. destruct (decimal_natural z H) as (A & V & c & s & E & _).
  apply (numeral_value 10); [lia|]. split; [rewrite E; discriminate|]. split; [exact A|].
  rewrite V. lia.
Qed.

Lemma decimal_negative z : (z < 0)%Z -> decimal z = "-"%char :: decimal (- z).
Proof.
  destruct z as [|p|p]; intro H; [lia|lia|]. cbn [Z.opp].
  reflexivity.
Qed.

Lemma decimal_integer z : with_sign (numeral 10) (decimal z) z.
Proof.
  destruct (Z.ltb_spec z 0) as [H | H].
  - rewrite (decimal_negative z H). rewrite <- (Z.opp_involutive z) at 2. apply minus_sign.
    apply decimal_numeral. lia.
  - constructor. now apply decimal_numeral.
Qed.

(** ** Reading numbers *)

Lemma white_space c : is_space c = true <-> white c.
Proof.
  split.
  - destruct c as [[] [] [] [] [] [] [] []]; intro H; vm_compute in H; try discriminate; vm_compute; tauto.
  - intros H. cbn in H. repeat (destruct H as [<- | H]; [reflexivity|]). contradiction.
Qed.

Lemma skip_space_app ws s : Forall white ws ->
  match s with c :: _ => is_space c = false | [] => True end -> skip_space (ws ++ s) = s.
Proof.
  induction 1 as [|c ws W _ IH]; intro F.
  - destruct s as [|c s]; [reflexivity|]. cbn. now rewrite F.
  - cbn. apply white_space in W. rewrite W. now apply IH.
Qed.

Lemma skip_space_split s : exists ws, s = ws ++ skip_space s /\ Forall white ws.
Proof.
  induction s as [|c s (ws & E & W)]; [exists []; split; [reflexivity|constructor]|].
  cbn. destruct (is_space c) eqn:C.
  - exists (c :: ws). split; [cbn; now rewrite E at 1|]. constructor; [now apply white_space|exact W].
  - exists []. split; [reflexivity|constructor].
Qed.

Lemma digit_plain base c d : digit_in base c = Some d ->
  is_space c = false /\ Ascii.eqb c "-" = false /\ Ascii.eqb c "+" = false.
Proof.
  unfold digit_in. destruct c as [[] [] [] [] [] [] [] []]; intro H;
    try (repeat split; reflexivity); cbn in H; discriminate.
Qed.

(** What [strto] does with white space, a sign and digits. *)
Definition plain_number (base : N) (neg : bool) (t : str) : option (Z * str) :=
  match scan_digits base t 0 0 with
  | (_, O, _) => None
  | (n, S _, rest) => Some (signed neg n, rest)
  end.

Lemma plain_number_some base neg t z rest : (base <= 16)%N ->
  plain_number base neg t = Some (z, rest) ->
  exists body n, t = body ++ rest /\ numeral (N.to_nat base) body n /\ z = (if neg then - n else n)%Z /\
    no_digit_first base rest.
Proof.
  intros B. unfold plain_number. destruct (split_digits base t) as (s1 & s2 & -> & A & F).
  rewrite scan_digits_app by assumption. destruct s1 as [|c s1]; [discriminate|].
  cbn [length Nat.add]. intro H. injection H as <- <-.
  exists (c :: s1), (Z.of_N (value_of base (c :: s1) 0)).
  split; [reflexivity|]. split; [|now destruct neg].
  apply numeral_value; [exact B|]. split; [discriminate|]. split; [exact A|reflexivity].
Qed.

Lemma plain_number_body base neg body rest n : (base <= 16)%N ->
  numeral (N.to_nat base) body n -> no_digit_first base rest ->
  plain_number base neg (body ++ rest) = Some ((if neg then - n else n)%Z, rest).
Proof.
  intros B H F. apply numeral_value in H; [|exact B]. destruct H as (NE & A & ->).
  unfold plain_number. rewrite scan_digits_app by assumption. destruct body; [congruence|].
  cbn [length Nat.add]. now destruct neg.
Qed.

Lemma plain_number_none base neg t : plain_number base neg t = None <-> no_digit_first base t.
Proof.
  unfold plain_number. destruct (split_digits base t) as (s1 & s2 & -> & A & F).
  rewrite scan_digits_app by assumption. destruct s1 as [|c s1].
  - cbn. split; [intros _; exact F|reflexivity].
  - cbn [length Nat.add app no_digit_first]. split; [discriminate|].
    inversion A. contradiction.
Qed.

Definition sign_text (neg : bool) (sg : str) : Prop :=
  (neg = true /\ sg = lit "-") \/ (neg = false /\ (sg = [] \/ sg = lit "+")).

Lemma scan_sign_split s : exists sg, s = sg ++ snd (scan_sign s) /\ sign_text (fst (scan_sign s)) sg.
Proof.
  destruct s as [|c s]; [exists []; split; [reflexivity|right; tauto]|].
  cbn. destruct (Ascii.eqb_spec c "-"); [exists (lit "-"); subst; split; [reflexivity|left; split; reflexivity]|].
  destruct (Ascii.eqb_spec c "+"); [exists (lit "+"); subst; split; [reflexivity|right; tauto]|].
  exists []. split; [reflexivity|right; tauto].
Qed.

Lemma scan_sign_app neg sg t : sign_text neg sg ->
  match t with c :: _ => Ascii.eqb c "-" = false /\ Ascii.eqb c "+" = false | [] => True end ->
  scan_sign (sg ++ t) = (neg, t).
Proof.
  intros [[-> ->] | [-> [-> | ->]]] F; try reflexivity.
  destruct t as [|c t]; [reflexivity|]. cbn. destruct F as [-> ->]. reflexivity.
Qed.

Lemma sign_not_space neg sg t : sign_text neg sg ->
  match t with c :: _ => is_space c = false | [] => True end ->
  match sg ++ t with c :: _ => is_space c = false | [] => True end.
Proof. intros [[-> ->] | [-> [-> | ->]]] F; try reflexivity. exact F. Qed.

Lemma with_sign_iff (P : str -> Z -> Prop) s z :
  with_sign P s z <-> exists neg sg body n, s = sg ++ body /\ sign_text neg sg /\ P body n /\ z = (if neg then - n else n)%Z.
Proof.
  split.
  - intros [t n H | t n H | t n H].
    + exists false, [], t, n. repeat split; [right; tauto|exact H].
    + exists false, (lit "+"), t, n. repeat split; [right; tauto|exact H].
    + exists true, (lit "-"), t, n. repeat split; [left; tauto|exact H].
  - intros (neg & sg & body & n & -> & [[-> ->] | [-> [-> | ->]]] & H & ->); cbn; [now apply minus_sign|now apply no_sign|now apply plus_sign].
Qed.

Lemma strto10 s : strto 10 s = plain_number 10 (fst (scan_sign (skip_space s))) (snd (scan_sign (skip_space s))).
Proof. unfold strto. destruct (scan_sign (skip_space s)) as [neg t]. reflexivity. Qed.

Lemma numeral_first base body n : (base <= 16)%N -> numeral (N.to_nat base) body n ->
  exists c t d, body = c :: t /\ digit_in base c = Some d.
Proof.
  intros B H. apply numeral_value in H; [|exact B]. destruct H as (NE & A & _).
  destruct body as [|c t]; [congruence|]. inversion A as [|? ? C _]; subst.
  destruct (digit_in base c) as [d|] eqn:E; [|congruence]. exists c, t, d. split; [reflexivity|exact E].
Qed.

Lemma strto10_some ws s rest z : Forall white ws -> with_sign (numeral 10) s z -> no_digit_first 10 rest ->
  strto 10 (ws ++ s ++ rest) = Some (z, rest).
Proof.
  intros W H F. apply with_sign_iff in H. destruct H as (neg & sg & body & n & -> & S & H & ->).
  destruct (numeral_first 10 body n ltac:(lia) H) as (c & t & d & -> & D).
  destruct (digit_plain _ _ _ D) as (P1 & P2 & P3).
  rewrite strto10. rewrite skip_space_app; [|exact W|].
  - rewrite <- app_assoc. rewrite (scan_sign_app neg sg); [|exact S|split; assumption].
    cbn [fst snd]. now apply (plain_number_body 10); [lia| |].
  - rewrite <- app_assoc. apply (sign_not_space neg); [exact S|exact P1].
Qed.

Lemma strto10_inv s z rest : strto 10 s = Some (z, rest) ->
  exists ws t, s = ws ++ t ++ rest /\ Forall white ws /\ with_sign (numeral 10) t z /\ no_digit_first 10 rest.
Proof.
  rewrite strto10. intro H. apply plain_number_some in H; [|lia].
  destruct H as (body & n & E & H & -> & F).
  destruct (skip_space_split s) as (ws & E1 & W).
  destruct (scan_sign_split (skip_space s)) as (sg & E2 & S).
  exists ws, (sg ++ body). split; [rewrite E1 at 1; rewrite E2 at 1; rewrite E at 1; rewrite <- app_assoc; reflexivity|].
  split; [exact W|]. split; [|exact F].
  apply with_sign_iff. eexists _, _, _, _. split; [reflexivity|]. split; [exact S|]. split; [exact H|reflexivity].
Qed.

(** ** Thread counts *)

Lemma auto_no_number ws t rest z : with_sign (numeral 10) t z -> Forall white ws ->
  str_eqb (ws ++ t ++ rest) (lit "auto") = false.
Proof.
  intros H W. apply with_sign_iff in H. destruct H as (neg & sg & body & n & -> & S & H & _).
  destruct (numeral_first 10 body n ltac:(lia) H) as (c & t & d & -> & D).
  destruct ws as [|w ws].
  - cbn [app]. destruct S as [[_ ->] | [_ [-> | ->]]]; try reflexivity.
    cbn [app str_eqb lit list_ascii_of_string].
    destruct (Ascii.eqb_spec c "a") as [->|]; [discriminate D|reflexivity].
  - cbn [app str_eqb lit list_ascii_of_string].
    destruct (Ascii.eqb_spec w "a") as [->|]; [|reflexivity].
    inversion W as [|? ? X _]; subst. apply white_space in X. discriminate X.
Qed.

Lemma thread_count_number ws t rest z : Forall white ws -> with_sign (numeral 10) t z -> no_digit_first 10 rest ->
  (int_min <= z <= int_max)%Z ->
  thread_count_of_string (ws ++ t ++ rest) = (if (z <? 1)%Z then Rejected else Accepted z).
Proof.
  intros W H F R. unfold thread_count_of_string.
  rewrite (auto_no_number ws t rest z H W). unfold atoi.
  rewrite (strto10_some ws t rest z W H F).
  assert (E : (int_min <=? z)%Z && (z <=? int_max)%Z = true).
  { apply andb_true_intro. split; apply Z.leb_le; lia. }
  rewrite E. reflexivity.
Qed.

Lemma thread_count_round_trip v : (v = -1 \/ 1 <= v <= int_max)%Z ->
  thread_count_of_string (thread_count_to_string v) = Accepted v.
Proof.
  intros [-> | H]; [reflexivity|]. unfold thread_count_to_string.
  destruct (Z.ltb_spec v 0); [lia|].
  pose proof (thread_count_number [] (decimal v) [] v (Forall_nil _) (decimal_integer v) I) as E.
  rewrite app_nil_r in E. cbn [app] in E. rewrite E by (unfold int_min, int_max in *; lia).
  destruct (Z.ltb_spec v 1); [lia|reflexivity].
Qed.

Lemma thread_count_accepted s v : thread_count_of_string s = Accepted v ->
  (s = lit "auto" /\ v = (-1)%Z) \/
  ((1 <= v <= int_max)%Z /\
   exists ws t rest, s = ws ++ t ++ rest /\ Forall white ws /\ with_sign (numeral 10) t v /\
     no_digit_first 10 rest).
Proof.
  unfold thread_count_of_string. destruct (str_eqb s (lit "auto")) eqn:A.
  - intro H. injection H as <-. left. apply str_eqb_eq in A. tauto.
  - unfold atoi. destruct (strto 10 s) as [[z rest]|] eqn:E; [|cbn; discriminate].
    destruct ((int_min <=? z)%Z && (z <=? int_max)%Z) eqn:R; [|discriminate].
    destruct (Z.ltb_spec z 1); [discriminate|]. intro H'. injection H' as <-. right.
    apply andb_prop in R. destruct R as [_ R]. apply Z.leb_le in R. split; [lia|].
    destruct (strto10_inv s z rest E) as (ws & t & -> & W & T & F).
    exists ws, t, rest. tauto.
Qed.

Lemma no_digit_first_iff rest : no_digit_first 10 rest ->
  match rest with c :: _ => forall d, digit c d -> 10 <= d | [] => True end.
Proof.
  destruct rest as [|c rest]; [tauto|]. cbn [no_digit_first]. intros N d D.
  destruct (Nat.le_gt_cases 10 d) as [|L]; [assumption|exfalso].
  assert (E : digit_in 10 c = Some (N.of_nat d)).
  { apply digit_in_spec; [lia|]. rewrite Nat2N.id. split; [exact D|lia]. }
  congruence.
Qed.

Lemma thread_count_accepted_digits s v : thread_count_of_string s = Accepted v ->
  (s = lit "auto" /\ v = (-1)%Z) \/
  ((1 <= v <= int_max)%Z /\
   exists ws t rest, s = ws ++ t ++ rest /\ Forall white ws /\ with_sign (numeral 10) t v /\
     match rest with c :: _ => forall d, digit c d -> 10 <= d | [] => True end).
Proof.
  intro H. destruct (thread_count_accepted s v H) as [A | (R & ws & t & rest & A & B & C & D)]; [now left|].
  right. split; [exact R|]. exists ws, t, rest. pose proof (no_digit_first_iff rest D). tauto.
Qed.

Lemma thread_count_positive s v nprocs : thread_count_of_string s = Accepted v ->
  (1 <= thread_count_value nprocs v)%Z.
Proof.
  intro H. unfold thread_count_value. destruct (thread_count_accepted s v H) as [[_ ->] | [R _]].
  - cbn. lia.
  - destruct (Z.ltb_spec v 0); lia.
Qed.
