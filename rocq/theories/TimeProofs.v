(** Proofs about time stamps and enumerated settings. *)

From Coq Require Import Ascii String NArith ZArith Bool Lia Arith.
From Coq Require Import List.
From Verif Require Import Str Path PathProofs DbModel LoadModel ValueModel ValueSpec ValueProofs.
Import ListNotations.

(** ** Reading time stamps *)

Definition constant_number (neg : bool) (t : str) : option (Z * str) :=
  match t with
  | z :: x :: t' =>
      if Ascii.eqb z "0" then
        if Ascii.eqb x "x" || Ascii.eqb x "X" then
          match plain_number 16 neg t' with
          | None => plain_number 8 neg t
          | r => r
          end
        else plain_number 8 neg t
      else plain_number 10 neg t
  | _ => plain_number 10 neg t
  end.

Lemma strto0 s : strto 0 s = constant_number (fst (scan_sign (skip_space s))) (snd (scan_sign (skip_space s))).
Proof.
  unfold strto. destruct (scan_sign (skip_space s)) as [neg t]. cbn [N.eqb fst snd].
  destruct t as [|z [|x t']]; [reflexivity..|]. cbn [constant_number].
  destruct (Ascii.eqb z "0"); [|reflexivity].
  destruct (Ascii.eqb x "x" || Ascii.eqb x "X"); [|reflexivity].
  unfold plain_number at 1. destruct (scan_digits 16 t' 0 0) as [[n [|k]] rest]; reflexivity.
Qed.

Lemma numeral_not_in base body n c : (base <= 16)%N -> numeral (N.to_nat base) body n ->
  In c body -> digit_in base c <> None.
Proof.
  intros B H I. apply numeral_value in H; [|exact B]. destruct H as (_ & A & _).
  unfold all_digits in A. rewrite Forall_forall in A. now apply A.
Qed.

Lemma plain_whole base neg t z : (base <= 16)%N ->
  plain_number base neg t = Some (z, []) -> exists n, numeral (N.to_nat base) t n /\ z = (if neg then - n else n)%Z.
Proof.
  intros B H. apply plain_number_some in H; [|exact B]. destruct H as (body & n & -> & H & -> & _).
  exists n. rewrite app_nil_r. split; [exact H|reflexivity].
Qed.

Lemma constant_whole neg t z : constant_number neg t = Some (z, []) ->
  exists n, c_constant t n /\ z = (if neg then - n else n)%Z.
Proof.
  destruct t as [|c [|x t']].
  - intro H. discriminate H.
  - cbn [constant_number]. intro H. apply (plain_whole 10) in H; [|lia]. destruct H as (n & H & E).
    exists n. split; [|exact E]. destruct (Ascii.eqb_spec c "0") as [-> | NE].
    + apply c_octal. apply (numeral_value 8); [lia|]. apply (numeral_value 10) in H; [|lia].
      destruct H as (_ & _ & V). split; [discriminate|]. split; [constructor; [discriminate|constructor]|exact V].
    + now apply c_decimal.
  - cbn [constant_number]. destruct (Ascii.eqb_spec c "0") as [-> | NE].
    + destruct (Ascii.eqb x "x" || Ascii.eqb x "X") eqn:X.
      * assert (X' : x = "x"%char \/ x = "X"%char).
        { apply orb_prop in X. destruct X as [X | X]; apply Ascii.eqb_eq in X; tauto. }
        destruct (plain_number 16 neg t') as [r|] eqn:P.
        -- intro H. injection H as ->. apply (plain_whole 16) in P; [|lia]. destruct P as (n & P & E).
           exists n. split; [|exact E]. now apply c_hexadecimal.
        -- intro H. apply (plain_whole 8) in H; [|lia]. destruct H as (n & H & _). exfalso.
           apply (numeral_not_in 8 _ n x ltac:(lia) H); [right; now left|].
           destruct X' as [-> | ->]; reflexivity.
      * intro H. apply (plain_whole 8) in H; [|lia]. destruct H as (n & H & E).
        exists n. split; [|exact E]. now apply c_octal.
    + intro H. apply (plain_whole 10) in H; [|lia]. destruct H as (n & H & E).
      exists n. split; [|exact E]. now apply c_decimal.
Qed.

Lemma plain_body base neg body n : (base <= 16)%N -> numeral (N.to_nat base) body n ->
  plain_number base neg body = Some ((if neg then - n else n)%Z, []).
Proof.
  intros B H. rewrite <- (app_nil_r body) at 1. now apply plain_number_body.
Qed.

Lemma constant_body neg t n : c_constant t n ->
  constant_number neg t = Some ((if neg then - n else n)%Z, []).
Proof.
  intros [c s m NE H | s m H | s m x X H].
  - destruct s as [|x s]; cbn [constant_number]; [now apply (plain_body 10); [lia|]|].
    destruct (Ascii.eqb_spec c "0"); [contradiction|]. now apply (plain_body 10); [lia|].
  - destruct s as [|x s]; cbn [constant_number].
    + assert (H' : numeral (N.to_nat 10) ["0"%char] m).
      { apply numeral_value; [lia|]. apply (numeral_value 8) in H; [|lia]. destruct H as (_ & _ & V).
        split; [discriminate|]. split; [constructor; [discriminate|constructor]|exact V]. }
      now apply (plain_body 10); [lia|].
    + cbn. assert (XX : Ascii.eqb x "x" || Ascii.eqb x "X" = false).
      { pose proof (numeral_not_in 8 _ m x ltac:(lia) H ltac:(right; now left)) as D.
        destruct (Ascii.eqb_spec x "x") as [-> |]; [exfalso; apply D; reflexivity|].
        destruct (Ascii.eqb_spec x "X") as [-> |]; [exfalso; apply D; reflexivity|]. reflexivity. }
      rewrite XX. now apply (plain_body 8); [lia|].
  - cbn [constant_number]. cbn [Ascii.eqb]. change (Ascii.eqb "0" "0") with true. cbv iota.
    assert (XX : Ascii.eqb x "x" || Ascii.eqb x "X" = true) by (destruct X as [-> | ->]; reflexivity).
    rewrite XX. rewrite (plain_body 16 neg s m ltac:(lia) H). reflexivity.
Qed.

Lemma constant_first t n : c_constant t n ->
  exists c t', t = c :: t' /\ is_space c = false /\ Ascii.eqb c "-" = false /\ Ascii.eqb c "+" = false.
Proof.
  intros [c s m NE H | s m H | s m x X H].
  - destruct (numeral_first 10 _ m ltac:(lia) H) as (c' & t' & d & E & D). injection E as <- <-.
    exists c, s. split; [reflexivity|]. exact (digit_plain _ _ _ D).
  - eexists _, _. split; [reflexivity|]. repeat split; reflexivity.
  - eexists _, _. split; [reflexivity|]. repeat split; reflexivity.
Qed.

Lemma strto0_whole s z : strto 0 s = Some (z, []) <->
  exists ws t, s = ws ++ t /\ Forall white ws /\ with_sign c_constant t z.
Proof.
  rewrite strto0. split.
  - intro H. apply constant_whole in H. destruct H as (n & H & ->).
    destruct (skip_space_split s) as (ws & E1 & W).
    destruct (scan_sign_split (skip_space s)) as (sg & E2 & S).
    exists ws, (skip_space s). split; [exact E1|]. split; [exact W|].
    apply with_sign_iff. eexists _, _, _, _. split; [exact E2|]. split; [exact S|]. split; [exact H|reflexivity].
  - intros (ws & t & -> & W & H). apply with_sign_iff in H.
    destruct H as (neg & sg & body & n & -> & S & H & ->).
    destruct (constant_first _ _ H) as (c & t' & -> & P1 & P2 & P3).
    rewrite skip_space_app; [|exact W|].
    + rewrite (scan_sign_app neg sg); [|exact S|split; assumption]. now apply constant_body.
    + apply (sign_not_space neg); [exact S|exact P1].
Qed.

Lemma time_stamp_accepted s ns : time_stamp_of_string s = Accepted ns <->
  (llong_min <= ns <= llong_max)%Z /\
  ((s = [] /\ ns = 0%Z) \/
   exists z ws t, ns = (z * 1000000000)%Z /\ s = ws ++ t /\ Forall white ws /\ with_sign c_constant t z).
Proof.
  unfold time_stamp_of_string. split.
  - destruct (strto 0 s) as [[z rest]|] eqn:E.
    + destruct rest; cbn [is_nil andb]; [|discriminate].
      destruct ((llong_min <=? z)%Z && (z <=? llong_max)%Z); [|discriminate].
      unfold from_time_t. destruct ((llong_min <=? z * 1000000000)%Z && (z * 1000000000 <=? llong_max)%Z) eqn:R; [|discriminate].
      intro H. injection H as <-. apply andb_prop in R. destruct R as [R1 R2].
      apply Z.leb_le in R1. apply Z.leb_le in R2. split; [lia|]. right.
      apply strto0_whole in E. destruct E as (ws & t & E). exists z, ws, t. tauto.
    + destruct s; cbn [is_nil andb]; [|discriminate]. intro H. vm_compute in H. injection H as <-.
      split; [vm_compute; split; discriminate|]. left. tauto.
  - intros (R & [[-> ->] | (z & ws & t & -> & H)]); [reflexivity|].
    assert (E : strto 0 s = Some (z, [])) by (apply strto0_whole; exists ws, t; exact H).
    rewrite E. cbn [is_nil andb].
    unfold llong_min, llong_max in *.
    assert (B1 : (-9223372036854775808 <=? z)%Z && (z <=? 9223372036854775807)%Z = true).
    { apply andb_true_intro. split; apply Z.leb_le; lia. }
    rewrite B1. unfold from_time_t, llong_min, llong_max.
    assert (B2 : (-9223372036854775808 <=? z * 1000000000)%Z && (z * 1000000000 <=? 9223372036854775807)%Z = true).
    { apply andb_true_intro. split; apply Z.leb_le; lia. }
    rewrite B2. reflexivity.
Qed.

Lemma decimal_constant z : with_sign c_constant (decimal z) z.
Proof.
  assert (P : forall n, (0 <= n)%Z -> c_constant (decimal n) n).
  { intros n H. pose proof (decimal_numeral n H) as N.
    destruct (decimal_natural n H) as (_ & _ & c & s & E & C). rewrite E in *.
    destruct (Ascii.eqb_spec c "0") as [-> | NE].
    - destruct (C eq_refl) as [-> ->]. apply c_octal. apply (numeral_one 8 "0" 0); [left; reflexivity|lia].
    - now apply c_decimal. }
  destruct (Z.ltb_spec z 0) as [H | H].
  - rewrite (decimal_negative z H). rewrite <- (Z.opp_involutive z) at 2. apply minus_sign. apply P. lia.
  - apply no_sign. now apply P.
Qed.

Lemma time_stamp_decimal t : (llong_min <= t * 1000000000 <= llong_max)%Z ->
  time_stamp_of_string (decimal t) = Accepted (t * 1000000000)%Z.
Proof.
  intro R. apply time_stamp_accepted. split; [exact R|]. right.
  exists t, [], (decimal t). split; [reflexivity|]. split; [reflexivity|]. split; [constructor|].
  apply decimal_constant.
Qed.

(** ** The calendar *)

Local Open Scope Z_scope.

(** Lengths of months, given whether the year is a leap year. *)
Definition days_in (leap : bool) (m : Z) : Z :=
  if m =? 2 then (if leap then 29 else 28)
  else if (m =? 4) || (m =? 6) || (m =? 9) || (m =? 11) then 30 else 31.

Definition days_until (leap : bool) (m : Z) : Z :=
  fold_right Z.add 0 (map (days_in leap) (map Z.of_nat (seq 1 (Z.to_nat m - 1)))).

(** The month and the day, counted from March. *)
Definition month_of (doy : Z) : Z :=
  let mp := (5 * doy + 2) / 153 in if mp <? 10 then mp + 3 else mp - 9.
Definition day_of (doy : Z) : Z :=
  let mp := (5 * doy + 2) / 153 in doy - (153 * mp + 2) / 5 + 1.

Definition check_day (leap : bool) (doy : Z) : bool :=
  let m := month_of doy in let d := day_of doy in
  (1 <=? m) && (m <=? 12) && (1 <=? d) &&
  (if m <=? 2 then
     (306 <=? doy) && ((doy =? 365) && negb leap || (d <=? days_in leap m))
     && (days_until leap m + (d - 1) =? doy - 306)
   else
     (doy <=? 305) && (d <=? days_in leap m)
     && (days_until leap m + (d - 1) =? doy + 59 + (if leap then 1 else 0))).

Lemma check_day_all leap doy : 0 <= doy <= 365 -> check_day leap doy = true.
Proof.
  assert (A : forallb (fun n => check_day true (Z.of_nat n) && check_day false (Z.of_nat n)) (seq 0 366) = true)
    by (vm_compute; reflexivity).
  intro H. rewrite forallb_forall in A. specialize (A (Z.to_nat doy)).
  rewrite Z2Nat.id in A by lia. destruct (andb_prop _ _ (A ltac:(apply in_seq; lia))) as [P Q].
  now destruct leap.
Qed.

Lemma day_of_era doe yoe doy : 0 <= doe <= 146096 ->
  yoe = (doe - doe / 1460 + doe / 36524 - doe / 146096) / 365 ->
  doy = doe - (365 * yoe + yoe / 4 - yoe / 100) ->
  0 <= yoe <= 399 /\ 0 <= doy <= 365 /\ (doy = 365 -> leap_year (yoe + 1) = true).
Proof.
  intros H1 H2 H3.
  assert (A : 0 <= yoe <= 399 /\ 0 <= doy <= 365) by (Z.div_mod_to_equations; lia).
  split; [apply A|]. split; [apply A|]. intro E.
  assert (B : (yoe + 1) mod 4 = 0 /\ ((yoe + 1) mod 100 <> 0 \/ (yoe + 1) mod 400 = 0))
    by (Z.div_mod_to_equations; lia).
  unfold leap_year. destruct B as [B1 B2].
  destruct (Z.eqb_spec ((yoe + 1) mod 4) 0); [|contradiction].
  destruct (Z.eqb_spec ((yoe + 1) mod 100) 0); destruct (Z.eqb_spec ((yoe + 1) mod 400) 0);
    try reflexivity. destruct B2; contradiction.
Qed.

Lemma year_start y : 0 <= y <= 399 ->
  days_before_year y + 59 + (if leap_year y then 1 else 0) = 365 * y + y / 4 - y / 100 - 719468.
Proof.
  intro H. unfold days_before_year, leap_year.
  destruct (Z.eqb_spec (y mod 4) 0); destruct (Z.eqb_spec (y mod 100) 0); destruct (Z.eqb_spec (y mod 400) 0);
    cbn [andb orb negb]; Z.div_mod_to_equations; lia.
Qed.

Lemma year_start_next y : 0 <= y <= 399 ->
  days_before_year (y + 1) - 306 = 365 * y + y / 4 - y / 100 - 719468.
Proof. intro H. unfold days_before_year. Z.div_mod_to_equations; lia. Qed.

Lemma leap_year_shift y e : leap_year (y + e * 400) = leap_year y.
Proof.
  unfold leap_year.
  replace (y + e * 400) with (y + (e * 100) * 4) at 1 by lia. rewrite Z.mod_add by lia.
  replace (y + e * 400) with (y + (e * 4) * 100) at 1 by lia. rewrite Z.mod_add by lia.
  rewrite Z.mod_add by lia. reflexivity.
Qed.

Lemma month_days_shift y e m : month_days (y + e * 400) m = month_days y m.
Proof. unfold month_days. now rewrite leap_year_shift. Qed.

Lemma days_before_month_shift y e m : days_before_month (y + e * 400) m = days_before_month y m.
Proof.
  unfold days_before_month. f_equal. apply map_ext. intro. apply month_days_shift.
Qed.

Lemma days_before_year_shift y e : days_before_year (y + e * 400) = days_before_year y + 146097 * e.
Proof.
  unfold days_before_year.
  replace ((y + e * 400 - 1) / 4) with ((y - 1) / 4 + e * 100)
    by (rewrite <- Z.div_add by lia; f_equal; lia).
  replace ((y + e * 400 - 1) / 100) with ((y - 1) / 100 + e * 4)
    by (rewrite <- Z.div_add by lia; f_equal; lia).
  replace ((y + e * 400 - 1) / 400) with ((y - 1) / 400 + e)
    by (rewrite <- Z.div_add by lia; f_equal; lia).
  lia.
Qed.

Lemma date_of_day_correct n y m d : date_of_day n = (y, m, d) ->
  valid_date y m d /\ days_before_year y + days_before_month y m + (d - 1) = n.
Proof.
  unfold date_of_day. cbv zeta.
  assert (Z0 : n + 719468 = 146097 * ((n + 719468) / 146097) + (n + 719468) mod 146097) by (apply Z.div_mod; lia).
  assert (K : 0 <= (n + 719468) mod 146097 < 146097) by (apply Z.mod_pos_bound; lia).
  remember ((n + 719468) / 146097) as e eqn:E1. remember ((n + 719468) mod 146097) as k eqn:E2. clear E1 E2.
  remember ((k - k / 1460 + k / 36524 - k / 146096) / 365) as yoe eqn:EY.
  remember (k - (365 * yoe + yoe / 4 - yoe / 100)) as doy eqn:ED.
  fold (month_of doy). fold (day_of doy).
  destruct (day_of_era k yoe doy ltac:(lia) EY ED) as (Y & D & L).
  intro H. injection H as <- <- <-.
  assert (S : forall y0 m0, days_before_month y0 m0 = days_until (leap_year y0) m0) by reflexivity.
  assert (M : forall y0 m0, month_days y0 m0 = days_in (leap_year y0) m0) by reflexivity.
  unfold valid_date. rewrite S, M. clear S M.
  destruct (Z.leb_spec (month_of doy) 2) as [C | C].
  - replace (yoe + e * 400 + 1) with (yoe + 1 + e * 400) by lia.
    rewrite leap_year_shift, days_before_year_shift.
    pose proof (check_day_all (leap_year (yoe + 1)) doy D) as T. unfold check_day in T. cbv zeta in T.
    destruct (Z.leb_spec (month_of doy) 2) as [_|]; [|lia].
    repeat rewrite andb_true_iff in T. rewrite orb_true_iff, andb_true_iff in T.
    repeat rewrite Z.leb_le in T. repeat rewrite Z.eqb_eq in T. rewrite negb_true_iff in T.
    destruct T as (((T1 & T2) & T3) & (T4 & T5) & T6).
    pose proof (year_start_next yoe Y) as YS.
    split; [|lia]. split; [lia|]. split; [lia|].
    destruct T5 as [[T5 T5'] | T5]; [|exact T5]. rewrite (L T5) in T5'. discriminate.
  - rewrite leap_year_shift, days_before_year_shift.
    pose proof (check_day_all (leap_year yoe) doy D) as T. unfold check_day in T. cbv zeta in T.
    destruct (Z.leb_spec (month_of doy) 2) as [|_]; [lia|].
    repeat rewrite andb_true_iff in T.
    repeat rewrite Z.leb_le in T. repeat rewrite Z.eqb_eq in T.
    destruct T as (((T1 & T2) & T3) & (T4 & T5) & T6).
    pose proof (year_start yoe Y) as YS.
    split; [|lia]. split; [lia|]. split; [lia|exact T5].
Qed.

Lemma gmtime_correct t : let g := gmtime t in
  valid_date (year g) (month g) (day g) /\ 0 <= hour g < 24 /\ 0 <= minute g < 60 /\ 0 <= second g < 60 /\
  seconds_since_epoch (year g) (month g) (day g) (hour g) (minute g) (second g) = t.
Proof.
  cbv zeta. unfold gmtime. destruct (date_of_day (t / 86400)) as [[y m] d] eqn:E.
  destruct (date_of_day_correct _ _ _ _ E) as [V D]. cbn [year month day hour minute second].
  split; [exact V|]. unfold seconds_since_epoch. rewrite D.
  assert (B : 0 <= t mod 86400 < 86400) by (apply Z.mod_pos_bound; lia).
  assert (T : t = 86400 * (t / 86400) + t mod 86400) by (apply Z.div_mod; lia).
  remember (t mod 86400) as r. remember (t / 86400) as q. clear Heqr Heqq E V D.
  split; [split; [apply Z.div_pos; lia|apply Z.div_lt_upper_bound; lia]|].
  split; [apply Z.mod_pos_bound; lia|]. split; [apply Z.mod_pos_bound; lia|].
  Z.div_mod_to_equations. lia.
Qed.

Lemma days_before_year_step y :
  days_before_year (y + 1) = days_before_year y + (if leap_year y then 366 else 365).
Proof.
  unfold days_before_year, leap_year.
  replace (y + 1 - 1) with y by lia.
  destruct (Z.eqb_spec (y mod 4) 0); destruct (Z.eqb_spec (y mod 100) 0); destruct (Z.eqb_spec (y mod 400) 0);
    cbn [andb orb negb]; Z.div_mod_to_equations; lia.
Qed.

Lemma days_before_year_mono a b : a <= b -> 365 * (b - a) <= days_before_year b - days_before_year a.
Proof.
  intro H. rewrite <- (Zplus_minus a b). remember (b - a) as k. assert (K : 0 <= k) by lia. clear Heqk H b.
  revert k K. apply natlike_ind.
  - replace (a + 0) with a by lia. lia.
  - intros k K IH. replace (a + Z.succ k) with (a + k + 1) by lia.
    rewrite days_before_year_step. destruct (leap_year (a + k)); lia.
Qed.

Lemma days_before_month_bounds y m d : valid_date y m d ->
  0 <= days_before_month y m + (d - 1) < (if leap_year y then 366 else 365).
Proof.
  intros [M D]. unfold days_before_month, month_days in *.
  assert (C : m = 1 \/ m = 2 \/ m = 3 \/ m = 4 \/ m = 5 \/ m = 6 \/ m = 7 \/ m = 8 \/ m = 9 \/ m = 10 \/ m = 11 \/ m = 12) by lia.
  destruct C as [C | [C | [C | [C | [C | [C | [C | [C | [C | [C | [C | C]]]]]]]]]]]; rewrite C in *; clear C;
    destruct (leap_year y);
    match goal with |- context [fold_right Z.add 0 ?l] =>
      let e := eval vm_compute in (fold_right Z.add 0 l) in change (fold_right Z.add 0 l) with e end;
    match type of D with _ /\ _ <= ?b => let e := eval vm_compute in b in change b with e in D end;
    lia.
Qed.

Lemma to_time_t_bounds ns : llong_min <= ns <= llong_max -> -9223372036 <= to_time_t ns <= 9223372036.
Proof.
  unfold to_time_t, llong_min, llong_max. intro R.
  pose proof (Z.quot_le_mono ns 9223372036854775807 1000000000 ltac:(lia) ltac:(lia)) as A.
  pose proof (Z.quot_le_mono (-9223372036854775808) ns 1000000000 ltac:(lia) ltac:(lia)) as B.
  assert (QA : Z.quot 9223372036854775807 1000000000 = 9223372036) by (vm_compute; reflexivity).
  assert (QB : Z.quot (-9223372036854775808) 1000000000 = -9223372036) by (vm_compute; reflexivity).
  rewrite QA in A. rewrite QB in B. lia.
Qed.

Lemma year_of_days y k : 0 <= k < (if leap_year y then 366 else 365) ->
  -106752 <= days_before_year y + k <= 106751 -> 1677 <= y <= 2262.
Proof.
  intros K R. pose proof (days_before_year_step y) as Q.
  split.
  - destruct (Z.le_gt_cases 1677 y) as [|G]; [assumption|exfalso].
    pose proof (days_before_year_mono (y + 1) 1677 ltac:(lia)) as P.
    assert (Y : days_before_year 1677 = -107015) by (vm_compute; reflexivity). rewrite Y in P. lia.
  - destruct (Z.le_gt_cases y 2262) as [|G]; [assumption|exfalso].
    pose proof (days_before_year_mono 2263 y ltac:(lia)) as P.
    assert (Y : days_before_year 2263 = 107016) by (vm_compute; reflexivity). rewrite Y in P. lia.
Qed.

(** A time stamp is 64 bits of nanoseconds, so the year has four digits. *)
Lemma year_bounds ns : llong_min <= ns <= llong_max ->
  1677 <= year (gmtime (to_time_t ns)) <= 2262.
Proof.
  intro R. pose proof (to_time_t_bounds ns R) as T. clear R.
  generalize dependent (to_time_t ns). clear ns. intros t T.
  destruct (gmtime_correct t) as (V & H1 & H2 & H3 & S).
  generalize dependent (gmtime t). intros g V H1 H2 H3 S.
  apply (year_of_days _ _ (days_before_month_bounds _ _ _ V)).
  unfold seconds_since_epoch in S. lia.
Qed.

(** ** Printing time stamps *)

Fixpoint check_padded (count : nat) (width : nat) (n : Z) : bool :=
  match count with
  | O => true
  | S c => Nat.eqb (length (padded width n)) width && (Z.of_N (value_of 10 (padded width n) 0) =? n)
           && check_padded c width (n + 1)
  end.

Lemma check_padded_sound count width : forall n, check_padded count width n = true ->
  forall k, n <= k < n + Z.of_nat count ->
  length (padded width k) = width /\ Z.of_N (value_of 10 (padded width k) 0) = k.
Proof.
  induction count as [|c IH]; intros n H k K; [lia|].
  cbn [check_padded] in H. apply andb_prop in H. destruct H as [H B]. apply andb_prop in H. destruct H as [L V].
  destruct (Z.eq_dec n k) as [<- | NE].
  - apply Nat.eqb_eq in L. apply Z.eqb_eq in V. now split.
  - apply (IH (n + 1) B). lia.
Qed.

Lemma padded2 k : 0 <= k < 100 -> length (padded 2 k) = 2%nat /\ Z.of_N (value_of 10 (padded 2 k) 0) = k.
Proof.
  assert (H : check_padded 100 2 0 = true) by (vm_compute; reflexivity).
  intro K. now apply (check_padded_sound _ _ _ H).
Qed.

Lemma padded4 k : 1600 <= k < 2300 -> length (padded 4 k) = 4%nat /\ Z.of_N (value_of 10 (padded 4 k) 0) = k.
Proof.
  assert (H : check_padded (Z.to_nat 700) 4 1600 = true) by (vm_compute; reflexivity).
  intro K. apply (check_padded_sound _ _ _ H). rewrite Z2Nat.id; lia.
Qed.

Lemma app_split_length {A} (a b x y : list A) : a ++ x = b ++ y -> length a = length b -> a = b /\ x = y.
Proof.
  revert b. induction a as [|c a IH]; intros [|d b] H L; cbn in *; try lia; [tauto|].
  injection H as -> H. destruct (IH b H ltac:(lia)) as [-> ->]. tauto.
Qed.

Fixpoint check_hours (count : nat) (n : Z) : bool :=
  match count with
  | O => true
  | S c => forallb (fun c => negb (Ascii.eqb c ":")) (padded 0 n)
           && Nat.leb (length (padded 0 n)) 2
           && (Z.of_N (value_of 10 (padded 0 n) 0) =? n) && check_hours c (n + 1)
  end.

Lemma padded0 k : 0 <= k < 24 ->
  ~ In ":"%char (padded 0 k) /\ (length (padded 0 k) <= 2)%nat /\ Z.of_N (value_of 10 (padded 0 k) 0) = k.
Proof.
  assert (S : forall count n, check_hours count n = true -> forall k, n <= k < n + Z.of_nat count ->
            ~ In ":"%char (padded 0 k) /\ (length (padded 0 k) <= 2)%nat /\ Z.of_N (value_of 10 (padded 0 k) 0) = k).
  { induction count as [|c IH]; intros n H i K; [lia|].
    cbn [check_hours] in H. repeat rewrite andb_true_iff in H. destruct H as (((F & L) & V) & B).
    destruct (Z.eq_dec n i) as [<- | NE].
    - split; [|split; [now apply Nat.leb_le|now apply Z.eqb_eq]].
      rewrite forallb_forall in F. intro I. specialize (F _ I). discriminate F.
    - apply (IH (n + 1) B). lia. }
  assert (H : check_hours 24 0 = true) by (vm_compute; reflexivity).
  intro K. now apply (S _ _ H).
Qed.

Lemma split_colon (a b x y : str) : ~ In ":"%char a -> ~ In ":"%char b ->
  a ++ ":"%char :: x = b ++ ":"%char :: y -> a = b /\ x = y.
Proof.
  revert b. induction a as [|c a IH]; intros [|d b] A B H; cbn in *.
  - injection H as ->. tauto.
  - injection H as <- H. exfalso. apply B. now left.
  - injection H as -> H. exfalso. apply A. now left.
  - injection H as -> H. destruct (IH b) as [-> ->]; tauto.
Qed.

Lemma month_days_le y m : month_days y m <= 31.
Proof. unfold month_days. destruct (m =? 2); [destruct (leap_year y); lia|]. destruct (_ || _); lia. Qed.

Lemma format_time_injective a b :
  llong_min <= a <= llong_max -> llong_min <= b <= llong_max ->
  format_time a = format_time b -> to_time_t a = to_time_t b.
Proof.
  intros RA RB E. pose proof (year_bounds a RA) as YA. pose proof (year_bounds b RB) as YB.
  destruct (gmtime_correct (to_time_t a)) as ((MA & DA) & HA & NA & SA & TA).
  destruct (gmtime_correct (to_time_t b)) as ((MB & DB) & HB & NB & SB & TB).
  unfold format_time in E. cbv zeta in E.
  remember (gmtime (to_time_t a)) as p eqn:P. remember (gmtime (to_time_t b)) as q eqn:Q.
  pose proof (month_days_le (year p) (month p)). pose proof (month_days_le (year q) (month q)).
  destruct (padded4 (year p) ltac:(lia)) as [L1 V1]. destruct (padded4 (year q) ltac:(lia)) as [L1' V1'].
  apply app_split_length in E; [|congruence]. destruct E as [E1 E]. cbn [lit list_ascii_of_string app] in E.
  injection E as E.
  destruct (padded2 (month p) ltac:(lia)) as [L2 V2]. destruct (padded2 (month q) ltac:(lia)) as [L2' V2'].
  apply app_split_length in E; [|congruence]. destruct E as [E2 E]. injection E as E.
  destruct (padded2 (day p) ltac:(lia)) as [L3 V3]. destruct (padded2 (day q) ltac:(lia)) as [L3' V3'].
  apply app_split_length in E; [|congruence]. destruct E as [E3 E]. injection E as E.
  destruct (padded0 (hour p) ltac:(lia)) as (C4 & _ & V4). destruct (padded0 (hour q) ltac:(lia)) as (C4' & _ & V4').
  apply split_colon in E; [|assumption..]. destruct E as [E4 E].
  destruct (padded2 (minute p) ltac:(lia)) as [L5 V5]. destruct (padded2 (minute q) ltac:(lia)) as [L5' V5'].
  apply app_split_length in E; [|congruence]. destruct E as [E5 E]. injection E as E.
  destruct (padded2 (second p) ltac:(lia)) as [L6 V6]. destruct (padded2 (second q) ltac:(lia)) as [L6' V6'].
  apply app_split_length in E; [|congruence]. destruct E as [E6 _].
  rewrite <- TA, <- TB.
  replace (year p) with (year q) by congruence. replace (month p) with (month q) by congruence.
  replace (day p) with (day q) by congruence. replace (hour p) with (hour q) by congruence.
  replace (minute p) with (minute q) by congruence. replace (second p) with (second q) by congruence.
  reflexivity.
Qed.

Lemma format_time_length ns : llong_min <= ns <= llong_max -> (length (format_time ns) < format_buffer_size)%nat.
Proof.
  intro R. pose proof (year_bounds ns R) as Y.
  destruct (gmtime_correct (to_time_t ns)) as ((M & D) & H & N & S & _).
  unfold format_time. cbv zeta. pose proof (month_days_le (year (gmtime (to_time_t ns))) (month (gmtime (to_time_t ns)))).
  destruct (padded4 (year (gmtime (to_time_t ns))) ltac:(lia)) as [L1 _].
  destruct (padded2 (month (gmtime (to_time_t ns))) ltac:(lia)) as [L2 _].
  destruct (padded2 (day (gmtime (to_time_t ns))) ltac:(lia)) as [L3 _].
  destruct (padded0 (hour (gmtime (to_time_t ns))) ltac:(lia)) as (_ & L4 & _).
  destruct (padded2 (minute (gmtime (to_time_t ns))) ltac:(lia)) as [L5 _].
  destruct (padded2 (second (gmtime (to_time_t ns))) ltac:(lia)) as [L6 _].
  repeat rewrite app_length. rewrite L1, L2, L3, L5, L6. cbn [lit list_ascii_of_string length].
  unfold format_buffer_size. lia.
Qed.

Lemma padded_numeral w k : 0 <= k -> Z.of_N (value_of 10 (padded w k) 0) = k -> numeral 10 (padded w k) k.
Proof.
  intros H V. apply (numeral_value 10); [lia|].
  destruct (decimal_natural k H) as (A & _ & c & s & E & _).
  assert (P : padded w k = repeat "0"%char (w - 0 - length (decimal k)) ++ decimal k).
  { unfold padded. destruct (Z.ltb_spec k 0); [lia|]. rewrite Z.abs_eq by assumption. reflexivity. }
  split; [|split; [|symmetry; exact V]].
  - rewrite P, E. intro N. apply app_eq_nil in N. destruct N as [_ N]. discriminate N.
  - rewrite P. apply Forall_app. split; [|exact A].
    apply Forall_forall. intros x X. apply repeat_spec in X. subst. discriminate.
Qed.

Lemma format_time_text ns : llong_min <= ns <= llong_max -> date_text (format_time ns) (to_time_t ns).
Proof.
  intro R. pose proof (year_bounds ns R) as Y.
  destruct (gmtime_correct (to_time_t ns)) as ((M & D) & H & N & S & T).
  unfold format_time. cbv zeta.
  generalize dependent (gmtime (to_time_t ns)). intros g Y M D H N S T.
  pose proof (month_days_le (year g) (month g)).
  destruct (padded4 (year g) ltac:(lia)) as [L1 V1].
  destruct (padded2 (month g) ltac:(lia)) as [L2 V2].
  destruct (padded2 (day g) ltac:(lia)) as [L3 V3].
  destruct (padded0 (hour g) ltac:(lia)) as (_ & L4 & V4).
  destruct (padded2 (minute g) ltac:(lia)) as [L5 V5].
  destruct (padded2 (second g) ltac:(lia)) as [L6 V6].
  exists (padded 4 (year g)), (padded 2 (month g)), (padded 2 (day g)), (padded 0 (hour g)),
    (padded 2 (minute g)), (padded 2 (second g)),
    (year g), (month g), (day g), (hour g), (minute g), (second g).
  split; [reflexivity|].
  split; [apply padded_numeral; [lia|exact V1]|].
  split; [apply padded_numeral; [lia|exact V2]|].
  split; [apply padded_numeral; [lia|exact V3]|].
  split; [apply padded_numeral; [lia|exact V4]|].
  split; [apply padded_numeral; [lia|exact V5]|].
  split; [apply padded_numeral; [lia|exact V6]|].
  split; [rewrite L1, L2, L3, L5, L6; repeat split|].
  split; [split; assumption|]. repeat split; try lia.
Qed.

(** ** Enumerated settings *)

Ltac by_name of_string :=
  intros s x; unfold of_string; split;
  [ repeat match goal with
           | |- context [str_eqb s ?l] =>
               let E := fresh in destruct (str_eqb s l) eqn:E;
               [apply str_eqb_eq in E; let H := fresh in intro H; injection H as <-; rewrite E; reflexivity|]
           end; discriminate
  | intros ->; destruct x; reflexivity ].

Lemma log_format_names : forall s x, log_format_of_string s = Some x <-> s = log_format_to_string x.
Proof. by_name log_format_of_string. Qed.

Lemma log_level_names : forall s x, log_level_of_string s = Some x <-> s = log_level_to_string x.
Proof. by_name log_level_of_string. Qed.

Lemma policy_names : forall s x, policy_of_string s = Some x <-> s = policy_to_string x.
Proof. by_name policy_of_string. Qed.

Lemma origin_names : forall s x, origin_of_string s = Some x <-> s = origin_to_string x.
Proof. by_name origin_of_string. Qed.

Lemma ext_mode_names : forall s x, ext_mode_of_string s = Some x <-> s = ext_mode_to_string x.
Proof. by_name ext_mode_of_string. Qed.

Lemma naming_iff {V : Type} (parse : str -> option V) (print : V -> str) :
  (forall s x, parse s = Some x <-> s = print x) -> naming parse print.
Proof.
  intro H. assert (R : forall x, parse (print x) = Some x) by (intro x; now apply H).
  split; [exact R|]. split.
  - intros x y E. pose proof (R x) as A. rewrite E, R in A. congruence.
  - intros s N. destruct (parse s) as [x|] eqn:E; [|reflexivity].
    exfalso. apply (N x). now apply H.
Qed.
