(** Values that are written as text: theorems. *)

From Coq Require Import Ascii String NArith ZArith Bool.
From Coq Require Import List.
From Verif Require Import Str DbModel LoadModel ValueModel ValueSpec ValueProofs TimeProofs.
Import ListNotations.

(** C33. The printed form of an id is parsed to the same id. *)
Theorem C33_round_trip : forall b, build_id b -> id_of_string (id_to_string b) = Some b.
Proof. exact id_round_trip. Qed.
Print Assumptions C33_round_trip.

(** C33. Any text which consists of the digits of an id, in upper or lower case,
    is parsed to that id. *)
Theorem C33_digits : forall s b rest, build_id b -> spells s b -> id_of_string (s ++ rest) = Some b.
Proof. exact id_of_spelling. Qed.
Print Assumptions C33_digits.

(** C33. Ids are printed as their digits. *)
Theorem C33_printed : forall b, build_id b -> spells (id_to_string b) b.
Proof. intros b B. exact (id_to_string_spells b (proj2 B)). Qed.
Print Assumptions C33_printed.

(** C33. A string is rejected iff one of its first 64 characters is not a digit. *)
Theorem C33_rejected_iff : forall s, ~ In "000"%char s ->
  id_of_string s = None <-> exists c, In c (firstn 64 s) /\ ~ hexadecimal c.
Proof. exact id_rejected. Qed.
Print Assumptions C33_rejected_iff.

(** C36. Printed thread counts can be read back. *)
Theorem C36_thread_count_round_trip : forall v, (v = -1 \/ 1 <= v <= 2147483647)%Z ->
  thread_count_of_string (thread_count_to_string v) = Accepted v.
Proof. exact thread_count_round_trip. Qed.
Print Assumptions C36_thread_count_round_trip.

(** C36. What is accepted as thread count is [auto], or begins with a number that
    is at least one. *)
Theorem C36_thread_count_accepted_partial : forall s v, thread_count_of_string s = Accepted v ->
  (s = lit "auto" /\ v = (-1)%Z) \/
  ((1 <= v <= 2147483647)%Z /\
   exists ws t rest, s = ws ++ t ++ rest /\ Forall white ws /\ with_sign (numeral 10) t v /\
     match rest with c :: _ => forall d, digit c d -> 10 <= d | [] => True end).
Proof. exact thread_count_accepted_digits. Qed.
Print Assumptions C36_thread_count_accepted_partial.

(** C36. Integers in range: accepted iff positive. *)
Theorem C36_thread_count_integer : forall s z, with_sign (numeral 10) s z -> (-2147483648 <= z <= 2147483647)%Z ->
  thread_count_of_string s = (if (z <? 1)%Z then Rejected else Accepted z).
Proof.
  intros s z H R. pose proof (thread_count_number [] s [] z (Forall_nil _) H I R) as E.
  rewrite app_nil_r in E. exact E.
Qed.
Print Assumptions C36_thread_count_integer.

(** C36. The number of threads to use is always at least one. *)
Theorem C36_thread_count_positive : forall s v nprocs, thread_count_of_string s = Accepted v ->
  (1 <= thread_count_value nprocs v)%Z.
Proof. exact thread_count_positive. Qed.
Print Assumptions C36_thread_count_positive.

(** C36. Trailing garbage in a thread count is not rejected. *)
Theorem C36_thread_count_garbage_refuted :
  exists s v, thread_count_of_string s = Accepted v /\ ~ (s = lit "auto") /\
    (forall z, ~ with_sign (numeral 10) s z).
Proof.
  exists (lit "12abc"), 12%Z. split; [vm_compute; reflexivity|]. split; [discriminate|].
  intros z H. pose proof (thread_count_number [] _ [] z (Forall_nil _) H I) as _.
  apply with_sign_iff in H. destruct H as (neg & sg & body & n & E & S & H & _).
  assert (I : In "a"%char body).
  { destruct S as [[_ ->] | [_ [-> | ->]]]; [discriminate E| |discriminate E]. cbn [app] in E. rewrite <- E.
    right. right. now left. }
  apply (numeral_not_in 10 _ n _ ltac:(discriminate) H I). reflexivity.
Qed.
Print Assumptions C36_thread_count_garbage_refuted.

(** C36. A time stamp is accepted iff it is empty, or an integer constant. *)
Theorem C36_time_stamp_accepted_iff : forall s ns, time_stamp_of_string s = Accepted ns <->
  (- 2 ^ 63 <= ns < 2 ^ 63)%Z /\
  ((s = [] /\ ns = 0%Z) \/
   exists z ws t, ns = (z * 1000000000)%Z /\ s = ws ++ t /\ Forall white ws /\ with_sign c_constant t z).
Proof.
  intros s ns. rewrite time_stamp_accepted. rewrite (Z.lt_le_pred ns (2 ^ 63)). reflexivity.
Qed.
Print Assumptions C36_time_stamp_accepted_iff.

(** C36. The number of seconds in decimal notation denotes that time. *)
Theorem C36_time_stamp_decimal : forall t, (- 2 ^ 63 <= t * 1000000000 < 2 ^ 63)%Z ->
  time_stamp_of_string (decimal t) = Accepted (t * 1000000000)%Z.
Proof. intros t R. apply time_stamp_decimal. rewrite (Z.lt_le_pred _ (2 ^ 63)) in R. exact R. Qed.
Print Assumptions C36_time_stamp_decimal.

(** C36. The printed form of a time stamp is the date and time of day. *)
Theorem C36_time_stamp_printed : forall ns, (- 2 ^ 63 <= ns < 2 ^ 63)%Z ->
  date_text (format_time ns) (Z.quot ns 1000000000) /\ length (format_time ns) < 64.
Proof.
  intros ns R. rewrite (Z.lt_le_pred _ (2 ^ 63)) in R. split; [exact (format_time_text ns R)|exact (format_time_length ns R)].
Qed.
Print Assumptions C36_time_stamp_printed.

(** C36. Time stamps that are printed alike denote the same second. *)
Theorem C36_time_stamp_injective : forall a b,
  (- 2 ^ 63 <= a < 2 ^ 63)%Z -> (- 2 ^ 63 <= b < 2 ^ 63)%Z ->
  format_time a = format_time b -> Z.quot a 1000000000 = Z.quot b 1000000000.
Proof.
  intros a b RA RB. rewrite (Z.lt_le_pred a (2 ^ 63)) in RA. rewrite (Z.lt_le_pred b (2 ^ 63)) in RB. exact (format_time_injective a b RA RB).
Qed.
Print Assumptions C36_time_stamp_injective.

(** C37. Names of enumerated settings. *)
Theorem C37_names :
  naming log_format_of_string log_format_to_string /\
  naming log_level_of_string log_level_to_string /\
  naming policy_of_string policy_to_string /\
  naming origin_of_string origin_to_string /\
  naming ext_mode_of_string ext_mode_to_string.
Proof.
  split; [exact (naming_iff _ _ log_format_names)|].
  split; [exact (naming_iff _ _ log_level_names)|].
  split; [exact (naming_iff _ _ policy_names)|].
  split; [exact (naming_iff _ _ origin_names)|exact (naming_iff _ _ ext_mode_names)].
Qed.
Print Assumptions C37_names.

(** The calendar in ValueSpec.v: 1970 is year zero, and each year adds its
    length. *)
Lemma calendar_origin : days_before_year 1970 = 0%Z.
Proof. reflexivity. Qed.

Lemma calendar_step : forall y,
  days_before_year (y + 1) = (days_before_year y + (if leap_year y then 366 else 365))%Z.
Proof. exact days_before_year_step. Qed.

Local Open Scope string_scope.
Local Open Scope list_scope.

(** Concrete cases. *)
Definition some_id : list N := (171 :: 205 :: 1 :: repeat 255 29)%N.

Example some_id_ok : build_id some_id.
Proof. split; [reflexivity|]. repeat constructor. Qed.

Example some_id_printed :
  id_to_string some_id = lit "abcd01ffffffffffffffffffffffffffffffffffffffffffffffffffffffffff".
Proof. vm_compute. reflexivity. Qed.

Example some_id_upper_case :
  id_of_string (lit "ABCD01ffFFffffffffffffffffffffffffffffffffffffffffffffffffffffff") = Some some_id.
Proof. vm_compute. reflexivity. Qed.

Example bad_id : id_of_string (lit "abcdefg") = None.
Proof. vm_compute. reflexivity. Qed.

(** Not only are short ids accepted; a last odd digit is ignored. *)
Example odd_id : id_of_string (lit "abc") = id_of_string (lit "ab").
Proof. vm_compute. reflexivity. Qed.

Example threads : thread_count_of_string (lit "16") = Accepted 16%Z.
Proof. vm_compute. reflexivity. Qed.

Example threads_negative : thread_count_of_string (lit "-2") = Rejected.
Proof. vm_compute. reflexivity. Qed.

Example threads_zero : thread_count_of_string (lit "0") = Rejected.
Proof. vm_compute. reflexivity. Qed.

Example threads_too_many : thread_count_of_string (lit "4294967297") = Undefined.
Proof. vm_compute. reflexivity. Qed.

Example stamp : time_stamp_of_string (lit "1616915109") = Accepted 1616915109000000000%Z.
Proof. vm_compute. reflexivity. Qed.

Example stamp_garbage : time_stamp_of_string (lit "12abc") = Rejected.
Proof. vm_compute. reflexivity. Qed.

(** A leading zero means that the number is octal, and 9 is no octal digit. *)
Example stamp_octal : time_stamp_of_string (lit "010") = Accepted 8000000000%Z /\ time_stamp_of_string (lit "09") = Rejected.
Proof. vm_compute. split; reflexivity. Qed.

Example stamp_overflow : time_stamp_of_string (lit "10000000000") = Undefined.
Proof. vm_compute. reflexivity. Qed.

Example stamp_printed : format_time 1616915109000000000 = lit "2021-03-28 7:05:09 UTC".
Proof. vm_compute. reflexivity. Qed.

Example stamp_printed_leap : format_time 951782400000000000 = lit "2000-02-29 0:00:00 UTC".
Proof. vm_compute. reflexivity. Qed.

Example unknown_name : log_level_of_string (lit "error") = None.
Proof. vm_compute. reflexivity. Qed.
