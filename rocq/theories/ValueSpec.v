(** Vocabulary for values that are written as text. *)

From Coq Require Import Ascii String NArith ZArith Bool.
From Coq Require Import List.
From Verif Require Import Str.
Import ListNotations.

(** ** Numerals *)

(** [c] is a digit with the value [d] in a base up to 16. *)
Definition digit (c : ascii) (d : nat) : Prop :=
  nth_error (lit "0123456789abcdef") d = Some c \/ nth_error (lit "0123456789ABCDEF") d = Some c.

Definition hexadecimal (c : ascii) : Prop := exists d, digit c d.

(** [s] is a non-empty sequence of digits that denotes [n]. *)
Inductive numeral (base : nat) : str -> Z -> Prop :=
| numeral_one c d : digit c d -> d < base -> numeral base [c] (Z.of_nat d)
| numeral_more s n c d :
    numeral base s n -> digit c d -> d < base -> numeral base (s ++ [c]) (Z.of_nat base * n + Z.of_nat d).

(** An optional sign in front of something that denotes a natural number. *)
Inductive with_sign (denotes : str -> Z -> Prop) : str -> Z -> Prop :=
| no_sign s n : denotes s n -> with_sign denotes s n
| plus_sign s n : denotes s n -> with_sign denotes ("+"%char :: s) n
| minus_sign s n : denotes s n -> with_sign denotes ("-"%char :: s) (- n).

(** Constants of the C language: decimal, octal or hexadecimal. *)
Inductive c_constant : str -> Z -> Prop :=
| c_decimal c s n : c <> "0"%char -> numeral 10 (c :: s) n -> c_constant (c :: s) n
| c_octal s n : numeral 8 ("0"%char :: s) n -> c_constant ("0"%char :: s) n
| c_hexadecimal s n x : x = "x"%char \/ x = "X"%char -> numeral 16 s n -> c_constant ("0"%char :: x :: s) n.

(** White space in the C locale. *)
Definition white (c : ascii) : Prop := In c [" "; "009"; "010"; "011"; "012"; "013"]%char.

(** ** Build ids *)

(** A sequence of 32 bytes. *)
Definition build_id (b : list N) : Prop := length b = 32 /\ Forall (fun x => (x < 256)%N) b.

(** The text [s] consists of the digits of [b]. *)
Definition spells (s : str) (b : list N) : Prop :=
  length s = 2 * length b /\
  forall i x, nth_error b i = Some x ->
    exists c1 c2 h l, nth_error s (2 * i) = Some c1 /\ nth_error s (2 * i + 1) = Some c2 /\
      digit c1 h /\ digit c2 l /\ x = N.of_nat (16 * h + l).

(** ** The calendar *)

Local Open Scope Z_scope.

Definition leap_year (y : Z) : bool :=
  (y mod 4 =? 0) && negb (y mod 100 =? 0) || (y mod 400 =? 0).

Definition month_days (y m : Z) : Z :=
  if m =? 2 then (if leap_year y then 29 else 28)
  else if (m =? 4) || (m =? 6) || (m =? 9) || (m =? 11) then 30 else 31.

(** Number of days in the years from 1970 to [y - 1], negative if [y] is before
    1970. That it grows by the length of each year is shown beside the
    theorems. *)
Definition days_before_year (y : Z) : Z :=
  365 * (y - 1970) + (y - 1) / 4 - (y - 1) / 100 + (y - 1) / 400 - 477.

(** Number of days in the months before [m]. *)
Definition days_before_month (y m : Z) : Z :=
  fold_right Z.add 0 (map (month_days y) (map Z.of_nat (seq 1 (Z.to_nat m - 1)))).

Definition valid_date (y m d : Z) : Prop :=
  1 <= m <= 12 /\ 1 <= d <= month_days y m.

(** Seconds since the beginning of 1970 *)
Definition seconds_since_epoch (y m d hh mm ss : Z) : Z :=
  86400 * (days_before_year y + days_before_month y m + (d - 1)) + 3600 * hh + 60 * mm + ss.

(** [s] is a date and a time in the form 2021-03-28 7:05:09 UTC, and denotes the
    time [t]. *)
Definition date_text (s : str) (t : Z) : Prop :=
  exists ys ms ds hs ns ss y m d hh mm sec,
    s = ys ++ lit "-" ++ ms ++ lit "-" ++ ds ++ lit " " ++ hs ++ lit ":" ++ ns ++ lit ":" ++ ss ++ lit " UTC" /\
    numeral 10 ys y /\ numeral 10 ms m /\ numeral 10 ds d /\
    numeral 10 hs hh /\ numeral 10 ns mm /\ numeral 10 ss sec /\
    (length ys = 4 /\ length ms = 2 /\ length ds = 2 /\ length ns = 2 /\ length ss = 2)%nat /\
    valid_date y m d /\ 0 <= hh < 24 /\ 0 <= mm < 60 /\ 0 <= sec < 60 /\
    seconds_since_epoch y m d hh mm sec = t.

(** ** Names *)

(** Every value has a name, different values have different names, and only
    names are understood. *)
Definition naming {V : Type} (parse : str -> option V) (print : V -> str) : Prop :=
  (forall x, parse (print x) = Some x) /\
  (forall x y, print x = print y -> x = y) /\
  (forall s, (forall x, s <> print x) -> parse s = None).
