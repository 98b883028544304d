(** Values that are written as text: build ids, thread counts, time stamps and
    enumerated settings. *)

From Coq Require Import Ascii String NArith ZArith Bool Decimal DecimalString.
From Coq Require Import List.
From Verif Require Import Str Path DbModel LoadModel.
Import ListNotations.

(** What a constructor taking a string may do. [Undefined] is undefined
    behaviour (out of range [atoi], signed overflow). *)
Inductive parsed (V : Type) : Type :=
| Accepted (v : V)
| Rejected                       (* std::runtime_error is thrown *)
| Undefined.
Arguments Accepted {V}.
Arguments Rejected {V}.
Arguments Undefined {V}.

(** ** Build ids *)

(** to_nibble, core/build/id.cpp:18-28. A [char] is signed, thus codes from 128
    on are negative and fail both tests; [ch & ~0x20] keeps 0xdf of the rest. *)
Definition to_nibble (c : ascii) : option N :=
  let n := N_of_ascii c in
  if (48 <=? n)%N && (n <=? 57)%N then Some (n - 48)%N
  else
    let masked := N.land n 223 in
    if (n <? 128)%N && (65 <=? masked)%N && (masked <=? 70)%N then Some (10 + masked - 65)%N
    else None.

(** m_bytes[k] = b *)
Fixpoint set_byte (k : nat) (b : N) (bytes : list N) : list N :=
  match k, bytes with
  | O, _ :: bs => b :: bs
  | S k', x :: bs => x :: set_byte k' b bs
  | _, [] => []
  end.

Definition id_size : nat := 32.

(** The loop of Id(C string), core/build/id.cpp:31-54. [val] is not
    initialised before the first digit, which is harmless as the first digit
    always sets it; [std::byte] arithmetic drops what is shifted out. *)
Fixpoint id_loop (s : str) (k : nat) (val : N) (bytes : list N) : option (list N) :=
  match s with
  | [] => Some bytes
  | c :: s' =>
      if Ascii.eqb c "000" || Nat.eqb k (2 * id_size) then Some bytes
      else
        match to_nibble c with
        | None => None
        | Some nibble =>
            if Nat.odd k then
              let val' := N.lor val nibble in
              id_loop s' (S k) val' (set_byte (Nat.div2 k) val' bytes)
            else id_loop s' (S k) (N.land (N.shiftl nibble 4) 255) bytes
        end
  end.

(** Id(C string), core/build/id.cpp:31-54; m_bytes{} is all zero. *)
Definition id_of_string (s : str) : option (list N) := id_loop s 0 0 (repeat 0%N id_size).

(** val_lut, core/build/id.cpp:62-63 *)
Definition val_lut : str := lit "0123456789abcdef".

(** toString, core/build/id.cpp:56-72 *)
Definition id_to_string (bytes : list N) : str :=
  flat_map (fun val =>
              let msb := N.shiftr (N.land val 240) 4 in
              let lsb := N.land val 15 in
              [nth (N.to_nat msb) val_lut Ascii.zero; nth (N.to_nat lsb) val_lut Ascii.zero]) bytes.

(** ** Numbers in the C library *)

(** isspace in the C locale *)
Definition is_space (c : ascii) : bool :=
  let n := N_of_ascii c in ((9 <=? n)%N && (n <=? 13)%N) || (n =? 32)%N.

Fixpoint skip_space (s : str) : str :=
  match s with
  | c :: s' => if is_space c then skip_space s' else s
  | [] => []
  end.

(** Value of a character as a digit, for bases up to 36. *)
Definition digit_value (c : ascii) : option N :=
  let n := N_of_ascii c in
  if (48 <=? n)%N && (n <=? 57)%N then Some (n - 48)%N
  else if (65 <=? n)%N && (n <=? 90)%N then Some (n - 55)%N
  else if (97 <=? n)%N && (n <=? 122)%N then Some (n - 87)%N
  else None.

Definition digit_in (base : N) (c : ascii) : option N :=
  match digit_value c with
  | Some d => if (d <? base)%N then Some d else None
  | None => None
  end.

(** The digits at the beginning of [s]: their value, how many they are, and the
    rest of the text. *)
Fixpoint scan_digits (base : N) (s : str) (acc : N) (count : nat) : N * nat * str :=
  match s with
  | c :: s' =>
      match digit_in base c with
      | Some d => scan_digits base s' (base * acc + d)%N (S count)
      | None => (acc, count, s)
      end
  | [] => (acc, count, [])
  end.

(** An optional sign. *)
Definition scan_sign (s : str) : bool * str :=
  match s with
  | c :: s' =>
      if Ascii.eqb c "-" then (true, s')
      else if Ascii.eqb c "+" then (false, s')
      else (false, s)
  | [] => (false, [])
  end.

Definition signed (neg : bool) (n : N) : Z := if neg then - Z.of_N n else Z.of_N n.

(** strtol/strtoll without the range check: the value and the text after the
    number; [None] if there is no number. Base 0 selects the base from the
    prefix. *)
Definition strto (base : N) (s : str) : option (Z * str) :=
  let '(neg, t) := scan_sign (skip_space s) in
  let plain b :=
    match scan_digits b t 0 0 with
    | (_, O, _) => None
    | (n, S _, rest) => Some (signed neg n, rest)
    end in
  if (base =? 0)%N then
    match t with
    | z :: x :: t' =>
        if Ascii.eqb z "0" then
          if Ascii.eqb x "x" || Ascii.eqb x "X" then
            match scan_digits 16 t' 0 0 with
            | (_, O, _) => plain 8%N
            | (n, S _, rest) => Some (signed neg n, rest)
            end
          else plain 8%N
        else plain 10%N
    | _ => plain 10%N
    end
  else plain base.

(** std::to_string *)
Definition decimal (z : Z) : str := lit (NilZero.string_of_int (Z.to_int z)).

(** ** Thread counts *)

Definition int_max : Z := 2147483647.
Definition int_min : Z := -2147483648.

(** atoi: undefined if the value does not fit. *)
Definition atoi (s : str) : option Z :=
  match strto 10 s with
  | None => Some 0%Z
  | Some (z, _) => if (int_min <=? z)%Z && (z <=? int_max)%Z then Some z else None
  end.

(** ThreadCount(C string), core/sched/thread_count.cpp:18-27. A thread count
    is its m_val. *)
Definition thread_count_of_string (s : str) : parsed Z :=
  if str_eqb s (lit "auto") then Accepted (-1)%Z
  else
    match atoi s with
    | None => Undefined
    | Some z => if (z <? 1)%Z then Rejected else Accepted z
    end.

(** ThreadCount::toString, core/sched/thread_count.cpp:11-16 *)
Definition thread_count_to_string (m_val : Z) : str :=
  if (m_val <? 0)%Z then lit "auto" else decimal m_val.

(** ThreadCount::value, core/sched/thread_count.hpp:26-29 *)
Definition thread_count_value (nprocs m_val : Z) : Z :=
  if (m_val <? 0)%Z then Z.max nprocs 1 else m_val.

(** ** Time stamps *)

Definition llong_max : Z := 9223372036854775807.
Definition llong_min : Z := -9223372036854775808.

(** system_clock::from_time_t converts to nanoseconds, which is undefined
    behaviour on overflow. *)
Definition from_time_t (t : Z) : option Z :=
  let ns := (t * 1000000000)%Z in
  if (llong_min <=? ns)%Z && (ns <=? llong_max)%Z then Some ns else None.

(** SystemTimeStamp(C string), core/utils/system_time_stamp.cpp:13-22. The
    result is in nanoseconds. If there is no number, strtoll sets [end] to
    [str] and returns zero. *)
Definition time_stamp_of_string (s : str) : parsed Z :=
  let '(tmp, rest) := match strto 0 s with Some r => r | None => (0%Z, s) end in
  if is_nil rest && (llong_min <=? tmp)%Z && (tmp <=? llong_max)%Z then
    match from_time_t tmp with
    | Some ns => Accepted ns
    | None => Undefined
    end
  else Rejected.

(** struct tm, as far as it is used, with the offsets of tm_year and tm_mon
    already added. *)
Record date_time := mk_date_time {
  year : Z; month : Z; day : Z; hour : Z; minute : Z; second : Z
}.

(** gmtime_r, which is a library function: converts a number of days since the
    epoch to a date of the proleptic Gregorian calendar. Years are counted from
    March, in periods of 400 years. *)
Definition date_of_day (n : Z) : Z * Z * Z :=
  (let z := n + 719468 in
   let era := z / 146097 in
   let doe := z mod 146097 in
   let yoe := (doe - doe / 1460 + doe / 36524 - doe / 146096) / 365 in
   let doy := doe - (365 * yoe + yoe / 4 - yoe / 100) in
   let mp := (5 * doy + 2) / 153 in
   let d := doy - (153 * mp + 2) / 5 + 1 in
   let m := if mp <? 10 then mp + 3 else mp - 9 in
   let y := yoe + era * 400 in
   (if m <=? 2 then y + 1 else y, m, d))%Z.

Definition gmtime (t : Z) : date_time :=
  let '(y, m, d) := date_of_day (t / 86400) in
  let r := (t mod 86400)%Z in
  mk_date_time y m d (r / 3600) (r / 60 mod 60) (r mod 60).

(** %0nd *)
Definition padded (n : nat) (z : Z) : str :=
  let digits := decimal (Z.abs z) in
  let sign := if (z <? 0)%Z then lit "-" else [] in
  sign ++ repeat "0"%char (n - length sign - length digits) ++ digits.

(** system_clock::to_time_t: conversion of a number of nanoseconds to seconds
    truncates. *)
Definition to_time_t (ns : Z) : Z := Z.quot ns 1000000000.

(** format, core/utils/system_time_stamp.cpp:24-42 *)
Definition format_time (ns : Z) : str :=
  let tm := gmtime (to_time_t ns) in
  padded 4 (year tm) ++ lit "-" ++ padded 2 (month tm) ++ lit "-" ++ padded 2 (day tm) ++ lit " "
  ++ padded 0 (hour tm) ++ lit ":" ++ padded 2 (minute tm) ++ lit ":" ++ padded 2 (second tm)
  ++ lit " UTC".

(** sizeof(buffer) in [format] *)
Definition format_buffer_size : nat := 64.

(** ** Enumerated settings *)

Inductive log_format := PlainText | AnsiTerm.
Inductive log_level := LevelErrors | LevelSourceFileInfo | LevelCompilationCommand.
Inductive ext_mode := Append | Replace.

(** fromString, core/db/log_format.cpp:9-16 *)
Definition log_format_of_string (s : str) : option log_format :=
  if str_eqb s (lit "plain_text") then Some PlainText
  else if str_eqb s (lit "ansi_term") then Some AnsiTerm
  else None.

(** toString, core/db/log_format.cpp:18-28 *)
Definition log_format_to_string (x : log_format) : str :=
  match x with PlainText => lit "plain_text" | AnsiTerm => lit "ansi_term" end.

(** fromString, core/db/compilation_log.cpp:112-123 *)
Definition log_level_of_string (s : str) : option log_level :=
  if str_eqb s (lit "errors") then Some LevelErrors
  else if str_eqb s (lit "source_file_info") then Some LevelSourceFileInfo
  else if str_eqb s (lit "compilation_command") then Some LevelCompilationCommand
  else None.

(** toString, core/db/compilation_log.cpp:125-138 *)
Definition log_level_to_string (x : log_level) : str :=
  match x with
  | LevelErrors => lit "errors"
  | LevelSourceFileInfo => lit "source_file_info"
  | LevelCompilationCommand => lit "compilation_command"
  end.

(** toString, core/db/rebuild_policy.cpp:20-29 *)
Definition policy_to_string (x : rebuild_policy) : str :=
  match x with Always => lit "always" | OnlyIfOutOfDate => lit "only_if_out_of_date" end.

(** toString, core/db/source_file_origin.cpp:29-42 *)
Definition origin_to_string (x : origin) : str :=
  match x with
  | Project => lit "project"
  | System => lit "system"
  | PkgConfig => lit "pkg-config"
  | Generated => lit "generated"
  end.

(** fromString, core/source_file_info_loaders/generic/source_file_loader.cpp:9-21 *)
Definition ext_mode_of_string (s : str) : option ext_mode :=
  if str_eqb s (lit "append") then Some Append
  else if str_eqb s (lit "replace") then Some Replace
  else None.

(** toString, core/source_file_info_loaders/generic/source_file_loader.cpp:23-31 *)
Definition ext_mode_to_string (x : ext_mode) : str :=
  match x with Append => lit "append" | Replace => lit "replace" end.
