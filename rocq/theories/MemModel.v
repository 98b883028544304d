(** Model of core/utils/mem_status.cpp *)

From Coq Require Import Ascii String ZArith Bool.
From Coq Require Import List.
From Verif Require Import Str ValueModel.
Import ListNotations.

(** The state of get_mem_avail, mem_status.cpp:19-26. The characters since [pos_0]
    are held in reverse order. *)
Inductive mem_state :=
| InKey (token : str)
| InValue (token : str)
| InSkip.

(** atoll: undefined if the value does not fit. *)
Definition atoll (s : str) : option Z :=
  match strto 10 s with
  | None => Some 0%Z
  | Some (z, _) => if (llong_min <=? z)%Z && (z <=? llong_max)%Z then Some z else None
  end.

Definition size_mod : Z := 2 ^ 64.

(** get_mem_avail, mem_status.cpp:17-69. [None]: undefined. *)
Fixpoint mem_loop (s : str) (st : mem_state) : option Z :=
  match s with
  | [] => Some 0%Z
  | c :: s' =>
      match st with
      | InKey token =>
          if Ascii.eqb c ":" then
            if str_eqb (rev (c :: token)) (lit "MemAvailable:") then mem_loop s' (InValue []) else mem_loop s' InSkip
          else mem_loop s' (InKey (c :: token))
      | InValue token =>
          if Ascii.eqb c "010" then
            option_map (fun z => (1024 * z) mod size_mod)%Z (atoll (rev token))
          else mem_loop s' (InValue (c :: token))
      | InSkip => if Ascii.eqb c "010" then mem_loop s' (InKey []) else mem_loop s' InSkip
      end
  end.

Definition mem_buffer_size : nat := 4096.

(** getMemAvail, mem_status.cpp:73-80. [content] is what /proc/meminfo contains;
    [None]: it cannot be read, in which case the end of the buffer is before its
    beginning. *)
Definition mem_avail (content : option str) : option Z :=
  match content with
  | Some text => mem_loop (firstn mem_buffer_size text) (InKey [])
  | None => None
  end.
