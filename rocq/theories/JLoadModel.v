(** Model of core/key_value_store/json_handle.cpp: reading JSON from a stream.

    The decoder of jansson is a library and not modelled. It is represented by
    any machine that takes one character at a time, or the end of the input, and
    either wants to continue, has decoded a value, or fails. *)

From Coq Require Import Ascii String NArith Bool Arith.
From Coq Require Import List.
From Verif Require Import Str.
Import ListNotations.

Inductive progress (S V : Type) : Type :=
| Continue (st : S)
| Decoded (v : V)
| Failed.
Arguments Continue {S V}.
Arguments Decoded {S V}.
Arguments Failed {S V}.

(** A decoder. After the end of the input ([None]) it cannot continue, which is
    treated as failure. *)
Record decoder (S V : Type) := mk_decoder {
  initial : S;
  feed : S -> option ascii -> progress S V
}.
Arguments mk_decoder {S V}.
Arguments initial {S V}.
Arguments feed {S V}.

(** hasNonWhitespace, json_handle.cpp:23-29: a [char] is signed, so codes from 128
    on are negative. *)
Definition has_non_whitespace (s : str) : bool :=
  existsb (fun c => negb (N.leb (N_of_ascii c) 32)) s.

(** The condition for leaving the loop of [fetch], json_handle.cpp:51 *)
Definition ends_chunk (c : ascii) : bool := Ascii.eqb c "}" || Ascii.eqb c "]" || Ascii.eqb c " ".

(** ReadHelper::fetch, json_handle.cpp:38-57: the characters that are handed over
    and those that have not been read. [None]: zero is returned, as the input
    ended; what had been read so far is lost. *)
Fixpoint fetch (n : nat) (s : str) : option (str * str) :=
  match n with
  | O => Some ([], s)
  | S n' =>
      match s with
      | [] => None
      | c :: s' =>
          if ends_chunk c then Some ([c], s')
          else match fetch n' s' with
               | Some (chunk, rest) => Some (c :: chunk, rest)
               | None => None
               end
      end
  end.

(** The outcome of jsonLoad. *)
Inductive loaded (V : Type) : Type :=
| Value (v : V) (unread : str)   (* valid handle; what has not been taken from the input buffer *)
| NoValue                        (* invalid handle, no exception *)
| DecodeError                    (* an exception is thrown *)
| OutOfFuel.                     (* excluded by C32_total *)
Arguments Value {V}.
Arguments NoValue {V}.
Arguments DecodeError {V}.
Arguments OutOfFuel {V}.

Section Load.
  Context {S V : Type} (d : decoder S V).

  Fixpoint feed_all (st : S) (s : str) : progress S V :=
    match s with
    | [] => Continue st
    | c :: s' =>
        match feed d st (Some c) with
        | Continue st' => feed_all st' s'
        | r => r
        end
    end.

  (** What jsonLoad does if no value has been decoded, json_handle.cpp:87-90. *)
  Definition not_decoded (has_data : bool) : loaded V := if has_data then DecodeError else NoValue.

  (** json_load_callback, as far as it concerns reading: the buffer size of
      jansson is a parameter (1024 in the library). A callback that returns zero
      is the end of the input. *)
  Fixpoint load_loop (fuel : nat) (buffer_size : nat) (st : S) (s : str) (has_data : bool) : loaded V :=
    match fuel with
    | O => OutOfFuel
    | Datatypes.S fuel' =>
        match fetch buffer_size s with
        | None =>
            match feed d st None with
            | Decoded v => Value v []
            | _ => not_decoded has_data
            end
        | Some (chunk, rest) =>
            let has_data' := has_data || has_non_whitespace chunk in
            match feed_all st chunk with
            | Continue st' => load_loop fuel' buffer_size st' rest has_data'
            | Decoded v => Value v rest
            | Failed => not_decoded has_data'
            end
        end
    end.

  (** jsonLoad, json_handle.cpp:71-91 *)
  Definition json_load (buffer_size : nat) (s : str) : loaded V :=
    load_loop (Datatypes.S (length s)) buffer_size (initial d) s false.
End Load.
