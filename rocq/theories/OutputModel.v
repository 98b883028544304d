(** Model of how the output of a recipe is read: BufferReader in
    core/db/compiler.cpp:39-52, as used by configRecipe (line 84) and getTags (line
    121). *)

From Coq Require Import Ascii String Bool Arith.
From Coq Require Import List.
From Verif Require Import Str JLoadModel.
Import ListNotations.

(** read(BufferReader&, ...), compiler.cpp:45-52: [n] is the space available. The
    offset is zero, and is not changed. *)
Definition buffer_read (output : str) (n : nat) : str := firstn n output.

(** InputBuffer::getchar, io/input_buffer.hpp:24-34: [s] is what remains of the
    latest block. [None]: -1 *)
Definition next_char (capacity : nat) (output s : str) : option (ascii * str) :=
  match (match s with [] => buffer_read output capacity | _ => s end) with
  | [] => None
  | c :: s' => Some (c, s')
  end.

(** ReadHelper::fetch, json_handle.cpp:38-57, as [fetch] in JLoadModel.v, except for
    where characters come from. *)
Fixpoint fetch_output (capacity : nat) (output : str) (n : nat) (s : str) : option (str * str) :=
  match n with
  | O => Some ([], s)
  | S n' =>
      match next_char capacity output s with
      | None => None
      | Some (c, s') =>
          if ends_chunk c then Some ([c], s')
          else match fetch_output capacity output n' s' with
               | Some (chunk, rest) => Some (c :: chunk, rest)
               | None => None
               end
      end
  end.

Section Load.
  Context {S V : Type} (d : decoder S V).

  (** As load_loop in JLoadModel.v *)
  Fixpoint output_loop (fuel capacity : nat) (output : str) (buffer_size : nat) (st : S) (s : str) (has_data : bool) : loaded V :=
    match fuel with
    | O => OutOfFuel
    | Datatypes.S fuel' =>
        match fetch_output capacity output buffer_size s with
        | None =>
            match feed d st None with
            | Decoded v => Value v []
            | _ => not_decoded has_data
            end
        | Some (chunk, rest) =>
            let has_data' := has_data || has_non_whitespace chunk in
            match feed_all d st chunk with
            | Continue st' => output_loop fuel' capacity output buffer_size st' rest has_data'
            | Decoded v => Value v rest
            | Failed => not_decoded has_data'
            end
        end
    end.

  (** Compound{BufferReader{output, 0}, ...}. [fuel] is the number of calls to fetch;
      if it does not suffice, the result is OutOfFuel. The capacity is 4096, the
      buffer size 1024. *)
  Definition load_output (fuel capacity buffer_size : nat) (output : str) : loaded V :=
    output_loop fuel capacity output buffer_size (initial d) [] false.
End Load.
