(** Properties C23 and C24: streams of bytes. *)

From Coq Require Import Arith Bool.
From Coq Require Import List.
From Verif Require Import IoModel IoProofs.
Import ListNotations.

(** C23. One thread writes the chunks in [data], none of which is empty, and then
    stops the stream, while another thread reads. No matter how the threads are
    scheduled, there is no undefined behaviour, what has been read is a prefix of
    what is written, and zero is not returned until all has been read. *)
Theorem C23_fifo_delivers : forall A size (data extra : list (list A)) cs r, (forall k, 0 < size k) ->
    (forall c, In c data -> c <> []) ->
    run size cs (start (data ++ [] :: extra)) = Some r ->
    exists s, r = Some s /\
      (forall k d, nth_error (got s) k = Some d -> length d <= size k) /\
      (exists rest, concat data = concat (got s) ++ rest) /\
      (In [] (got s) -> concat (got s) = concat data).
Proof. exact @fifo_delivers. Qed.
Print Assumptions C23_fifo_delivers.

(** Until the end of the stream has been reached, at least one thread can continue. *)
Theorem C23_fifo_never_stuck : forall A size (data extra : list (list A)) cs s, (forall k, 0 < size k) ->
    (forall c, In c data -> c <> []) ->
    run size cs (start (data ++ [] :: extra)) = Some (Some s) -> ~ In [] (got s) ->
    exists c s', c <> Spurious /\ step size c s = Some (Some s').
Proof. exact @fifo_not_stuck. Qed.
Print Assumptions C23_fifo_never_stuck.

(** And this cannot go on forever, unless there are infinitely many spurious wakeups. *)
Theorem C23_fifo_terminates : forall A size (data extra : list (list A)) cs s, (forall k, 0 < size k) ->
    run size cs (start (data ++ [] :: extra)) = Some (Some s) ->
    length (filter (fun c => negb (spurious c)) cs) <=
    2 * length (data ++ [] :: extra) + 4 * length (concat (data ++ [] :: extra)) + 3 + length (filter spurious cs).
Proof. exact @fifo_terminates. Qed.
Print Assumptions C23_fifo_terminates.

(** C24. The elements of [xs] are put in an output buffer, whose destructor has run
    before the stream is stopped. They are read one by one through an input buffer,
    until it returns -1. *)
Theorem C24_buffers_deliver : forall A cap cap' (xs : list A) cs r, 0 < cap -> 0 < cap' ->
    run (fun _ => cap') cs (start (output_buffer cap xs ++ [[]])) = Some r ->
    exists s, r = Some s /\
      (In [] (got s) -> forall fuel, length xs < fuel -> get_all fuel [] (map (@Some (list A)) (got s)) = Some xs).
Proof. exact @buffers_deliver. Qed.
Print Assumptions C24_buffers_deliver.

(** An output buffer passes on each element once, in order, in chunks that fit. *)
Theorem C24_output_buffer : forall A cap (xs : list A), 0 < cap ->
    concat (output_buffer cap xs) = xs /\
    (forall w, In w (output_buffer cap xs) -> length w <= cap) /\
    (xs <> [] -> forall w, In w (output_buffer cap xs) -> w <> []) /\ (xs = [] -> output_buffer cap xs = [[]]).
Proof. exact @output_buffer_spec. Qed.
Print Assumptions C24_output_buffer.

(** An input buffer gives back what the source returned, until the source has nothing
    left, or fails. Both are seen as the end, and what comes later is not asked for. *)
Theorem C24_input_buffer : forall A (chunks : list (list A)) last rest fuel,
    Forall (fun c => c <> []) chunks -> last = None \/ last = Some [] -> length (concat chunks) < fuel ->
    get_all fuel [] (map Some chunks ++ last :: rest) = Some (concat chunks).
Proof. exact @input_buffer_reads. Qed.
Print Assumptions C24_input_buffer.

(** The reader falls asleep, is woken up twice without reason, and then by the writer. *)
Example C23_interleaved :
  option_map (option_map (fun s => (got s, todo s)))
    (run (fun k => S k) [Read; Spurious; Read; Spurious; Read; Write; Read; Read; Write; Read; Read; Read; Read;
                         Write; Read; Read; Read; Read]
       (start ([[1; 2; 3]; [4; 5]] ++ [[]]))) = Some (Some ([[1]; [2; 3]; [4; 5]], [])).
Proof. vm_compute. reflexivity. Qed.

Example C24_round_trip :
  option_map (option_map (fun s => (got s, get_all 10 [] (map (@Some (list nat)) (got s)))))
    (run (fun _ => 2) (repeat Write 3 ++ repeat Read 12) (start (output_buffer 3 [1; 2; 3; 4] ++ [[]])))
  = Some (Some ([[1; 2]; [3]; [4]; []], Some [1; 2; 3; 4])).
Proof. vm_compute. reflexivity. Qed.

(** If an empty chunk is written before the stream is stopped, the rest is lost. *)
Theorem C23_empty_chunk_refuted : exists (writes : list (list nat)) cs,
    match run (fun _ => 4) cs (start (writes ++ [[]])) with
    | Some (Some s) => In [] (got s) /\ concat (got s) <> concat writes
    | _ => False
    end.
Proof.
  exists [[1]; []; [2]], [Write; Write; Write; Write; Read; Read; Read; Read; Read; Read]. vm_compute.
  split; [auto|discriminate].
Qed.
Print Assumptions C23_empty_chunk_refuted.
