(** Property C43: the memory query. *)

From Coq Require Import Ascii String ZArith.
From Coq Require Import List.
From Verif Require Import Str ValueModel ValueSpec MemModel MemSpec MemProofs.
Import ListNotations.

(** C43. What the line says is reported in bytes, if the line is within the first
    4096 bytes. *)
Theorem C43_reported_partial : forall lines ws digits n rest after, Forall other_line lines ->
  Forall (fun c => c = " "%char \/ c = "009"%char) ws -> numeral 10 digits n -> (n < 2 ^ 54)%Z ->
  (forall c s, rest = c :: s -> digit_in 10 c = None) -> ~ In "010"%char rest ->
  length (concat lines ++ mem_line (lit "MemAvailable") (ws ++ digits ++ rest)) <= 64 * 64 ->
  mem_avail (Some (concat lines ++ mem_line (lit "MemAvailable") (ws ++ digits ++ rest) ++ after)) = Some (1024 * n)%Z.
Proof. exact mem_reported. Qed.
Print Assumptions C43_reported_partial.

(** C43. Without such a line, zero is reported. *)
Theorem C43_absent : forall lines, Forall other_line lines -> mem_avail (Some (concat lines)) = Some 0%Z.
Proof. exact mem_absent. Qed.
Print Assumptions C43_absent.

(** A line further away is missed. *)
Theorem C43_far_refuted : exists before after,
  Forall other_line [before] /\ numeral 10 (lit "1") 1 /\
  mem_avail (Some (before ++ mem_line (lit "MemAvailable") (lit "1 kB") ++ after)) = Some 0%Z.
Proof.
  exists (mem_line (lit "MemTotal") (repeat " "%char mem_buffer_size)), [].
  assert (N : ~ In "010"%char (repeat " "%char mem_buffer_size)) by (intro I; apply repeat_spec in I; discriminate).
  split; [|split].
  - constructor; [|constructor]. exists (lit "MemTotal"), (repeat " "%char mem_buffer_size). split; [reflexivity|].
    split; [|split; [assumption|discriminate]]. cbn. intro I. repeat (destruct I as [I|I]; [discriminate|]). exact I.
  - apply (numeral_one 10 "1"%char 1); [left; reflexivity|]. repeat constructor.
  - apply mem_truncated; [assumption|]. now rewrite repeat_length.
Qed.
Print Assumptions C43_far_refuted.

(** So is a last line that is not terminated. *)
Theorem C43_last_refuted : forall lines value, Forall other_line lines -> ~ In "010"%char value ->
  length (concat lines ++ lit "MemAvailable:" ++ value) <= 64 * 64 ->
  mem_avail (Some (concat lines ++ lit "MemAvailable:" ++ value)) = Some 0%Z.
Proof. exact mem_unterminated. Qed.
Print Assumptions C43_last_refuted.

(** If the file cannot be read, the behaviour is undefined. *)
Theorem C43_unreadable_refuted : mem_avail None = None.
Proof. reflexivity. Qed.
Print Assumptions C43_unreadable_refuted.

Local Open Scope string_scope.
Local Open Scope list_scope.

Example meminfo :
  mem_avail (Some (mem_line (lit "MemTotal") (lit "       16264188 kB") ++ mem_line (lit "MemFree") (lit " 1 kB") ++
                   mem_line (lit "MemAvailable") (lit "   2048 kB") ++ mem_line (lit "Buffers") (lit " 5 kB"))) = Some 2097152%Z.
Proof. vm_compute. reflexivity. Qed.

Example meminfo_other : Forall other_line [mem_line (lit "MemTotal") (lit "       16264188 kB"); mem_line (lit "MemFree") (lit " 1 kB")].
Proof.
  constructor; [exists (lit "MemTotal"), (lit "       16264188 kB")|constructor; [exists (lit "MemFree"), (lit " 1 kB")|constructor]].
  all: split; [reflexivity|split; [|split; [|discriminate]]]; cbn; intro I; repeat (destruct I as [I|I]; [discriminate|]); exact I.
Qed.
