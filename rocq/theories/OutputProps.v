(** Property C61: the output of a recipe is read as it is. [capacity] is the size of the input
    buffer (4096), [n] that of the buffer of the JSON library (1024). *)

From Coq Require Import Ascii String Bool Arith Lia.
From Coq Require Import List.
From Verif Require Import Str JLoadModel JLoadSpec JLoadProofs JLoadProps OutputModel OutputProofs.
Import ListNotations.

(** C61, for output that is short enough. The full statement, without the limit, is
    refuted below. *)
Theorem C61_short_partial : forall (S V : Type) (d : decoder S V) capacity n s c rest v, 0 < n -> closing c ->
  text_of d (s ++ [c]) v -> length (s ++ [c]) <= capacity ->
  exists fuel0 unread, forall fuel, fuel0 <= fuel -> load_output d fuel capacity n (s ++ c :: rest) = Value v unread.
Proof. intros S V d. exact (load_output_value d). Qed.
Print Assumptions C61_short_partial.

(** C61: malformed output is reported, under the same condition. *)
Theorem C61_malformed_partial : forall (S V : Type) (d : decoder S V) capacity n s c rest st, 0 < n ->
  reads d (initial d) s st -> feed d st (Some c) = Failed -> ~ blank c -> length (s ++ [c]) <= capacity ->
  exists fuel0, forall fuel, fuel0 <= fuel -> load_output d fuel capacity n (s ++ c :: rest) = DecodeError.
Proof. intros S V d. exact (load_output_malformed d). Qed.
Print Assumptions C61_malformed_partial.

(** Longer output may be read over and over again: there is a text of a value,
    that is never found. *)
Theorem C61_long_refuted : forall capacity n, 0 < capacity ->
  exists s v, text_of counting s v /\ length s = capacity + 2 /\
    forall fuel, load_output counting fuel capacity n s = OutOfFuel.
Proof.
  intros capacity n P. exists ("["%char :: repeat " "%char capacity ++ ["]"%char]), tt.
  assert (B : forall k m, reads counting (false, false, m) (repeat " "%char k) (false, false, m)).
  { induction k as [|k IH]; intro m; [constructor|]. econstructor; [reflexivity|apply IH]. }
  split; [|split; [cbn; rewrite app_length, repeat_length; cbn; lia|]].
  - exists ("["%char :: repeat " "%char capacity), "]"%char, (false, false, 1). split; [reflexivity|].
    split; [|reflexivity]. econstructor; [reflexivity|apply B].
  - apply load_forever; [assumption|discriminate|].
    assert (I : forall c, In c (firstn capacity ("["%char :: repeat " "%char capacity ++ ["]"%char])) -> c = "["%char \/ c = " "%char).
    { destruct capacity as [|m]; [lia|]. cbn [firstn]. intros c [<-|I]; [now left|]. right.
      rewrite firstn_app, repeat_length in I. apply in_app_or in I. destruct I as [I|I].
      - apply (repeat_spec (S m) " "%char). rewrite <- (firstn_skipn m (repeat " "%char (S m))). apply in_or_app. now left.
      - replace (m - S m) with 0 in I by lia. destruct I. }
    intros s A. assert (G : forall m, exists st, reads counting (false, false, m) s st).
    { induction s as [|c s IH]; intro m; [eexists; constructor|].
      assert (IHs : forall m, exists st, reads counting (false, false, m) s st) by (apply IH; intros x X; apply A; now right).
      destruct (I c (A c (or_introl eq_refl))) as [->| ->].
      - destruct (IHs (S m)) as (st & R). exists st. econstructor; [reflexivity|exact R].
      - destruct (IHs m) as (st & R). exists st. econstructor; [reflexivity|exact R]. }
    exact (G 0).
Qed.
Print Assumptions C61_long_refuted.

(** So is output that consists of line breaks, by any decoder that skips these. *)
Theorem C61_blank_refuted : forall (S V : Type) (d : decoder S V) capacity n k, 0 < capacity -> 0 < k ->
  (forall m, exists st, reads d (initial d) (repeat "010"%char m) st) ->
  forall fuel, load_output d fuel capacity n (repeat "010"%char k) = OutOfFuel.
Proof.
  intros S V d capacity n k P K A. apply load_forever; [assumption|destruct k; [lia|discriminate]|].
  intros s I. assert (E : s = repeat "010"%char (length s)); [|rewrite E; apply A].
  assert (J : forall c, In c s -> c = "010"%char).
  { intros c X. apply I in X. apply (repeat_spec k). rewrite <- (firstn_skipn capacity (repeat "010"%char k)). apply in_or_app. now left. }
  clear - J. induction s as [|c s IH]; [reflexivity|]. cbn [length repeat]. rewrite (J c (or_introl eq_refl)) at 1. f_equal.
  apply IH. intros x X. apply J. now right.
Qed.
Print Assumptions C61_blank_refuted.

Local Open Scope string_scope.
Local Open Scope list_scope.

Example short_output : load_output counting 10 4096 1024 (lit "{""a"":[]}" ++ ["010"%char]) = Value tt ["010"%char].
Proof. reflexivity. Qed.

(** The hypothesis of C61_short_partial *)
Example short_text : text_of counting (lit "{""a"":[]}") tt.
Proof.
  exists (lit "{""a"":[]"), "}"%char, (false, false, 1). split; [reflexivity|]. split; [apply feed_all_reads; reflexivity|reflexivity].
Qed.

(** The hypothesis of C61_blank_refuted *)
Example counting_skips : forall m, exists st, reads counting (initial counting) (repeat "010"%char m) st.
Proof.
  intro m. exists (initial counting). induction m as [|m IH]; [constructor|]. econstructor; [reflexivity|exact IH].
Qed.

(** The hypotheses of C61_malformed_partial *)
Example malformed_output : exists st, reads counting (initial counting) (lit "  ") st /\ feed counting st (Some "x"%char) = Failed /\
  ~ blank "x"%char /\ load_output counting 10 4096 1024 (lit "  x") = DecodeError.
Proof.
  exists (false, false, 0). split; [apply feed_all_reads; reflexivity|]. split; [reflexivity|].
  split; [unfold blank; cbn; lia|vm_compute; reflexivity].
Qed.
