(** Properties of reading JSON from a stream. [n] is the size of the buffer that the
    JSON library provides (1024). *)

From Coq Require Import Ascii String Bool Arith Lia.
From Coq Require Import List.
From Verif Require Import Str JLoadModel JLoadSpec JLoadProofs.
Import ListNotations.

(** C32: reading a text ends. *)
Theorem C32_total : forall (S V : Type) (d : decoder S V) n s, 0 < n -> json_load d n s <> OutOfFuel.
Proof. intros S V d n s. exact (load_total d n s). Qed.
Print Assumptions C32_total.

(** C32: an object, or anything else that ends in '}', ']' or a space, is found
    whatever follows it, and nothing of what follows it is used up. *)
Theorem C32_value : forall (S V : Type) (d : decoder S V) n s c rest v, 0 < n -> closing c ->
  text_of d (s ++ [c]) v -> json_load d n (s ++ c :: rest) = Value v rest.
Proof. intros S V d. exact (load_value d). Qed.
Print Assumptions C32_value.

(** C32: a value that is returned is what the text, up to some point, says. *)
Theorem C32_value_sound : forall (S V : Type) (d : decoder S V) n s v unread, 0 < n ->
  json_load d n s = Value v unread ->
  exists p q, s = p ++ q /\ (text_of d p v \/ exists st, reads d (initial d) p st /\ feed d st None = Decoded v).
Proof. intros S V d. exact (load_value_sound d). Qed.
Print Assumptions C32_value_sound.

(** C32: an error is reported only if the text is not blank, and some part of it,
    taken from the beginning, is malformed or incomplete. *)
Theorem C32_error_sound : forall (S V : Type) (d : decoder S V) n s, 0 < n -> json_load d n s = DecodeError ->
  (exists c, In c s /\ ~ blank c) /\
  exists p q, s = p ++ q /\
    (wrong d p \/ exists st, reads d (initial d) p st /\ forall v, feed d st None <> Decoded v).
Proof. intros S V d. exact (load_error_sound d). Qed.
Print Assumptions C32_error_sound.

(** C32: a text that does not begin with a value is reported, provided that some
    character that is not blank is, or is followed by, a '}', ']' or a space, or is
    followed by as much text as the buffer can hold. The full statement, without
    the proviso, is refuted below. *)
Theorem C32_reported_partial : forall (S V : Type) (d : decoder S V) n before c after, 0 < n -> ~ blank c ->
  (exists x, In x (c :: after) /\ closing x) \/ n <= length after ->
  ~ wrong d before -> no_value d (before ++ c :: after) ->
  json_load d n (before ++ c :: after) = DecodeError.
Proof. intros S V d. exact (load_reported d). Qed.
Print Assumptions C32_reported_partial.

(** C32: that is all that can go wrong. If neither a value nor an error results,
    then the text begins with blanks, and either one of these blanks is not allowed
    in JSON, or what follows them is shorter than the buffer and has none of the
    characters '}', ']' and space. *)
Theorem C32_silent : forall (S V : Type) (d : decoder S V) n s, 0 < n -> json_load d n s = NoValue ->
  exists p q, s = p ++ q /\ Forall blank p /\
    (wrong d p \/ (Forall (fun c => ~ closing c) q /\ length q < n)).
Proof. intros S V d. exact (load_silent d). Qed.
Print Assumptions C32_silent.

(** ** Examples and refutations *)

Local Open Scope string_scope.
Local Open Scope list_scope.

(** A decoder that finds the end of an object or array by counting brackets outside
    of strings. Its state: whether it is in a string, whether a backslash has been
    read, and the number of brackets. *)
Definition counting : decoder (bool * bool * nat) unit :=
  mk_decoder (false, false, 0)
    (fun st x =>
       match st, x with
       | _, None => Failed
       | (true, true, n), Some _ => Continue (true, false, n)
       | (true, false, n), Some c =>
           if Ascii.eqb c "034" then Continue (false, false, n)
           else if Ascii.eqb c "\" then Continue (true, true, n)
           else Continue (true, false, n)
       | (false, _, n), Some c =>
           if Ascii.eqb c "{" || Ascii.eqb c "[" then Continue (false, false, S n)
           else if Ascii.eqb c "}" || Ascii.eqb c "]" then
             match n with
             | 0 => Failed
             | 1 => Decoded tt
             | S n' => Continue (false, false, n')
             end
           else if Ascii.eqb c " " || Ascii.eqb c "009" || Ascii.eqb c "010" || Ascii.eqb c "013" then Continue (false, false, n)
           else match n with
                | 0 => Failed
                | _ => if Ascii.eqb c "034" then Continue (true, false, n) else Continue (false, false, n)
                end
       end).

(** C32: a tag block with an object that is never closed is taken to be empty. *)
Theorem C32_unclosed_refuted : exists s, (exists c, In c s /\ ~ blank c) /\
  json_load counting 1024 s = NoValue /\
  (forall v, ~ text_of counting s v).
Proof.
  exists (lit "{""targets"":[{""name"":""foo.o""").
  split; [exists "{"%char; split; [left; reflexivity|cbv; lia]|]. split; [vm_compute; reflexivity|].
  intros v (s' & c & st & E & R & F).
  change (lit "{""targets"":[{""name"":""foo.o""") with (lit "{""targets"":[{""name"":""foo.o" ++ lit """") in E.
  apply app_inj_tail in E. destruct E as [<- <-]. apply feed_all_reads in R. vm_compute in R. injection R as <-.
  discriminate F.
Qed.
Print Assumptions C32_unclosed_refuted.

(** C32: the same for text that cannot be the beginning of a value. *)
Theorem C32_garbage_refuted : exists s, (exists c, In c s /\ ~ blank c) /\ wrong counting s /\
  json_load counting 1024 s = NoValue.
Proof.
  exists (lit "targets:foo.o"). split; [exists "t"%char; split; [left; reflexivity|cbv; lia]|]. split; [|vm_compute; reflexivity].
  exists [], "t"%char, (lit "argets:foo.o"), (false, false, 0). split; [reflexivity|]. split; [constructor|reflexivity].
Qed.
Print Assumptions C32_garbage_refuted.

(** C32: a control character before an object silently discards the object. *)
Theorem C32_control_refuted : exists s, (exists v, json_load counting 1024 (lit " " ++ s) = Value v []) /\
  json_load counting 1024 (ascii_of_nat 1 :: lit " " ++ s) = NoValue.
Proof. exists (lit "{""targets"":[]}"). split; [exists tt|]; vm_compute; reflexivity. Qed.
Print Assumptions C32_control_refuted.

Example an_object : text_of counting (lit "{""a"":""}"", ""b"":[]}") tt /\
  json_load counting 1024 (lit "{""a"":""}"", ""b"":[]}" ++ lit "{}") = Value tt (lit "{}").
Proof.
  split; [|vm_compute; reflexivity]. exists (lit "{""a"":""}"", ""b"":[]"), "}"%char, (false, false, 1).
  split; [reflexivity|]. split; [apply feed_all_reads; vm_compute; reflexivity|reflexivity].
Qed.

(** A reported error, with the hypotheses of C32_reported_partial. *)
Example an_error : json_load counting 1024 (lit " " ++ "{"%char :: lit """a"": ") = DecodeError.
Proof.
  apply C32_reported_partial; [lia|cbv; lia| | |].
  - left. exists " "%char. split; [vm_compute; tauto|right; right; reflexivity].
  - intros (s1 & c & s2 & st & E & R & F). destruct s1 as [|x [|y s1]]; try discriminate.
    injection E as <- <-. inversion R; subst. discriminate.
  - intros s1 s2 E. split.
    + intros v (s' & c & st & -> & R & F). apply feed_all_reads in R.
      rewrite <- app_assoc in E. cbn in E.
      do 7 (destruct s' as [|? s'];
        [injection E; intros; subst; vm_compute in R; injection R as <-; discriminate F|
         cbn in E; apply (f_equal (@tl ascii)) in E as E'; cbn in E';
         apply (f_equal (@hd ascii " "%char)) in E; cbn in E; subst; rename E' into E]).
      destruct s'; discriminate E.
    + intros st v _. cbn. destruct st as [[[] []] ?]; discriminate.
Qed.

Example small_buffer : json_load counting 3 (lit "abcd") = DecodeError /\ json_load counting 5 (lit "abcd") = NoValue.
Proof. split; vm_compute; reflexivity. Qed.
