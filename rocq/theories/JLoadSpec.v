(** Vocabulary for reading JSON from a stream. *)

From Coq Require Import Ascii String Bool.
From Coq Require Import List.
From Verif Require Import Str JLoadModel.
Import ListNotations.

(** Control characters and space. *)
Definition blank (c : ascii) : Prop := nat_of_ascii c <= 32.

Definition closing (c : ascii) : Prop := c = "}"%char \/ c = "]"%char \/ c = " "%char.

(** What a decoder makes of a text that is given to it in one piece. *)
Section Decoder.
  Context {S V : Type} (d : decoder S V).

  (** The decoder goes from [st] to [st'] by reading [s]. *)
  Inductive reads : S -> str -> S -> Prop :=
  | reads_nil st : reads st [] st
  | reads_cons st c st1 s st2 : feed d st (Some c) = Continue st1 -> reads st1 s st2 -> reads st (c :: s) st2.

  (** [s] is the text of the value [v]: it is decoded when the last character has
      been read. *)
  Definition text_of (s : str) (v : V) : Prop :=
    exists s' c st, s = s' ++ [c] /\ reads (initial d) s' st /\ feed d st (Some c) = Decoded v.

  (** [s] is malformed: some character of it cannot be accepted. *)
  Definition wrong (s : str) : Prop :=
    exists s1 c s2 st, s = s1 ++ c :: s2 /\ reads (initial d) s1 st /\ feed d st (Some c) = Failed.

  (** [s] does not begin with a value, not even if the input ended somewhere in
      it. *)
  Definition no_value (s : str) : Prop :=
    forall s1 s2, s = s1 ++ s2 ->
      (forall v, ~ text_of s1 v) /\
      (forall st v, reads (initial d) s1 st -> feed d st None <> Decoded v).
End Decoder.
