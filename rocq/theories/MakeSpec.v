(** Vocabulary for statements about what recipes make. *)

From Coq Require Import List ZArith.
From Verif Require Import Str MakeModel.
Import ListNotations.

(** Return codes are exit statuses, or negative numbers of signals. *)
Definition ordinary_codes (run : list str -> files -> files * option Z) : Prop :=
  forall args F r, snd (run args F) = Some r -> (-255 <= r <= 255)%Z.

(** The tool started with [args] writes to none of [targets]. *)
Definition leaves_alone (run : list str -> files -> files * option Z) (args : list str) (targets : list str) : Prop :=
  forall F t, In t targets -> fst (run args F) t = F t.

(** A tool that makes the file [target] with the content [content], and nothing else *)
Definition makes (run : list str -> files -> files * option Z) (args : list str) (F : files) (target content : str) : Prop :=
  snd (run args F) = Some 0%Z /\ fst (run args F) target = Some content /\
  forall q, q <> target -> fst (run args F) q = F q.
