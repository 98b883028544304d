(** Vocabulary for the output of pkg-config. *)

From Coq Require Import Ascii String ZArith.
From Coq Require Import List.
From Verif Require Import Str.
Import ListNotations.

Definition white_space (c : ascii) : Prop := In (nat_of_ascii c) [9; 10; 11; 12; 13; 28; 29; 30; 31; 32].

Definition gap (s : str) : Prop := Forall white_space s.

Definition word (w : str) : Prop := w <> [] /\ Forall (fun c => ~ white_space c) w.

(** Nothing, or something that starts with white space *)
Definition apart_from_word (s : str) : Prop := s = [] \/ exists c s', s = c :: s' /\ white_space c.

(** The words of a text *)
Inductive consists : str -> list str -> Prop :=
| consists_none g : gap g -> consists g []
| consists_word g w s ws : gap g -> word w -> apart_from_word s -> consists s ws -> consists (g ++ w ++ s) (w :: ws).

(** Words with one blank between them *)
Fixpoint spaced (ws : list str) : str :=
  match ws with
  | [] => []
  | [w] => w
  | w :: ws' => w ++ lit " " ++ spaced ws'
  end.

(** How pkg-config writes words so that a shell can read them, as far as blanks are concerned *)
Definition escaped (w : str) : str := flat_map (fun c => if Ascii.eqb c " " then lit "\ " else [c]) w.

(** The program has succeeded with the given output. *)
Definition says (run : list str -> option (Z * str)) (option : string) (libname out : str) : Prop :=
  run [lit "pkg-config"; lit option; libname] = Some (0%Z, out).
