(** Byte strings, as lists of characters, with the ordering that
    [std::string::compare] and [strcmp] use (unsigned characters). *)

From Coq Require Import List Ascii String NArith Bool.
Import ListNotations.

Definition str := list ascii.

(** String literals. *)
Definition lit (s : string) : str := list_ascii_of_string s.
Arguments lit s%string_scope.

Definition char_compare (a b : ascii) : comparison :=
  N.compare (N_of_ascii a) (N_of_ascii b).

(** Lexicographical comparison of lists. *)
Fixpoint list_compare {A} (cmp : A -> A -> comparison) (x y : list A) : comparison :=
  match x, y with
  | [], [] => Eq
  | [], _ :: _ => Lt
  | _ :: _, [] => Gt
  | a :: x', b :: y' =>
      match cmp a b with
      | Eq => list_compare cmp x' y'
      | c => c
      end
  end.

Definition str_compare : str -> str -> comparison := list_compare char_compare.

Fixpoint str_eqb (x y : str) : bool :=
  match x, y with
  | [], [] => true
  | a :: x', b :: y' => Ascii.eqb a b && str_eqb x' y'
  | _, _ => false
  end.
