(** Lexical part of [std::filesystem::path] on POSIX systems.

    Two paths compare equal in C++ iff they have the same root and the same
    sequence of components, thus a path is modelled by what iteration over it
    yields. A trailing slash gives rise to a last, empty, component, as in the
    C++ library. Redundant slashes are not represented. *)

From Coq Require Import List Ascii String Bool.
From Verif Require Import Str.
Import ListNotations.

Record path := mk_path {
  absolute : bool;           (* starts with '/' *)
  comps : list str           (* the relative part, component by component *)
}.

Definition empty_path : path := mk_path false [].

Fixpoint strs_eqb (x y : list str) : bool :=
  match x, y with
  | [], [] => true
  | a :: x', b :: y' => str_eqb a b && strs_eqb x' y'
  | _, _ => false
  end.

(** operator== *)
Definition path_eqb (a b : path) : bool :=
  Bool.eqb (absolute a) (absolute b) && strs_eqb (comps a) (comps b).

(** operator<: the root directory first, then component by component. *)
Definition path_compare (a b : path) : comparison :=
  match absolute a, absolute b with
  | false, true => Lt
  | true, false => Gt
  | _, _ => list_compare str_compare (comps a) (comps b)
  end.

Definition path_ltb (a b : path) : bool :=
  match path_compare a b with Lt => true | _ => false end.

(** Split at slashes. [cur] is the current component, reversed. *)
Fixpoint split_slash (s : str) (cur : str) : list str :=
  match s with
  | [] => [rev cur]
  | c :: s' =>
      if Ascii.eqb c "/" then rev cur :: split_slash s' []
      else split_slash s' (c :: cur)
  end.

Definition is_nil {A} (l : list A) : bool := match l with [] => true | _ => false end.

(** Conversion from a string. Empty components stem from repeated slashes and
    are dropped, except for the one after a trailing slash. *)
Definition parse_path (s : str) : path :=
  let pieces := split_slash s [] in
  let proper := filter (fun c => negb (is_nil c)) pieces in
  mk_path (match s with c :: _ => Ascii.eqb c "/" | [] => false end)
          (if is_nil proper then []
           else if is_nil (last pieces []) then proper ++ [[]] else proper).

Fixpoint join_slash (l : list str) : str :=
  match l with
  | [] => []
  | [c] => c
  | c :: l' => c ++ "/"%char :: join_slash l'
  end.

(** path::string() *)
Definition path_string (p : path) : str :=
  if absolute p then "/"%char :: join_slash (comps p) else join_slash (comps p).

(** The last component, which is empty if there is no file name. *)
Definition filename (p : path) : str := last (comps p) [].

Definition has_filename (p : path) : bool := negb (is_nil (filename p)).

Definition parent_path (p : path) : path := mk_path (absolute p) (removelast (comps p)).

Definition strip_trailing (l : list str) : list str :=
  if is_nil (last l []) then removelast l else l.

(** operator/ *)
Definition append (p q : path) : path :=
  if absolute q then q
  else match comps q with
       | [] => if has_filename p then mk_path (absolute p) (comps p ++ [[]]) else p
       | _ => mk_path (absolute p) (strip_trailing (comps p) ++ comps q)
       end.

Definition dot : str := lit ".".
Definition dotdot : str := lit "..".

(** One step of lexically_normal. [out] is the normalised prefix, reversed;
    [slash] tells whether it is followed by a directory separator. *)
Definition normal_step (abs : bool) (st : list str * bool) (c : str) : list str * bool :=
  let '(out, slash) := st in
  if is_nil c || str_eqb c dot then (out, true)
  else if str_eqb c dotdot then
         match out with
         | [] => if abs then (out, true) else ([dotdot], false)
         | d :: out' => if str_eqb d dotdot then (dotdot :: out, false) else (out', true)
         end
       else (c :: out, false).

(** lexically_normal() *)
Definition lexically_normal (p : path) : path :=
  match absolute p, comps p with
  | false, [] => p
  | abs, cs =>
      let '(out, slash) := fold_left (normal_step abs) cs ([], false) in
      match out with
      | [] => if abs then mk_path true [] else mk_path false [dot]
      | d :: _ => mk_path abs (rev out ++ (if slash && negb (str_eqb d dotdot) then [[]] else []))
      end
  end.

(** Removes the longest common prefix. *)
Fixpoint mismatch (a b : list str) : list str * list str :=
  match a, b with
  | x :: a', y :: b' => if str_eqb x y then mismatch a' b' else (a, b)
  | _, _ => (a, b)
  end.

(** n in the definition of lexically_relative: number of file names in the rest
    of [base] minus the number of dot-dots, ignoring dots and empty elements.
    A pair (ups, downs) stands for the difference ups - downs. *)
Fixpoint count_up (b : list str) : nat * nat :=
  match b with
  | [] => (0, 0)
  | c :: b' =>
      let '(u, d) := count_up b' in
      if is_nil c || str_eqb c dot then (u, d)
      else if str_eqb c dotdot then (u, S d)
      else (S u, d)
  end.

(** p.lexically_relative(base) *)
Definition lexically_relative (p base : path) : path :=
  if negb (Bool.eqb (absolute p) (absolute base)) then empty_path
  else
    let '(a, b) := mismatch (comps p) (comps base) in
    match a, b with
    | [], [] => mk_path false [dot]
    | _, _ =>
        let '(u, d) := count_up b in
        if Nat.ltb u d then empty_path
        else if Nat.eqb u d && (is_nil a || is_nil (hd [] a)) then mk_path false [dot]
        else fold_left (fun acc c => append acc (mk_path false (if is_nil c then [] else [c])))
                       a (mk_path false (repeat dotdot (u - d)))
    end.
