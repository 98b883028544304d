(** Vocabulary for tools that get input. *)

From Coq Require Import Ascii.
From Coq Require Import List.
From Verif Require Import Str FeedModel.
Import ListNotations.

(** What a tool does when it is given some input by hand, without pipes: what it reads,
    and what it writes to its two outputs. [None] as input: its standard input is
    closed. The result is [None] if it asks for more than there is. *)
Record effect := mk_effect { reads : str; prints : str; complains : str }.

Definition reading (c : ascii) (x : effect) : effect := mk_effect (c :: reads x) (prints x) (complains x).
Definition printing (c : ascii) (x : effect) : effect := mk_effect (reads x) (c :: prints x) (complains x).
Definition complaining (c : ascii) (x : effect) : effect := mk_effect (reads x) (prints x) (c :: complains x).

Fixpoint behave (p : program) (input : option str) : option effect :=
  match p with
  | Exit => Some (mk_effect [] [] [])
  | PutOut c q => option_map (printing c) (behave q input)
  | PutErr c q => option_map (complaining c) (behave q input)
  | Get k =>
      match input with
      | Some (c :: rest) => option_map (reading c) (behave (k (Some c)) (Some rest))
      | Some [] => None
      | None => behave (k None) None
      end
  | CloseIn q => behave q None
  end.

(** The number of actions before it exits, or asks for more than there is *)
Fixpoint actions (p : program) (input : option str) : nat :=
  match p with
  | Exit => 1
  | PutOut _ q | PutErr _ q => S (actions q input)
  | Get k =>
      match input with
      | Some (c :: rest) => S (actions (k (Some c)) (Some rest))
      | Some [] => 1
      | None => S (actions (k None) None)
      end
  | CloseIn q => S (actions q None)
  end.

Definition returned (s : state) : Prop := caller s = Returned.

Definition reachable (capacity : nat) (p : program) (input : str) (s : state) : Prop :=
  exists n, steps capacity n (start p input) s.

Definition prefix_of (a b : str) : Prop := exists c, b = a ++ c.
