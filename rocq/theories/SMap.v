(** [std::map] with paths as keys: a list of entries in increasing order. *)

From Coq Require Import List.
From Verif Require Import Str Path.
Import ListNotations.

Section Map.
  Variable V : Type.

  Definition smap := list (path * V).

  (** find *)
  Fixpoint map_find (k : path) (m : smap) : option V :=
    match m with
    | [] => None
    | (k', v) :: m' =>
        match path_compare k k' with
        | Eq => Some v
        | Lt => None
        | Gt => map_find k m'
        end
    end.

  (** insert: does nothing if the key is present. *)
  Fixpoint map_insert (k : path) (v : V) (m : smap) : smap :=
    match m with
    | [] => [(k, v)]
    | (k', v') :: m' =>
        match path_compare k k' with
        | Eq => m
        | Lt => (k, v) :: m
        | Gt => (k', v') :: map_insert k v m'
        end
    end.

  (** merge: moves the entries of [src] whose keys are not in [dst]. *)
  Definition map_merge (dst src : smap) : smap :=
    fold_left (fun m e => map_insert (fst e) (snd e) m) src dst.
End Map.

Arguments map_find {V} k m.
Arguments map_insert {V} k v m.
Arguments map_merge {V} dst src.
