(** Vocabulary for statements about merging configurations. *)

From Coq Require Import List Bool.
From Verif Require Import Str Path JsonModel.
Import ListNotations.

(** The value of member [k] of an object. *)
Definition member (o : list (str * json)) (k : str) (v : json) : Prop := In (k, v) o.

Definition has_member (o : list (str * json)) (k : str) : Prop := In k (map fst o).

(** No object, at any depth, has two members with the same name. (Guaranteed
    by JSON_REJECT_DUPLICATES when loading and by [set] when constructing.) *)
Inductive well_formed : json -> Prop :=
| wf_object : forall o, NoDup (map fst o) -> (forall k v, member o k v -> well_formed v) ->
                        well_formed (JObject o)
| wf_array : forall l, (forall v, In v l -> well_formed v) -> well_formed (JArray l)
| wf_string : forall s, well_formed (JString s)
| wf_integer : forall z, well_formed (JInteger z)
| wf_real : forall s, well_formed (JReal s)
| wf_true : well_formed JTrue
| wf_false : well_formed JFalse
| wf_null : well_formed JNull.

Definition is_container (j : json) : Prop :=
  match j with JObject _ | JArray _ => True | _ => False end.

(** Two values of the same kind. As far as maike is concerned, "true" and
    "false" are different kinds (json_handle.hpp:23-33). *)
Inductive same_kind : json -> json -> Prop :=
| same_object : forall a b, same_kind (JObject a) (JObject b)
| same_array : forall a b, same_kind (JArray a) (JArray b)
| same_string : forall a b, same_kind (JString a) (JString b)
| same_integer : forall a b, same_kind (JInteger a) (JInteger b)
| same_real : forall a b, same_kind (JReal a) (JReal b)
| same_true : same_kind JTrue JTrue
| same_false : same_kind JFalse JFalse
| same_null : same_kind JNull JNull.

Definition is_boolean (j : json) : Prop := j = JTrue \/ j = JFalse.

(** [merged a b c]: [c] is what merging [b] into [a] should give. *)
Inductive merged : json -> json -> json -> Prop :=
| merged_arrays : forall xs ys, merged (JArray xs) (JArray ys) (JArray (xs ++ ys))
| merged_scalars : forall a b, same_kind a b -> ~ is_container b -> merged a b b
| merged_objects : forall a b c,
    (forall k, has_member c k <-> has_member a k \/ has_member b k) ->
    (forall k v, member a k v -> ~ has_member b k -> member c k v) ->
    (forall k v, member b k v -> ~ has_member a k -> member c k v) ->
    (forall k va vb, member a k va -> member b k vb ->
                     exists vc, merged va vb vc /\ member c k vc) ->
    merged (JObject a) (JObject b) (JObject c).

(** [clash a b]: somewhere the two have values of different kinds under the
    same name. *)
Inductive clash : json -> json -> Prop :=
| clash_here : forall a b, ~ same_kind a b -> clash a b
| clash_inside : forall a b k va vb, member a k va -> member b k vb -> clash va vb ->
                                     clash (JObject a) (JObject b).
