(** Model of [core/key_value_store]: JSON values and merging of configurations.

    Jansson objects are association lists in insertion order; setting an
    existing key replaces its value in place (json_object_set_new). *)

From Coq Require Import List Ascii String ZArith Bool.
From Verif Require Import Str Path.
Import ListNotations.

(** json_handle.hpp:23-33. A real number is represented by its text; no
    arithmetic is done on it. *)
Inductive json :=
| JObject (members : list (str * json))
| JArray (items : list json)
| JString (s : str)
| JInteger (z : Z)
| JReal (text : str)
| JTrue
| JFalse
| JNull.

(** The type tag, json_handle.hpp:23-33 and JsonRefConst::type() (91-94). *)
Inductive json_type :=
  TCompound | TArray | TString | TInteger | TFloat | TTrue | TFalse | TNull.

Definition json_type_of (j : json) : json_type :=
  match j with
  | JObject _ => TCompound
  | JArray _ => TArray
  | JString _ => TString
  | JInteger _ => TInteger
  | JReal _ => TFloat
  | JTrue => TTrue
  | JFalse => TFalse
  | JNull => TNull
  end.

Definition json_type_eqb (a b : json_type) : bool :=
  match a, b with
  | TCompound, TCompound | TArray, TArray | TString, TString | TInteger, TInteger
  | TFloat, TFloat | TTrue, TTrue | TFalse, TFalse | TNull, TNull => true
  | _, _ => false
  end.

Definition compound := list (str * json).

(** json_object_get *)
Fixpoint obj_get (k : str) (o : compound) : option json :=
  match o with
  | [] => None
  | (k', v) :: o' => if str_eqb k k' then Some v else obj_get k o'
  end.

(** json_object_set_new: compound.hpp:146-158 *)
Fixpoint obj_set (k : str) (v : json) (o : compound) : compound :=
  match o with
  | [] => [(k, v)]
  | (k', v') :: o' => if str_eqb k k' then (k', v) :: o' else (k', v') :: obj_set k v o'
  end.

(** Array operator|=, array.cpp:7-12 *)
Definition array_merge (a b : list json) : list json := a ++ b.

(** Compound operator|=, compound.cpp:10-40.

    [merge_value va vb] is the value stored when the key is present on both
    sides (compound.cpp:15-31); [None] stands for the exception "Type mismatch".
    [merge_members] is the for_each loop over the members of [b]. It returns
    the final content of [a] and whether an exception was thrown; the members
    handled before the exception remain merged. The nested merge works on a copy
    (compound.cpp:26-28), so a failing nested merge leaves [a] unchanged. *)
Fixpoint merge_value (va vb : json) {struct vb} : option json :=
  match va, vb with
  | JArray xs, JArray ys => Some (JArray (array_merge xs ys))
  | JObject xs, JObject ys =>
      let r := (fix go (a : compound) (b : list (str * json)) {struct b} : compound * bool :=
                  match b with
                  | [] => (a, false)
                  | (k, v) :: b' =>
                      match obj_get k a with
                      | None => go (obj_set k v a) b'
                      | Some w =>
                          match merge_value w v with
                          | Some x => go (obj_set k x a) b'
                          | None => (a, true)
                          end
                      end
                  end) xs ys in
      if snd r then None else Some (JObject (fst r))
  | _, _ => if json_type_eqb (json_type_of va) (json_type_of vb) then Some vb else None
  end.

Fixpoint merge_members (a : compound) (b : list (str * json)) {struct b} : compound * bool :=
  match b with
  | [] => (a, false)
  | (k, v) :: b' =>
      match obj_get k a with
      | None => merge_members (obj_set k v a) b'
      | Some w =>
          match merge_value w v with
          | Some x => merge_members (obj_set k x a) b'
          | None => (a, true)
          end
      end
  end.

(** [a | b], compound.hpp:249-252: [None] if an exception is thrown. *)
Definition compound_or (a b : compound) : option compound :=
  let r := merge_members a b in
  if snd r then None else Some (fst r).

(** loadConfig, core/bin/config.cpp:31-54: the files are merged one by one; a
    file that cannot be read ([None]) or merged is reported and skipped, but what
    was merged before the exception is kept. *)
Definition load_config (files : list (option compound)) : compound :=
  fold_left (fun cfg f => match f with
                          | None => cfg
                          | Some b => fst (merge_members cfg b)
                          end) files [].
