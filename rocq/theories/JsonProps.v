(** Properties C31 and C45: merging configurations. *)

From Coq Require Import List Ascii String ZArith.
From Verif Require Import Str Path JsonModel JsonSpec JsonProofs.
Import ListNotations.
Local Open Scope string_scope.

(** C31. Merging succeeds if and only if no name has values of different kinds
    on the two sides, and then gives the merged configuration. *)
Theorem C31_merge : forall a b,
    well_formed (JObject a) -> well_formed (JObject b) ->
    (exists c, compound_or a b = Some c /\ merged (JObject a) (JObject b) (JObject c) /\
               ~ clash (JObject a) (JObject b)) \/
    (compound_or a b = None /\ clash (JObject a) (JObject b)).
Proof. exact compound_or_spec. Qed.
Print Assumptions C31_merge.

(** It does not matter how the merges are grouped; neither for the result nor
    for whether there is one. *)
Theorem C31_associative : forall a b c,
    well_formed (JObject a) -> well_formed (JObject b) -> well_formed (JObject c) ->
    match compound_or a b with
    | Some x => compound_or x c
    | None => None
    end =
    match compound_or b c with
    | Some y => compound_or a y
    | None => None
    end.
Proof. exact compound_or_assoc. Qed.
Print Assumptions C31_associative.

Theorem C31_empty_neutral : forall a, well_formed (JObject a) ->
    compound_or a [] = Some a /\ compound_or [] a = Some a.
Proof. exact compound_or_empty. Qed.
Print Assumptions C31_empty_neutral.

(** Loading a sequence of files: an unreadable file changes nothing, a file that
    can be merged is merged, and no file makes an earlier setting disappear. *)
Theorem C31_files_merged_in_order : forall files f,
    (f = None -> load_config (files ++ [f]) = load_config files) /\
    (forall b c, f = Some b -> compound_or (load_config files) b = Some c ->
                 load_config (files ++ [f]) = c) /\
    (forall k, has_member (load_config files) k -> has_member (load_config (files ++ [f])) k).
Proof. exact load_config_ok. Qed.
Print Assumptions C31_files_merged_in_order.

(** A file that cannot be merged is reported as an error, but part of it is
    merged nevertheless. *)
Theorem C31_failing_file_ignored_refuted : exists a b,
    well_formed (JObject a) /\ well_formed (JObject b) /\
    compound_or a b = None /\ load_config [Some a; Some b] <> load_config [Some a].
Proof.
  exists [(lit "x", JTrue)], [(lit "y", JNull); (lit "x", JString (lit "on"))].
  repeat split.
  - constructor; [repeat constructor; simpl; tauto|].
    intros k v [H|[]]. inversion H. constructor.
  - constructor; [repeat constructor; simpl; try tauto; intros [H|[]]; discriminate|].
    intros k v [H|[H|[]]]; inversion H; constructor.
  - vm_compute. discriminate.
Qed.
Print Assumptions C31_failing_file_ignored_refuted.

(** C45. "A boolean setting can be changed by a later configuration" is false:
    the merge fails unless the two agree. *)
Theorem C45_boolean_can_be_overridden_refuted : exists k va vb,
    is_boolean va /\ is_boolean vb /\ compound_or [(k, va)] [(k, vb)] = None.
Proof.
  exists (lit "use_get_tags"), JTrue, JFalse. repeat split; try (vm_compute; reflexivity).
  - left. reflexivity.
  - right. reflexivity.
Qed.
Print Assumptions C45_boolean_can_be_overridden_refuted.

(** * Concrete instances *)

Definition base_cfg : list (str * json) :=
  [(lit "compiler", JObject [(lit "flags", JArray [JString (lit "-g")]);
                             (lit "std", JString (lit "c++14"))]);
   (lit "verbose", JTrue)].

Definition local_cfg : list (str * json) :=
  [(lit "name", JString (lit "prj"));
   (lit "compiler", JObject [(lit "std", JString (lit "c++17"));
                             (lit "flags", JArray [JString (lit "-O2")])])].

Example merge_example :
  compound_or base_cfg local_cfg =
  Some [(lit "compiler", JObject [(lit "flags", JArray [JString (lit "-g"); JString (lit "-O2")]);
                                  (lit "std", JString (lit "c++17"))]);
        (lit "verbose", JTrue);
        (lit "name", JString (lit "prj"))].
Proof. vm_compute. reflexivity. Qed.

Ltac crush_wf :=
  repeat match goal with
         | |- well_formed (JObject _) => constructor; [repeat constructor; simpl; intuition discriminate|]
         | |- well_formed (JArray _) => constructor
         | |- well_formed _ => constructor
         | |- forall k v, member _ k v -> _ => intros ? ? Hm; simpl in Hm
         | |- forall v, In v _ -> _ => intros ? Hm; simpl in Hm
         | H : member _ _ _ |- _ => unfold member in H; simpl in H
         | H : (_, _) = (_, _) |- _ => inversion H; clear H; subst
         | H : _ \/ _ |- _ => destruct H
         | H : False |- _ => destruct H
         | H : _ = ?v |- well_formed ?v => subst v
         end.

Example base_cfg_well_formed : well_formed (JObject base_cfg).
Proof. unfold base_cfg. crush_wf. Qed.

Example local_cfg_well_formed : well_formed (JObject local_cfg).
Proof. unfold local_cfg. crush_wf. Qed.

Example clash_example :
  compound_or base_cfg [(lit "compiler", JObject [(lit "std", JInteger 17)])] = None.
Proof. vm_compute. reflexivity. Qed.
