(** Properties C26, C27, C28 and C46: from source files to a project. *)

From Coq Require Import Ascii String List Arith Sorted.
From Verif Require Import Str Path SMap PathProofs DbModel GraphModel GraphSpec.
From Verif Require Import DepGraphModel DepGraphSpec DepGraphProofs DepGraphProps.
From Verif Require Import FileListModel FileListSpec FileListProofs.
Import ListNotations.

(** C26 *)
Theorem C26_targets_are_unique : forall fs,
    (exists ts, collect_targets fs = Loaded ts /\ NoDup (map fst (declared_targets fs)) /\
                sorted_map ts /\ forall e, In e ts <-> In e (declared_targets fs)) \/
    (exists name l1 t l2, collect_targets fs = Failed (DuplicateTarget name) /\
                          declared_targets fs = l1 ++ (name, t) :: l2 /\ In name (map fst l1)).
Proof. exact collect_targets_ok. Qed.
Print Assumptions C26_targets_are_unique.

(** C27 *)
Theorem C27_placeholders : forall fs, sorted_map fs ->
    let r := map_merge fs (create_placeholders fs) in
    sorted_map r /\
    (forall p info, In (p, info) fs -> In (p, info) r) /\
    (forall p info, In (p, info) r -> ~ In p (map fst fs) ->
       exists d, mentioned fs d /\ is_external (dep_origin d) = true /\ dep_name d = p /\
                 info = placeholder_info (dep_origin d) no_compiler) /\
    (forall p info, In (p, info) r -> In p (map fst fs) -> In (p, info) fs) /\
    (forall d, mentioned fs d -> is_external (dep_origin d) = true -> In (dep_name d) (map fst r)).
Proof. exact placeholders_spec. Qed.
Print Assumptions C27_placeholders.

(** C28. The record of a target in the loaded project. *)
Theorem C28_target_not_its_own_dependency : forall fs ts g name t,
    scanned fs -> load_project fs = Loaded (ts, g) ->
    generated fs name t -> ~ In name (map dep_name (ti_use_deps (t_info t))) ->
    exists i, In (name, i) g /\ target_record fs name t i /\
              ~ In name (map dep_name (use_deps i)) /\ ~ In name (map dep_name (build_deps i)).
Proof. exact target_not_self. Qed.
Print Assumptions C28_target_not_its_own_dependency.

(** C46. The four possible outcomes of loading a project, each with the
    condition under which it occurs. *)
Theorem C46_loading_a_project : forall fs, scanned fs ->
    (~ NoDup (map fst (declared_targets fs)) /\
     exists name, load_project fs = Failed (DuplicateTarget name) /\ In name (map fst (declared_targets fs))) \/
    (NoDup (map fst (declared_targets fs)) /\
     ((reaches_cycle fs /\ load_project fs = Failed CyclicDependency) \/
      (~ reaches_cycle fs /\
       (((exists d, needed fs d /\ ~ available fs (dep_name d)) /\
         load_project fs = Failed FailedToResolve) \/
        ((forall d, needed fs d -> available fs (dep_name d)) /\
         exists ts g, load_project fs = Loaded (ts, g) /\
           sorted_map ts /\ (forall e, In e ts <-> In e (declared_targets fs)) /\
           project_graph fs g))))).
Proof. exact load_project_graph. Qed.
Print Assumptions C46_loading_a_project.

(** * A concrete project *)

Local Open Scope string_scope.

Definition source_file (u child : list dependency) (ts : list target_info) (utd : bool) : source_file_info :=
  mk_source_file_info u [] child ts None no_compiler Project OnlyIfOutOfDate utd.

(** The application uses a header. The header says that whoever links the
    application needs the object file of the library and a system library. The
    target name of the library is not in normal form. *)
Definition app_project : file_list :=
  [(file "app.cpp", source_file [on Project "lib/a.hpp"] [] [mk_target_info (file "app") []] false);
   (file "lib/a.cpp", source_file [on Project "lib/a.hpp"] [] [mk_target_info (file "lib/../lib/a.o") []] false);
   (file "lib/a.hpp", source_file [on System "vector"] [on Generated "lib/a.o"; on PkgConfig "jansson"] [] false)].

Definition app_names (r : load_result (target_list * file_list)) : list (path * list path * list path) :=
  match r with
  | Loaded (_, g) => map (fun e => (fst e, map dep_name (use_deps (snd e)), map dep_name (build_deps (snd e)))) g
  | Failed _ => []
  end.

Example app_project_loads :
  app_names (load_project app_project) =
  [(file "app", [file "lib/a.o"; file "jansson"], [file "app.cpp"]);
   (file "app.cpp", [file "lib/a.hpp"], []);
   (file "jansson", [], []);
   (file "lib/a.cpp", [file "lib/a.hpp"], []);
   (file "lib/a.hpp", [file "vector"], []);
   (file "lib/a.o", [file "jansson"], [file "lib/a.cpp"]);
   (file "vector", [], [])].
Proof. vm_compute. reflexivity. Qed.

Ltac walk_entries H := repeat (destruct H as [H|H]; [inversion H; subst; clear H; simpl|]); try contradiction.

Example app_project_scanned : scanned app_project.
Proof.
  split; [repeat constructor|]. intros p info H. simpl in H.
  walk_entries H; repeat split; intros; intuition (subst; simpl in *; intuition auto).
Qed.

Example app_project_generated :
  generated app_project (file "lib/a.o") (mk_target (file "lib/a.cpp") (mk_target_info (file "lib/../lib/a.o") [])).
Proof. split; [vm_compute; tauto|]. vm_compute. intuition discriminate. Qed.

(** Two sources with the same target, spelled differently. *)
Example duplicate_target :
  load_project [(file "a.cpp", source_file [] [] [mk_target_info (file "x/../a.o") []] false);
                (file "b.cpp", source_file [] [] [mk_target_info (file "a.o") []] false)] =
  Failed (DuplicateTarget (file "a.o")).
Proof. vm_compute. reflexivity. Qed.

Example include_cycle :
  load_project [(file "a.cpp", source_file [on Project "b.hpp"] [] [mk_target_info (file "a.o") []] false);
                (file "b.hpp", source_file [on Project "c.hpp"] [] [] false);
                (file "c.hpp", source_file [on Project "b.hpp"] [] [] false)] =
  Failed CyclicDependency.
Proof. vm_compute. reflexivity. Qed.

Example missing_header :
  load_project [(file "a.cpp", source_file [on Project "b.hpp"] [] [mk_target_info (file "a.o") []] false)] =
  Failed FailedToResolve.
Proof. vm_compute. reflexivity. Qed.

(** Placeholders are made for the external names only. *)
Example placeholders_made :
  map fst (map_merge app_project (create_placeholders app_project)) =
  [file "app.cpp"; file "lib/a.cpp"; file "lib/a.hpp"; file "vector"].
Proof. vm_compute. reflexivity. Qed.
