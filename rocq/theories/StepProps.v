(** C44 for references with steps upwards, and C95: targets are inside the target
    directory. *)

From Coq Require Import Ascii String.
From Coq Require Import List.
From Verif Require Import Str Path JsonModel DbModel LoadModel LoadSpec StepSpec StepProofs.
Import ListNotations.

(** C44. [s] is the source directory, [t] the target directory, and the file [f] is
    in the directory [d] inside [s]. References that start with a dot, and names of
    targets, are relative to the directory of the file. *)
Theorem C44_steps_local : forall s t d f, directory_ok s -> directory_ok t -> Forall ordinary d ->
    let src := append (inside s d) (mk_path false [f]) in
    forall x r, reference x -> follow d x r ->
    prepend_search_path src s t (mk_path false (dot :: x)) Project = inside s r /\
    make_target_name src s t (mk_path false x) = inside t r /\
    prepend_search_path src s t (mk_path false (dot :: x)) Generated = inside t r.
Proof. exact local_steps. Qed.
Print Assumptions C44_steps_local.

(** Other references are relative to the source directory, even if they start with
    two dots. *)
Theorem C44_steps_global : forall s t d f, directory_ok s -> directory_ok t ->
    let src := append (inside s d) (mk_path false [f]) in
    forall x r, reference x -> hd [] x <> dot -> follow [] x r ->
    prepend_search_path src s t (mk_path false x) Project = inside s r /\
    prepend_search_path src s t (mk_path false x) Generated = inside t r.
Proof. exact global_steps. Qed.
Print Assumptions C44_steps_global.

(** C95. Missing: names that lead out of the source directory. *)
Theorem C95_inside_partial :
  forall s t d f parse resolve configure script_tags builtin l content info tags,
    directory_ok s -> directory_ok t -> Forall ordinary d ->
    let src := append (inside s d) (mk_path false [f]) in
    load_source_file src s t parse resolve configure script_tags builtin l content = Some info ->
    parse (snd (filter_input l content)) = Some tags ->
    (forall n, declares tags n \/ (exists c st, script_tags c src = Some st /\ declares st n) ->
       exists x r, parse_path n = mk_path false x /\ reference x /\ follow d x r) ->
    forall ti, In ti (targets info) ->
      exists r, r <> [] /\ Forall ordinary r /\ ti_name ti = inside t r.
Proof. exact targets_inside. Qed.
Print Assumptions C95_inside_partial.

(** A file may declare itself as its target. *)
Theorem C95_outside_refuted : exists s t d f resolve configure script_tags n info ti,
    directory_ok s /\ directory_ok t /\ Forall ordinary d /\
    let src := append (inside s d) (mk_path false [f]) in
    load_source_file src s t (fun _ => Some (named n)) resolve configure script_tags [] plain_loader [] = Some info /\
    In ti (targets info) /\ ti_name ti = lexically_normal src.
Proof. exact outside_case. Qed.
Print Assumptions C95_outside_refuted.

(** All targets with absolute names are the same. *)
Theorem C95_absolute_refuted : exists s t d f n1 n2,
    directory_ok s /\ directory_ok t /\ Forall ordinary d /\ parse_path n1 <> parse_path n2 /\
    let src := append (inside s d) (mk_path false [f]) in
    make_target_name src s t (parse_path n1) = make_target_name src s t (parse_path n2).
Proof. exact absolute_case. Qed.
Print Assumptions C95_absolute_refuted.

(** * Examples *)

Local Open Scope string_scope.
Local Open Scope list_scope.

Ltac is_ordinary := repeat split; try discriminate; cbn; let H := fresh in intro H; repeat (destruct H as [H|H]; [discriminate H|]); exact H.

Definition upwards : list str := [dotdot; dot; lit "db"; lit "task.hpp"].

Example upwards_reference : reference upwards.
Proof.
  split.
  - constructor; [right; now right|]. constructor; [right; now left|].
    constructor; [left; is_ordinary|]. constructor; [left; is_ordinary|constructor].
  - exists [dotdot; dot; lit "db"], (lit "task.hpp"). split; [reflexivity|is_ordinary].
Qed.

Example upwards_follow : follow [lit "core"; lit "bin"] upwards [lit "core"; lit "db"; lit "task.hpp"].
Proof.
  apply (follow_up [lit "core"]). apply follow_stay. apply follow_down; [is_ordinary|].
  apply follow_down; [is_ordinary|]. apply follow_end.
Qed.

Example upwards_path :
  prepend_search_path (parse_path (lit "./core/bin/maike.cpp")) (parse_path (lit ".")) (parse_path (lit "__targets"))
    (parse_path (lit "./.././db/task.hpp")) Project = parse_path (lit "core/db/task.hpp").
Proof. reflexivity. Qed.

Example upwards_target : forall info,
  load_source_file (append (inside (mk_path false [dot]) [lit "core"]) (mk_path false [lit "a.cpp"]))
    (mk_path false [dot]) (mk_path false [lit "__targets"])
    (fun _ => Some (named (lit "../a.o"))) (fun p => Some (p, Project)) (fun _ c => Some c) (fun _ _ => None) [] plain_loader [] = Some info ->
  map ti_name (targets info) = [inside (mk_path false [lit "__targets"]) [lit "a.o"]].
Proof. intros info H. vm_compute in H. injection H as <-. reflexivity. Qed.
