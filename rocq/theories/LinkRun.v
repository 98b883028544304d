(** Concrete projects for the statements about linking. *)

From Coq Require Import Ascii String Bool ZArith.
From Coq Require Import List.
From Verif Require Import Str Path SMap PathProofs DbModel JsonModel DepGraphModel DepGraphSpec FileListModel FileListSpec.
From Verif Require Import ValueModel LoadModel LexModel RecipeModel CfgModel CfgSpec KindModel KindSpec FileListProofs.
From Verif Require Import SchedModel SchedSpec TaskListModel TaskListSpec TaskListProofs BuildModel BuildSpec LinkSpec.
Import ListNotations.
Local Open Scope string_scope.
Local Open Scope list_scope.

Definition named (s : string) : path := parse_path (lit s).
Definition dep (o : origin) (s : string) : dependency := mk_dependency None (named s) o [].
Definition src (u child : list string) (ts : list string) (utd : bool) : source_file_info :=
  mk_source_file_info (map (dep Project) u) [] (map (dep Generated) child) (map (fun t => mk_target_info (named t) []) ts)
    None no_compiler Project OnlyIfOutOfDate utd.

(** A test program t, which uses a, which uses b. If [mutual], then b also uses a. *)
Definition test_project (mutual : bool) : file_list :=
  [(named "a.cpp", src ["a.hpp"; "b.hpp"] [] ["a.o"] false);
   (named "a.hpp", src [] ["a.o"] [] false);
   (named "b.cpp", src (if mutual then ["a.hpp"; "b.hpp"] else ["b.hpp"]) [] ["b.o"] false);
   (named "b.hpp", src [] ["b.o"] [] false);
   (named "t.cpp", src ["a.hpp"] [] ["t"] true)].

Definition test_graph (mutual : bool) : file_list :=
  match load_project (test_project mutual) with Loaded (_, g) => g | Failed _ => [] end.

Lemma test_files mutual : map fst (test_graph mutual) =
  map named ["a.cpp"; "a.hpp"; "a.o"; "b.cpp"; "b.hpp"; "b.o"; "t"; "t.cpp"].
Proof. destruct mutual; vm_compute; reflexivity. Qed.

Lemma test_loaded mutual : loaded (test_project mutual) (test_graph mutual).
Proof.
  split; [|split].
  - split; [destruct mutual; repeat constructor|]. intros p info H. cbn [test_project In] in H.
    repeat (destruct H as [H|H]; [injection H as <- <-; destruct mutual; cbn;
      repeat split; intros; repeat match goal with H : _ \/ _ |- _ => destruct H as [H|H] | H : False |- _ => destruct H end;
      subst; cbn in *; try reflexivity; contradiction|]). destruct H.
  - unfold test_graph. destruct (load_project (test_project mutual)) as [[ts g]|e] eqn:E; [eauto|].
    destruct mutual; vm_compute in E; discriminate.
  - intros [k Hk]. unfold numbered in Hk. rewrite test_files in Hk. vm_compute in Hk.
    do 8 (destruct k as [|k]; [discriminate|]). destruct k; discriminate.
Qed.

Lemma test_names mutual : proper_names (test_project mutual) (test_graph mutual).
Proof.
  split.
  - intros p [k Hk]. unfold numbered in Hk. rewrite test_files in Hk.
    do 8 (destruct k as [|k]; [vm_compute in Hk; injection Hk as <-; vm_compute; reflexivity|]). destruct k; discriminate.
  - intros p info t H Ht. cbn [test_project In] in H.
    repeat (destruct H as [H|H]; [injection H as <- <-; cbn [targets src map In] in Ht;
      repeat (destruct Ht as [<- |Ht]; [split; [vm_compute; reflexivity|right; intro X; vm_compute in X; intuition discriminate]|]);
      destruct Ht|]). destruct H.
Qed.

Lemma uses_by_header mutual s n h o j u :
  generated (test_project mutual) (named s) (mk_target (named n) (mk_target_info (named s) [])) ->
  In (named n, j) (test_project mutual) -> In (dep Project h) (use_deps j) ->
  In (named h, u) (test_project mutual) -> In (dep Generated o) (child_targets_use_deps u) -> named o <> named s ->
  target_uses (test_project mutual) (named s) (named o).
Proof.
  intros G J H U O N. apply (uses_included _ _ _ (dep Generated o) G). exists (named h), u. split; [|split; [exact U|split; [exact O|exact N]]].
  cbn [t_source]. apply (reach_step _ _ (named h)); [|apply reach_self]. split.
  - apply (in_map fst) in U. apply In_nth_error in U. destruct U as (k & K). exists k. exact K.
  - exists (dep Project h). split; [|reflexivity]. exists j. split; [exact J|left; exact H].
Qed.

Lemma t_uses_a mutual : target_uses (test_project mutual) (named "t") (named "a.o").
Proof.
  apply (uses_by_header mutual "t" "t.cpp" "a.hpp" "a.o" (src ["a.hpp"] [] ["t"] true) (src [] ["a.o"] [] false)).
  - split; [destruct mutual; vm_compute; tauto|]. destruct mutual; vm_compute; intuition discriminate.
  - cbn; tauto.
  - left; reflexivity.
  - cbn; tauto.
  - left; reflexivity.
  - discriminate.
Qed.

Lemma a_uses_b mutual : target_uses (test_project mutual) (named "a.o") (named "b.o").
Proof.
  apply (uses_by_header mutual "a.o" "a.cpp" "b.hpp" "b.o" (src ["a.hpp"; "b.hpp"] [] ["a.o"] false) (src [] ["b.o"] [] false)).
  - split; [destruct mutual; vm_compute; tauto|]. destruct mutual; vm_compute; intuition discriminate.
  - cbn; tauto.
  - right; left; reflexivity.
  - cbn; tauto.
  - left; reflexivity.
  - discriminate.
Qed.

Lemma t_needs_b mutual : link_needs (test_project mutual) (named "t") (named "b.o").
Proof. apply (links_further _ _ (named "a.o")); [apply t_uses_a|]. apply links_used, a_uses_b. Qed.

(** The tests are built with an additional setting in the source file. *)
Definition own_tags : compound :=
  [(lit "target", JObject [(lit "name", JString (lit "t"))]);
   (lit "compiler", JObject [(lit "config", JObject [(lit "actions", JArray [JString (lit "link")])])])].

Definition test_compiler : compiler := mk_compiler (mk_path true [lit "usr"; lit "cxx.py"]) (Some System) [(lit "cflags", JArray [])] false.

Definition test_config : config :=
  mk_config (mk_tree_config [] [] [(lit ".cpp", lit "cxx")] true) [(lit "cxx", (KCxx [], test_compiler))] no_compiler.

Definition own_loaded : option source_file_info :=
  load_configured (fun _ _ => false) (fun _ => []) (mk_path false [dot; lit "t.cpp"]) (mk_path false [dot]) (mk_path false [lit "out"])
    (fun _ => Some own_tags) (fun p => Some (p, Project)) (fun _ c => Some c) (fun _ _ => None) no_compiler
    [(lit ".cpp", (KCxx [], test_compiler))] (Some (lit "int main(){}")).
