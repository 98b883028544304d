(** What pkg-config says (C124). *)

From Coq Require Import Ascii String Bool Arith ZArith.
From Coq Require Import List.
From Verif Require Import Str Path JsonModel DbModel ValueModel LoadModel LogModel RecipeModel RecipeSpec RecipeProofs PkgModel PkgSpec PkgProofs PkgProofs2.
Import ListNotations.

(** C124. The words of a text are determined. *)
Theorem C124_words : forall s, exists! ws, consists s ws.
Proof. intro s. destruct (consists_total s) as (ws & C). exists ws. split; [exact C|]. intros ws' C'. exact (consists_unique s ws ws' C C'). Qed.
Print Assumptions C124_words.

(** C124. Libraries, and directories to search: the words that pkg-config has written, in reverse. *)
Theorem C124_libs : forall run libname l, PkgModel.get_libs run libname = Some l <->
  exists out ws, says run "--libs-only-l" libname out /\ consists out ws /\ l = rev ws.
Proof. exact libs_exact. Qed.
Print Assumptions C124_libs.

Theorem C124_libdirs : forall run libname l, PkgModel.get_libdirs run libname = Some l <->
  exists out ws, says run "--libs-only-L" libname out /\ consists out ws /\ l = rev ws.
Proof. exact libdirs_exact. Qed.
Print Assumptions C124_libdirs.

(** C124. Flags: the words that pkg-config has written, if there is one blank between them. *)
Theorem C124_cflags_partial : forall run libname g ws g', gap g -> gap g' -> Forall word ws ->
  says run "--cflags" libname (g ++ spaced ws ++ g') -> PkgModel.get_cflags run libname = Some ws.
Proof. exact cflags_words. Qed.
Print Assumptions C124_cflags_partial.

(** C124. In any case, no text gets lost, apart from white space. *)
Theorem C124_cflags_text : forall run libname l, PkgModel.get_cflags run libname = Some l ->
  exists out g s g', says run "--cflags" libname out /\ out = g ++ s ++ g' /\ gap g /\ gap g' /\
    spaced l = s /\ Forall (fun w => ~ In " "%char w) l /\ (l = [] <-> s = []).
Proof. exact cflags_exact. Qed.
Print Assumptions C124_cflags_text.

(** C124. If pkg-config fails, so does the recipe. *)
Theorem C124_fails : forall run o libname, (forall out, ~ says run o libname out) ->
  (o = "--cflags"%string -> PkgModel.get_cflags run libname = None) /\
  (o = "--libs-only-l"%string -> PkgModel.get_libs run libname = None) /\
  (o = "--libs-only-L"%string -> PkgModel.get_libdirs run libname = None).
Proof.
  intros run o libname N. apply fails in N. unfold PkgModel.get_cflags, PkgModel.get_libs, PkgModel.get_libdirs.
  repeat split; intros ->; now rewrite N.
Qed.
Print Assumptions C124_fails.

Theorem C124_link_fails : forall run compiler id p info cfg cflags bi deps d format,
  Forall proper_dependency deps -> In d deps -> dep_origin d = PkgConfig ->
  Forall (fun t => is_text (path_string (ti_name t))) (targets info) ->
  obj_get (lit "cflags") cfg = Some (JArray (map JString cflags)) ->
  (forall out, ~ says run "--libs-only-l" (path_string (dep_name d)) out) \/ (forall out, ~ says run "--libs-only-L" (path_string (dep_name d)) out) ->
  linker_args (PkgModel.get_libs run) (PkgModel.get_libdirs run) compiler (command_options id p info cfg bi deps format) = None.
Proof. exact link_fails. Qed.
Print Assumptions C124_link_fails.

(** C124. The linker gets the directories and the libraries of a package next to each other, each in
    the order in which pkg-config has written them, unless one of them is needed for something that
    comes before in the list of dependencies. *)
Theorem C124_link_partial : forall run compiler id p info cfg cflags bi pre d post format target others args,
  Forall proper_dependency (pre ++ d :: post) -> dep_origin d = PkgConfig ->
  Forall (fun t => is_text (path_string (ti_name t))) (targets info) -> targets info = target :: others ->
  obj_get (lit "cflags") cfg = Some (JArray (map JString cflags)) ->
  linker_args (PkgModel.get_libs run) (PkgModel.get_libdirs run) compiler (command_options id p info cfg bi (pre ++ d :: post) format) = Some args ->
  exists out_libs ws_libs out_dirs ws_dirs,
    says run "--libs-only-l" (path_string (dep_name d)) out_libs /\ consists out_libs ws_libs /\
    says run "--libs-only-L" (path_string (dep_name d)) out_dirs /\ consists out_dirs ws_dirs /\
    (NoDup (ws_dirs ++ ws_libs) ->
     (forall w d', In w (ws_dirs ++ ws_libs) -> In d' pre -> ~ needed_for (pkg_words (PkgModel.get_libs run) (PkgModel.get_libdirs run)) d' w) ->
     exists a b, args = [compiler] ++ cflags ++ a ++ ws_dirs ++ ws_libs ++ b ++ [lit "-o"; path_string (ti_name target)]).
Proof. exact link_together. Qed.
Print Assumptions C124_link_partial.

(** * Examples *)

Definition nl : str := [ascii_of_nat 10].

(** pkg-config with some packages *)
Definition packages (l : list str) : option (Z * str) :=
  match l with
  | [_; o; name] =>
      if str_eqb name (lit "a") then
        if str_eqb o (lit "--cflags") then Some (0%Z, lit "-I/a -DA " ++ nl)
        else if str_eqb o (lit "--libs-only-l") then Some (0%Z, lit "-lx " ++ nl)
        else Some (0%Z, nl)
      else if str_eqb name (lit "b") then
        if str_eqb o (lit "--cflags") then Some (0%Z, lit "-DB  -DC" ++ nl)
        else if str_eqb o (lit "--libs-only-l") then Some (0%Z, lit " -lx  -ly" ++ nl)
        else Some (0%Z, lit "-L/b -L/c" ++ nl)
      else if str_eqb name (lit "c") then
        if str_eqb o (lit "--cflags") then Some (0%Z, lit "-I/my\ headers" ++ nl) else Some (0%Z, nl)
      else Some (1%Z, lit "-lnone" ++ nl)
  | _ => None
  end.

Example pkg_cflags : map (PkgModel.get_cflags packages) [lit "a"; lit "c"; lit "d"] = [Some [lit "-I/a"; lit "-DA"]; Some [lit "-I/my\"; lit "headers"]; None].
Proof. vm_compute. reflexivity. Qed.
Example pkg_cflags_two : PkgModel.get_cflags packages (lit "b") = Some [lit "-DB"; []; lit "-DC"].
Proof. vm_compute. reflexivity. Qed.
Example pkg_libs : map (PkgModel.get_libs packages) [lit "a"; lit "b"; lit "c"; lit "d"] = [Some [lit "-lx"]; Some [lit "-ly"; lit "-lx"]; Some []; None].
Proof. vm_compute. reflexivity. Qed.
Example pkg_libdirs : map (PkgModel.get_libdirs packages) [lit "a"; lit "b"; lit "d"] = [Some []; Some [lit "-L/c"; lit "-L/b"]; None].
Proof. vm_compute. reflexivity. Qed.
Example pkg_white : filter white (map ascii_of_nat (seq 0 128)) = map ascii_of_nat [9; 10; 11; 12; 13; 28; 29; 30; 31; 32].
Proof. vm_compute. reflexivity. Qed.
Example pkg_split : map (fun s => (split_white s [], split_blank s [], strip s)) [lit " a  bc "; lit ""; lit " "; lit "a"] =
  [([lit "a"; lit "bc"], [[]; lit "a"; []; lit "bc"; []], lit "a  bc"); ([], [[]], []); ([], [[]; []], []); ([lit "a"], [lit "a"], lit "a")].
Proof. vm_compute. reflexivity. Qed.

Definition package (name : string) : dependency := mk_dependency None (parse_path (lit name)) PkgConfig [].
Definition app_info : source_file_info :=
  mk_source_file_info [] [] [] [mk_target_info (parse_path (lit "app")) []] None no_compiler Project OnlyIfOutOfDate false.
Definition link (run : list str -> option (Z * str)) (deps : list dependency) : option (list str) :=
  linker_args (PkgModel.get_libs run) (PkgModel.get_libdirs run) (lit "g++")
    (command_options 1 (parse_path (lit "app.cpp")) app_info [(lit "cflags", JArray [JString (lit "-O3")])]
       (mk_build_info 0 (lit "id") (parse_path (lit ".")) (parse_path (lit "t")) (lit "host")) deps PlainText).

Example pkg_link : link packages [package "b"; package "c"] =
  Some [lit "g++"; lit "-O3"; lit "-fdiagnostics-color=never"; lit "-L/b"; lit "-L/c"; lit "-lx"; lit "-ly"; lit "-o"; lit "app"].
Proof. vm_compute. reflexivity. Qed.
Example pkg_link_none : link packages [package "b"; package "d"] = None.
Proof. vm_compute. reflexivity. Qed.

Example package_proper : Forall proper_dependency [package "a"; package "b"].
Proof.
  repeat (apply Forall_cons; [split; [apply ascii_text; repeat constructor|]; split; [constructor|]; split; [intros []|]; split; [intros []|constructor]|]).
  apply Forall_nil.
Qed.

(** * What is wrong *)

(** C124. Wrong: the compiler gets the words that pkg-config has written. Two blanks give an empty
    word, which the compiler takes for the name of a file. *)
Theorem C124_cflags_refuted : ~ forall run libname l out ws, PkgModel.get_cflags run libname = Some l ->
  says run "--cflags" libname out -> consists out ws -> l = ws.
Proof.
  intro H. destruct (consists_total (lit "-DB  -DC" ++ nl)) as (ws & C). specialize (H packages (lit "b") _ _ ws pkg_cflags_two eq_refl C).
  apply consists_split in C. rewrite <- C in H. vm_compute in H. discriminate H.
Qed.
Print Assumptions C124_cflags_refuted.

(** C124. Wrong: a word with a blank in it arrives as one word. pkg-config writes a backslash before
    the blank. *)
Theorem C124_escaped_refuted : ~ forall run libname ws, says run "--cflags" libname (spaced (map escaped ws)) ->
  PkgModel.get_cflags run libname = Some ws.
Proof.
  intro H. specialize (H (fun _ => Some (0%Z, lit "-I/my\ headers")) (lit "c") [lit "-I/my headers"] eq_refl). vm_compute in H. discriminate H.
Qed.
Print Assumptions C124_escaped_refuted.

(** C124. Wrong: a library always comes before those that pkg-config writes after it. If it is
    already there because of another package, it comes last. *)
Theorem C124_order_refuted : ~ forall run deps args d out ws, Forall proper_dependency deps ->
  link run deps = Some args -> In d deps -> dep_origin d = PkgConfig ->
  says run "--libs-only-l" (path_string (dep_name d)) out -> consists out ws -> NoDup ws ->
  forall x y, precedes x y ws -> precedes x y args.
Proof.
  intro H. destruct (consists_total (lit " -lx  -ly" ++ nl)) as (ws & C). assert (W := consists_split _ _ C). vm_compute in W. subst ws.
  assert (E : link packages [package "a"; package "b"] =
    Some [lit "g++"; lit "-O3"; lit "-fdiagnostics-color=never"; lit "-L/b"; lit "-L/c"; lit "-ly"; lit "-lx"; lit "-o"; lit "app"]) by (vm_compute; reflexivity).
  destruct (H packages _ _ (package "b") _ _ package_proper E (or_intror (or_introl eq_refl)) eq_refl eq_refl C) with (x := lit "-lx") (y := lit "-ly") as (l1 & l2 & l3 & Q).
  - repeat (constructor; [cbn; intuition discriminate|]). constructor.
  - exists [], [], []. reflexivity.
  - assert (I : In (lit "-ly") (skipn (S (length l1)) (l1 ++ lit "-lx" :: l2 ++ lit "-ly" :: l3))).
    { clear. induction l1 as [|x l1 IH]; [cbn; apply in_elt|exact IH]. }
    assert (J : nth_error (l1 ++ lit "-lx" :: l2 ++ lit "-ly" :: l3) (length l1) = Some (lit "-lx")) by (clear; induction l1; [reflexivity|exact IHl1]).
    rewrite <- Q in I, J. do 9 (destruct l1 as [|? l1]; [first [discriminate J | cbn in I; intuition discriminate]|]). cbn in J. now destruct (length l1).
Qed.
Print Assumptions C124_order_refuted.
