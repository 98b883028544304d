(** Property C82: what recipes make. *)

From Coq Require Import Ascii String ZArith.
From Coq Require Import List.
From Verif Require Import Str JsonModel RecipeModel MakeModel MakeSpec MakeProofs.
Import ListNotations.

(** C82. copy_file.py and sass2css.py: all targets are made, and nothing else is
    changed. *)
Theorem C82_copied : forall writable source targets F F',
    copy_file writable source targets F = (F', 0%Z) ->
    (forall t, In t targets -> F' t = F source) /\ (forall q, ~ In q targets -> F' q = F q).
Proof. exact copied. Qed.
Print Assumptions C82_copied.

Theorem C82_converted : forall writable sass source targets F F',
    sass2css writable sass source targets F = (F', 0%Z) ->
    exists text css, F source = Some text /\ sass text = Some css /\
      (forall t, In t targets -> F' t = Some css) /\ (forall q, ~ In q targets -> F' q = F q).
Proof. exact converted. Qed.
Print Assumptions C82_converted.

(** When they succeed, and what they leave behind otherwise *)
Theorem C82_copy_succeeds : forall writable source targets F,
    snd (copy_file writable source targets F) = 0%Z <->
    (targets <> [] -> F source <> None) /\ ~ In source targets /\ forall t, In t targets -> writable t = true.
Proof. exact copy_succeeds. Qed.
Print Assumptions C82_copy_succeeds.

Theorem C82_copy_leaves : forall writable source targets F q,
    fst (copy_file writable source targets F) q = F q \/
    (In q targets /\ F source <> None /\ fst (copy_file writable source targets F) q = F source).
Proof. exact copy_leaves. Qed.
Print Assumptions C82_copy_leaves.

Theorem C82_convert_succeeds : forall writable sass source targets F,
    snd (sass2css writable sass source targets F) = 0%Z <->
    targets <> [] /\ (exists text css, F source = Some text /\ sass text = Some css) /\
    forall t, In t targets -> writable t = true.
Proof. exact convert_succeeds. Qed.
Print Assumptions C82_convert_succeeds.

(** cxx_compiler.py: if the compiler, when it succeeds, makes the file it is asked for,
    and neither the program itself nor clang-tidy overwrites a target, then all
    targets are there, with the content of the first one. Missing: header files. *)
Theorem C82_compiled_partial : forall run writable header args source t others link execute sanitize F F',
    ordinary_codes run ->
    (forall F F1, run args F = (F1, Some 0%Z) -> exists content, makes run args F t content) ->
    leaves_alone run [t] (t :: others) ->
    leaves_alone run ([lit "clang-tidy"; source; lit "--"; lit "-Wno-unknown-warning-option"] ++ args) (t :: others) ->
    cxx_compiler run writable header args source (t :: others) link execute sanitize F = (F', 0%Z) ->
    header = true \/ exists content, makes run args F t content /\ forall q, In q (t :: others) -> F' q = Some content.
Proof. exact compiled_all. Qed.
Print Assumptions C82_compiled_partial.

(** It succeeds exactly if the compiler does, the copies can be made, the program that
    is to be executed is linked and succeeds, and clang-tidy is content. *)
Theorem C82_compile_succeeds : forall run writable args source t others link execute sanitize F, ordinary_codes run ->
    (snd (cxx_compiler run writable false args source (t :: others) link execute sanitize F) = 0%Z <->
     exists F1 F2 F3, run args F = (F1, Some 0%Z) /\
       copy_file writable t others F1 = (F2, 0%Z) /\
       (if execute then link = true /\ run [t] F2 = (F3, Some 0%Z) else F3 = F2) /\
       (sanitize = true ->
        snd (run ([lit "clang-tidy"; source; lit "--"; lit "-Wno-unknown-warning-option"] ++ args) F3) = Some 0%Z)).
Proof. exact compile_succeeds_copy. Qed.
Print Assumptions C82_compile_succeeds.

(** If a header file has a target, then the recipe succeeds without making it. *)
Theorem C82_header_refuted : forall run writable args source targets link execute sanitize F,
    cxx_compiler run writable true args source targets link execute sanitize F = (F, 0%Z).
Proof. exact (fun _ _ _ _ _ _ _ _ _ => eq_refl). Qed.
Print Assumptions C82_header_refuted.

(** cxx_linker.py and make_lib.py: if the linker makes the file that is named after -o,
    and the archiver the one after "rcs", a single target gets made. Missing: more
    targets. *)
Theorem C82_linked_partial : forall run get_libs get_libdirs compiler build_args t F F', ordinary_codes run ->
    (forall pre target F F1, run (pre ++ [lit "-o"; target]) F = (F1, Some 0%Z) -> F1 target <> None) ->
    strings (member "targets" build_args) = Some [t] ->
    run_tool run (linker_args get_libs get_libdirs compiler build_args) F = (F', 0%Z) -> F' t <> None.
Proof. exact linked_one. Qed.
Print Assumptions C82_linked_partial.

Theorem C82_archived_partial : forall run archiver build_args t F F', ordinary_codes run ->
    (forall target rest F F1, run ([archiver; lit "rcs"; target] ++ rest) F = (F1, Some 0%Z) -> F1 target <> None) ->
    strings (member "targets" build_args) = Some [t] ->
    run_tool run (archiver_args archiver build_args) F = (F', 0%Z) -> F' t <> None.
Proof. exact archived_one. Qed.
Print Assumptions C82_archived_partial.

(** Both succeed exactly if the tool can be started and succeeds. *)
Theorem C82_tool_succeeds : forall run args F, ordinary_codes run ->
    (snd (run_tool run args F) = 0%Z <-> exists a, args = Some a /\ snd (run a F) = Some 0%Z).
Proof. exact tool_succeeds. Qed.
Print Assumptions C82_tool_succeeds.

(** A second target does not get made, though the recipe succeeds. *)
Theorem C82_linker_refuted : forall get_libs get_libdirs compiler build_args args t u ts F,
    linker_args get_libs get_libdirs compiler build_args = Some args ->
    strings (member "targets" build_args) = Some (t :: u :: ts) -> u <> t -> F u = None ->
    exists F', run_tool makes_last (Some args) F = (F', 0%Z) /\ F' u = None.
Proof. exact second_not_linked. Qed.
Print Assumptions C82_linker_refuted.

Theorem C82_archiver_refuted : forall archiver build_args args t u ts F,
    archiver_args archiver build_args = Some args ->
    strings (member "targets" build_args) = Some (t :: u :: ts) -> u <> t -> F u = None ->
    exists F', run_tool makes_third (Some args) F = (F', 0%Z) /\ F' u = None.
Proof. exact second_not_archived. Qed.
Print Assumptions C82_archiver_refuted.

(** * Examples *)

Local Open Scope string_scope.
Local Open Scope list_scope.

Definition some_files : files := fun q => if str_eqb q (lit "a.css") then Some (lit "b{}") else None.

Definition contents (r : files * Z) (names : list string) : list (option str) * Z :=
  (map (fun n => fst r (lit n)) names, snd r).

Example copies :
  contents (copy_file (fun _ => true) (lit "a.css") [lit "x/a.css"; lit "y/a.css"] some_files) ["x/a.css"; "y/a.css"; "a.css"] =
  ([Some (lit "b{}"); Some (lit "b{}"); Some (lit "b{}")], 0%Z) /\
  contents (copy_file (fun _ => true) (lit "a.css") [lit "x/a.css"; lit "a.css"] some_files) ["x/a.css"] = ([Some (lit "b{}")], 1%Z) /\
  contents (copy_file (fun q => str_eqb q (lit "x")) (lit "a.css") [lit "x"; lit "y"] some_files) ["x"; "y"] = ([Some (lit "b{}"); None], 1%Z).
Proof. repeat split; vm_compute; reflexivity. Qed.

Example converts :
  contents (sass2css (fun _ => true) (fun text => Some (lit "/* */ " ++ text)) (lit "a.css") [lit "x"; lit "y"] some_files) ["x"; "y"] =
  ([Some (lit "/* */ b{}"); Some (lit "/* */ b{}")], 0%Z).
Proof. vm_compute. reflexivity. Qed.

(** A compiler, a program and clang-tidy, where the program exits with [r] *)
Definition tools (r : Z) (args : list str) (F : files) : files * option Z :=
  match args with
  | c :: _ => if str_eqb c (lit "g++") then makes_last args F
              else if str_eqb c (lit "clang-tidy") then (F, Some 0%Z) else (F, Some r)
  | [] => (F, None)
  end.

Definition test_args : list str := [lit "g++"; lit "t.cpp"; lit "-o"; lit "out/t"].

Example compiles :
  contents (cxx_compiler (tools 0) (fun _ => true) false test_args (lit "t.cpp") [lit "out/t"; lit "out/u"] true true true some_files) ["out/t"; "out/u"] =
  ([Some (lit "x"); Some (lit "x")], 0%Z) /\
  contents (cxx_compiler (tools 3) (fun _ => true) false test_args (lit "t.cpp") [lit "out/t"; lit "out/u"] true true true some_files) ["out/t"; "out/u"] =
  ([Some (lit "x"); Some (lit "x")], 3%Z).
Proof. split; vm_compute; reflexivity. Qed.

Lemma tools_make : forall r F, makes (tools r) test_args F (lit "out/t") (lit "x").
Proof.
  intros r F. unfold makes. change (tools r test_args F) with (set_file (lit "out/t") (lit "x") F, Some 0%Z). cbn [fst snd].
  split; [reflexivity|]. split; [apply set_same|]. intros q H. apply set_other, H.
Qed.

Lemma tools_checks : forall r ts, leaves_alone (tools r) [lit "out/t"] ts /\
    leaves_alone (tools r) ([lit "clang-tidy"; lit "t.cpp"; lit "--"; lit "-Wno-unknown-warning-option"] ++ test_args) ts.
Proof. intros r ts. split; intros F t Ht; reflexivity. Qed.

Example tools_ordinary : ordinary_codes (tools 3).
Proof.
  intros args F r H. destruct args as [|c args]; [discriminate|]. cbn [tools] in H.
  destruct (str_eqb c (lit "g++")); [injection H as <-; split; discriminate|].
  destruct (str_eqb c (lit "clang-tidy")); injection H as <-; split; discriminate.
Qed.

Definition link_args : compound :=
  [(lit "compiler_cfg", JObject [(lit "cflags", JArray [])]); (lit "log_format", JString (lit "ansi_term"));
   (lit "dependencies", JArray [JObject [(lit "ref", JString (lit "a.o")); (lit "origin", JString (lit "generated"));
                                         (lit "rel", JString (lit "implementation"))]]);
   (lit "targets", JArray [JString (lit "p"); JString (lit "q")])].

Example two_targets :
  linker_args (fun _ => None) (fun _ => None) (lit "g++") link_args =
    Some [lit "g++"; lit "-fdiagnostics-color=always"; lit "a.o"; lit "-o"; lit "p"] /\
  strings (member "targets" link_args) = Some [lit "p"; lit "q"] /\
  archiver_args (lit "ar") link_args = Some [lit "ar"; lit "rcs"; lit "p"; lit "a.o"].
Proof. repeat split; vm_compute; reflexivity. Qed.
