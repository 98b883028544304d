(** Model of what recipes do to files: recipes/copy_file.py, sass2css.py,
    cxx_compiler.py, cxx_linker.py, make_lib.py, generic.py.

    Files are identified by their names, as they are passed to the recipes. Times
    are left out. *)

From Coq Require Import Ascii String ZArith Bool.
From Coq Require Import List.
From Verif Require Import Str RecipeModel.
Import ListNotations.

(** The contents of files; [None]: there is no such file *)
Definition files := str -> option str.

Definition set_file (name content : str) (F : files) : files :=
  fun q => if str_eqb q name then Some content else F q.

Section Make.
  (** subprocess.run(args): the files afterwards, and returncode; [None]: the program
      cannot be started, and an exception is raised. *)
  Variable run : list str -> files -> files * option Z.

  (** Whether a file can be opened for writing *)
  Variable writable : str -> bool.

  (** shutil.copyfile: raises SameFileError if both are the same file. The second
      component is false if an exception is raised. *)
  Definition copyfile (source target : str) (F : files) : files * bool :=
    if str_eqb source target then (F, false)
    else match F source with
         | None => (F, false)
         | Some content => if writable target then (set_file target content F, true) else (F, false)
         end.

  (** for target in targets: shutil.copyfile(source, target), copy_file.py:10-11 and
      cxx_compiler.py:88-89 *)
  Fixpoint copy_all (source : str) (targets : list str) (F : files) : files * bool :=
    match targets with
    | [] => (F, true)
    | t :: targets' =>
        match copyfile source t F with
        | (F', true) => copy_all source targets' F'
        | (F', false) => (F', false)
        end
    end.

  (** copy_file.py:7-16, with 'compile'. An exception that is not caught gives exit
      status 1. *)
  Definition copy_file (source : str) (targets : list str) (F : files) : files * Z :=
    match copy_all source targets F with
    | (F', true) => (F', 0%Z)
    | (F', false) => (F', 1%Z)
    end.

  (** sass.compile; [None]: raises *)
  Variable sass : str -> option str.

  (** for target in targets: ... f.write(result), sass2css.py:14-16 *)
  Fixpoint write_all (content : str) (targets : list str) (F : files) : files * bool :=
    match targets with
    | [] => (F, true)
    | t :: targets' => if writable t then write_all content targets' (set_file t content F) else (F, false)
    end.

  (** sass2css.py:7-21, with 'compile' *)
  Definition sass2css (source : str) (targets : list str) (F : files) : files * Z :=
    match targets with
    | [] => (F, 1%Z)
    | _ =>
        match F source with
        | None => (F, 1%Z)
        | Some text =>
            match sass text with
            | None => (F, 1%Z)
            | Some css => match write_all css targets F with (F', true) => (F', 0%Z) | (F', false) => (F', 1%Z) end
            end
        end
    end.

  (** The rest of compile after the copies, cxx_compiler.py:91-104. [r] is
      result.returncode. Line 93 raises an exception in any case. *)
  Definition check_result (args : list str) (source target : str) (link execute sanitize : bool) (r : Z) (F : files)
    : files * option Z :=
    let (F, r) := if execute && Z.eqb r 0 then if link then run [target] F else (F, None) else (F, Some r) in
    match r with
    | None => (F, None)
    | Some r =>
        if sanitize && Z.eqb r 0 then
          run ([lit "clang-tidy"; source; lit "--"; lit "-Wno-unknown-warning-option"] ++ args) F
        else (F, Some r)
    end.

  (** compile, cxx_compiler.py:58-104, and the main part, lines 210-219; [header]: line
      60. [args] are the arguments of the compiler, see RecipeModel.v, the last of which
      is the first target. *)
  Definition cxx_compiler (header : bool) (args : list str) (source : str) (targets : list str)
    (link execute sanitize : bool) (F : files) : files * Z :=
    if header then (F, 0%Z)
    else
      match targets with
      | [] => (F, 255%Z)
      | t :: others =>
          match run args F with
          | (F, None) => (F, 255%Z)
          | (F, Some r) =>
              match copy_all t others F with
              | (F, false) => (F, 255%Z)
              | (F, true) => let (F, r) := check_result args source t link execute sanitize r F in (F, py_exit r)
              end
          end
      end.

  (** cxx_linker.py:41-61 and make_lib.py:32-45, with 'compile'; the arguments are those
      in RecipeModel.v. *)
  Definition run_tool (args : option (list str)) (F : files) : files * Z :=
    match args with
    | None => (F, 255%Z)
    | Some a => let (F, r) := run a F in (F, py_exit r)
    end.
End Make.
