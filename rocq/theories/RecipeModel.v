(** Model of what recipes are told (makeBuildCommand in
    core/db/source_file_record.cpp:33-74, toJson in core/db/dependency.cpp:11-22 and
    core/build/info.hpp:81-90), and of what they make of it (recipes/cxx_linker.py,
    recipes/make_lib.py, recipes/cxx_compiler.py, recipes/generic.py). *)

From Coq Require Import Ascii String ZArith NArith Bool.
From Coq Require Import List.
From Verif Require Import Str Path SMap JsonModel DbModel ValueModel LoadModel LogModel.
Import ListNotations.

(** * The build command *)

(** utf8_check_first in jansson: the length of a sequence; 0: not valid *)
Definition utf8_length (c : ascii) : nat :=
  let u := N_of_ascii c in
  if N.ltb u 128 then 1
  else if N.ltb u 194 then 0
  else if N.ltb u 224 then 2
  else if N.ltb u 240 then 3
  else if N.ltb u 245 then 4
  else 0.

(** utf8_check_full: the value of a sequence is accumulated from its continuation
    bytes. *)
Fixpoint utf8_value (acc : N) (l : list ascii) : option N :=
  match l with
  | [] => Some acc
  | c :: l' =>
      let u := N_of_ascii c in
      if N.leb 128 u && N.ltb u 192 then utf8_value (acc * 64 + (u - 128))%N l' else None
  end.

Definition utf8_valid_value (len : nat) (v : N) : bool :=
  N.leb v 1114111 && negb (N.leb 55296 v && N.leb v 57343)
  && N.leb (match len with 2 => 128%N | 3 => 2048%N | _ => 65536%N end) v.

(** utf8_check_string. [fuel] is the length of the string. *)
Fixpoint utf8_check (fuel : nat) (s : str) : bool :=
  match fuel, s with
  | _, [] => true
  | O, _ => false
  | S fuel', c :: s' =>
      match utf8_length c with
      | 0 => false
      | 1 => utf8_check fuel' s'
      | S n as len =>
          let first := N.sub (N_of_ascii c) (match len with 2 => 192%N | 3 => 224%N | _ => 240%N end) in
          match utf8_value first (firstn n s') with
          | Some v => Nat.eqb (length (firstn n s')) n && utf8_valid_value len v && utf8_check fuel' (skipn n s')
          | None => false
          end
      end
  end.

(** json_string; [None]: NULL *)
Definition json_string (s : str) : option json :=
  if utf8_check (length s) s then Some (JString s) else None.

(** json_object_set_new, where setting to NULL fails. The result is ignored
    (compound.hpp:146-158). *)
Definition set_new (k : string) (v : option json) (o : compound) : compound :=
  match v with Some j => obj_set (lit k) j o | None => o end.

(** json_array_append_new, array.hpp:132-144 *)
Definition append_new (a : list json) (v : option json) : list json :=
  match v with Some j => a ++ [j] | None => a end.

(** toJson(Dependency const&), dependency.cpp:11-22 *)
Definition dependency_to_json (d : dependency) : json :=
  JObject
    (fold_left (fun o p => match json_string (prop_value p) with Some j => obj_set (prop_name p) j o | None => o end)
       (dep_props d)
       (set_new "origin" (json_string (origin_to_string (dep_origin d)))
          (set_new "ref" (json_string (path_string (dep_name d))) []))).

(** Build::Info, build/info.hpp:73-78. The start time is in seconds, the id is
    printed. *)
Record build_info := mk_build_info {
  start_time : Z;
  build_id : str;
  bi_source_dir : path;
  bi_target_dir : path;
  build_host : str
}.

(** toJson(Info const&), build/info.hpp:81-90 *)
Definition build_info_to_json (i : build_info) : json :=
  JObject
    (set_new "build_host" (json_string (build_host i))
    (set_new "target_dir" (json_string (path_string (bi_target_dir i)))
    (set_new "source_dir" (json_string (path_string (bi_source_dir i)))
    (set_new "build_id" (json_string (build_id i))
    (set_new "start_time" (Some (JInteger (start_time i))) []))))).

(** The compiler used by makeBuildCommand, source_file_record.cpp:40-42 *)
Definition effective_compiler (info : source_file_info) : option compiler :=
  match compiler_default info with
  | Some c => combine c (si_compiler info)
  | None => Some (si_compiler info)
  end.

(** cmd_opts, source_file_record.cpp:44-64 *)
Definition command_options (id : Z) (p : path) (info : source_file_info) (cfg : compound) (bi : build_info)
  (deps : list dependency) (format : log_format) : compound :=
  let o := set_new "log_format" (json_string (log_format_to_string format))
             (set_new "build_info" (Some (build_info_to_json bi))
             (set_new "task_id" (Some (JInteger id))
             (set_new "source_file" (json_string (path_string p))
             (set_new "compiler_cfg" (Some (JObject cfg)) [])))) in
  let o := set_new "targets"
             (Some (JArray (fold_left (fun a t => append_new a (json_string (path_string (ti_name t)))) (targets info) []))) o in
  set_new "dependencies" (Some (JArray (fold_left (fun a d => append_new a (Some (dependency_to_json d))) deps []))) o.

(** makeBuildCommand, source_file_record.cpp:33-74; [dump] is json_dump_callback.
    [None]: merging the configurations throws. *)
Definition make_build_command (dump : json -> str) (id : Z) (p : path) (info : source_file_info) (bi : build_info)
  (deps : list dependency) (format : log_format) : option command :=
  match effective_compiler info with
  | None => None
  | Some c =>
      Some (mk_command
              (path_string (if path_eqb (recipe c) empty_path then make_shell_exec_path p else recipe c))
              [lit "compile"; dump (JObject (command_options id p info (comp_config c) bi deps format))])
  end.

(** * Recipes. [None]: an exception is raised. *)

(** item[key] *)
Definition member (k : string) (o : compound) : option json := obj_get (lit k) o.

Definition is_string (j : option json) (s : string) : bool :=
  match j with Some (JString x) => str_eqb x (lit s) | _ => false end.

Section Linker.
  (** pkg_config.get_libs and pkg_config.get_libdirs, recipes/pkg_config.py:18-38 *)
  Variables get_libs get_libdirs : str -> option (list str).

  (** One iteration in collect_deps, cxx_linker.py:19-27. item['ref'] is taken to be
      a string. *)
  Definition collect_dep (item : compound) : option (list str) :=
    match member "origin" item with
    | None => None
    | Some _ as origin =>
        let rel := member "rel" item in
        let has_rel := match rel with Some _ => true | None => false end in
        if (is_string origin "generated" || is_string origin "project") && has_rel then
          if is_string rel "implementation" then
            match member "ref" item with
            | Some (JString s) => Some [s]
            | _ => None
            end
          else Some []
        else if is_string origin "pkg-config" then
          match member "ref" item with
          | Some (JString s) =>
              match get_libs s, get_libdirs s with
              | Some a, Some b => Some (a ++ b)
              | _, _ => None
              end
          | _ => None
          end
        else if is_string origin "system" && has_rel then
          if is_string rel "external" then
            match member "ref" item with
            | Some (JString s) => Some [lit "-l" ++ s]
            | _ => None
            end
          else Some []
        else Some []
    end.

  (** collect_deps, cxx_linker.py:16-28 *)
  Definition collect_deps (deps : list compound) : option (list str) :=
    option_map (@concat str) (map_all collect_dep deps).
End Linker.

(** collect_deps, make_lib.py:13-19 *)
Definition collect_lib_deps (deps : list compound) : option (list str) :=
  option_map (@concat str)
    (map_all (fun item =>
       match member "origin" item with
       | None => None
       | Some _ as origin =>
           let rel := member "rel" item in
           if (is_string origin "generated" || is_string origin "project")
              && match rel with Some _ => true | None => false end && is_string rel "implementation" then
             match member "ref" item with
             | Some (JString s) => Some [s]
             | _ => None
             end
           else Some []
       end) deps).

(** The loop of filter_deps, cxx_linker.py:33-36 *)
Fixpoint filter_loop (items bookkeeping ret : list str) : list str :=
  match items with
  | [] => ret
  | item :: items' =>
      if existsb (str_eqb item) bookkeeping then filter_loop items' bookkeeping ret
      else filter_loop items' (item :: bookkeeping) (ret ++ [item])
  end.

(** filter_deps, cxx_linker.py:30-38 and make_lib.py:21-29 *)
Definition filter_deps (dep_items : list str) : list str := rev (filter_loop dep_items [] []).

Definition strings (j : option json) : option (list str) :=
  match j with Some (JArray l) => map_all as_string l | _ => None end.

Definition objects (j : option json) : option (list compound) :=
  match j with Some (JArray l) => map_all as_object l | _ => None end.

(** '-fdiagnostics-color=...' *)
Definition color_flag (args : compound) : option str :=
  match member "log_format" args with
  | None => None
  | Some j =>
      Some (lit "-fdiagnostics-color=" ++ (if is_string (Some j) "ansi_term" then lit "always" else lit "never"))
  end.

(** The arguments of the linker, compile in cxx_linker.py:45-51. [compiler] is
    line 11. *)
Definition linker_args (get_libs get_libdirs : str -> option (list str)) (compiler : str) (build_args : compound)
  : option (list str) :=
  match member "compiler_cfg" build_args with
  | Some (JObject cfg) =>
      match strings (member "cflags" cfg), color_flag build_args, objects (member "dependencies" build_args),
            strings (member "targets" build_args) with
      | Some cflags, Some color, Some deps, Some (target :: _) =>
          match collect_deps get_libs get_libdirs deps with
          | Some items => Some ([compiler] ++ cflags ++ [color] ++ filter_deps items ++ [lit "-o"; target])
          | None => None
          end
      | _, _, _, _ => None
      end
  | _ => None
  end.

(** The arguments of the archiver, compile in make_lib.py:32-35 *)
Definition archiver_args (archiver : str) (build_args : compound) : option (list str) :=
  match strings (member "targets" build_args), objects (member "dependencies" build_args) with
  | Some (target :: _), Some deps =>
      match collect_lib_deps deps with
      | Some items => Some ([archiver; lit "rcs"; target] ++ filter_deps items)
      | None => None
      end
  | _, _ => None
  end.

(** * Exit codes *)

(** exit(n) in Python; an exception that is caught gives exit(-1). *)
Definition py_exit (r : option Z) : Z :=
  match r with Some n => (n mod 256)%Z | None => 255%Z end.

Section Run.
  (** subprocess.run(args).returncode; [None]: the program cannot be started. *)
  Variable run : list str -> option Z.

  (** compile, in cxx_linker.py and make_lib.py, given the arguments, and the main
      part with 'compile' *)
  Definition run_and_exit (args : option (list str)) : Z :=
    py_exit (match args with Some a => run a | None => None end).

  (** The main part of generic.py, lines 37-48, with 'compile'. The result of compile
      is not used. *)
  Definition generic_main (cmd_args : option (list str)) : Z :=
    match (match cmd_args with Some a => run a | None => None end) with
    | Some _ => 0%Z
    | None => 255%Z
    end.

  (** compile, cxx_compiler.py:58-104, after the arguments [args] have been put
      together; [header]: line 60; [targets]; [copy] tells whether shutil.copyfile
      succeeds; the actions as in get_actions. *)
  Definition cxx_compile (header : bool) (args : list str) (source : str) (targets : list str)
    (copy : str -> bool) (link execute sanitize : bool) : option Z :=
    if header then Some 0%Z
    else
      match run args with
      | None => None
      | Some r =>
          if forallb copy (tl targets) then
            match (if execute && Z.eqb r 0 then
                     if link then match targets with t :: _ => run [t] | [] => None end else None
                   else Some r) with
            | None => None
            | Some r =>
                if sanitize && Z.eqb r 0 then
                  run ([lit "clang-tidy"; source; lit "--"; lit "-Wno-unknown-warning-option"] ++ args)
                else Some r
            end
          else None
      end.
End Run.

(** * Flags for the compiler *)

(** list(dict.fromkeys(l)) *)
Definition unique (l : list str) : list str := filter_loop l [] [].

(** format_iquote, cxx_compiler.py:19-28; [cwd] is os.getcwd() *)
Definition format_iquote (cwd src_dir target_dir : str) (dirs : list str) : list str :=
  flat_map (fun item =>
    [if str_eqb src_dir (lit ".") then lit "-iquote" ++ item else lit "-iquote" ++ src_dir ++ lit "/" ++ item;
     lit "-iquote" ++ cwd ++ lit "/" ++ target_dir ++ lit "/" ++ item]) dirs.

(** The flags due to a dependency, cxx_compiler.py:38-42 *)
Definition dependency_flags (get_cflags : str -> option (list str)) (item : compound) : option (list str) :=
  match member "origin" item with
  | None => None
  | Some _ as origin =>
      if is_string origin "pkg-config" then
        match member "ref" item with Some (JString s) => get_cflags s | _ => None end
      else if is_string (member "rel" item) "include" then
        match member "ref" item with Some (JString s) => Some [lit "-include" ++ s] | _ => None end
      else Some []
  end.

(** collect_cflags, cxx_compiler.py:30-44. [relative_dir] is
    os.path.relpath(src_file_dir, src_dir), if src_file_dir is not empty. *)
Definition collect_cflags (get_cflags : str -> option (list str)) (cwd src_dir target_dir : str)
  (relative_dir : option str) (cflags iquote : list str) (deps : list compound) : option (list str) :=
  match map_all (dependency_flags get_cflags) deps with
  | None => None
  | Some l =>
      Some (unique (cflags
        ++ format_iquote cwd src_dir target_dir (match relative_dir with Some d => d :: iquote | None => iquote end)
        ++ concat l))
  end.

(** * Selection of a revision of the C++ standard *)

(** get_numeric_rev, cxx_compiler.py:107-109 *)
Definition numeric_rev (s : str) : option Z :=
  lookup s [(lit "c++98", 199711%Z); (lit "c++11", 201103%Z); (lit "c++14", 201402%Z); (lit "c++17", 201703%Z);
            (lit "c++20", 202002%Z); (lit "c++23", 202302%Z)].

Section Revision.
  (** get_cpp_revision_tag, cxx_compiler.py:111-125; the inner [None] is Python's
      None. *)
  Variable revision_tag : str -> option str -> option Z.

  (** select_cpp_rev, cxx_compiler.py:127-154. Comparing None with a number raises
      an exception, as does the use of max_num in line 151. *)
  Definition select_cpp_rev (compiler : str) (rev_min rev_max : option str) : option str :=
    match rev_min, rev_max with
    | Some rmin, Some rmax =>
        match numeric_rev rmin, numeric_rev rmax with
        | Some min_num, Some max_num =>
            if (max_num <? min_num)%Z then None
            else if str_eqb rmin rmax then Some rmin
            else match revision_tag compiler None with
                 | None => None
                 | Some default_rev =>
                     if (default_rev <? min_num)%Z then Some rmin
                     else if (max_num <? default_rev)%Z then Some rmax
                     else Some []
                 end
        | _, _ => None
        end
    | Some rmin, None =>
        match numeric_rev rmin, revision_tag compiler None with
        | Some min_num, Some default_rev => if (default_rev <? min_num)%Z then Some rmin else Some []
        | _, _ => None
        end
    | None, Some rmax => None
    | None, None => Some []
    end.

  (** The loop in select_compiler_and_stdrev, cxx_compiler.py:174-184. [inl]: the
      function returns in the loop. *)
  Fixpoint select_loop (compilers : list str) (rev_min rev_max : option str) (candidates : list (str * str * Z))
    : option ((str * str * Z) + list (str * str * Z)) :=
    match compilers with
    | [] => Some (inr candidates)
    | c :: compilers' =>
        match select_cpp_rev c rev_min rev_max with
        | None => None
        | Some [] => Some (inl (c, [], 0%Z))
        | Some rev =>
            match revision_tag c (Some rev) with
            | None => select_loop compilers' rev_min rev_max candidates
            | Some rev_cfg =>
                match numeric_rev rev with
                | None => None
                | Some n =>
                    if (rev_cfg <? n)%Z then select_loop compilers' rev_min rev_max (candidates ++ [(c, rev, rev_cfg)])
                    else Some (inl (c, rev, rev_cfg))
                end
            end
        end
    end.

  (** candidates.sort(key = lambda x: x[2]); candidates[0]: the first of those with
      the least key *)
  Fixpoint least (best : str * str * Z) (l : list (str * str * Z)) : str * str * Z :=
    match l with
    | [] => best
    | x :: l' => least (if (snd x <? snd best)%Z then x else best) l'
    end.

  (** select_compiler_and_stdrev, cxx_compiler.py:172-191 *)
  Definition select_compiler (compilers : list str) (rev_min rev_max : option str) : option (str * str * Z) :=
    match select_loop compilers rev_min rev_max [] with
    | None => None
    | Some (inl x) => Some x
    | Some (inr []) => None
    | Some (inr (x :: l)) => Some (least x l)
    end.
End Revision.
