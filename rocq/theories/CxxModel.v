(** Model of the command that compiles a C++ source file: compile in
    recipes/cxx_compiler.py, with the functions of os.path that it uses.

    [None]: an exception is raised. Values in the JSON object that is passed to the
    recipe are taken to be of the right type; if they are not, the model raises an
    exception. Letters other than those of ASCII stay as they are in str.lower. *)

From Coq Require Import Ascii String ZArith NArith Bool Arith.
From Coq Require Import List.
From Verif Require Import Str Path JsonModel ValueModel RecipeModel.
Import ListNotations.

(** ** os.path *)

Definition slash : ascii := "/"%char.

(** p.rfind(c) as the text before the last [c], and the text after it; [None]: -1 *)
Fixpoint split_last (c : ascii) (s : str) : option (str * str) :=
  match s with
  | [] => None
  | x :: s' =>
      match split_last c s' with
      | Some (a, b) => Some (x :: a, b)
      | None => if Ascii.eqb x c then Some ([], s') else None
      end
  end.

(** os.path.basename(p) *)
Definition base_name (p : str) : str :=
  match split_last slash p with Some (_, b) => b | None => p end.

(** os.path.splitext(p)[1]: a dot at the beginning of a name, possibly after other dots,
    does not start an extension. *)
Definition extension (p : str) : str :=
  match split_last "."%char (base_name p) with
  | Some (a, b) => if forallb (fun c => Ascii.eqb c "."%char) a then [] else "."%char :: b
  | None => []
  end.

(** s.lower() *)
Definition lower_char (c : ascii) : ascii :=
  let n := N_of_ascii c in if ((65 <=? n) && (n <=? 90))%N then ascii_of_N (n + 32) else c.

(** head.rstrip('/') *)
Fixpoint strip_slashes (s : str) : str :=
  match s with
  | [] => []
  | c :: s' => match strip_slashes s' with
               | [] => if Ascii.eqb c slash then [] else [c]
               | r => c :: r
               end
  end.

(** os.path.dirname(p) *)
Definition dir_name (p : str) : str :=
  match split_last slash p with
  | None => []
  | Some (a, _) => let head := a ++ [slash] in match strip_slashes head with [] => head | r => r end
  end.

(** One step of the loop in os.path.normpath, for absolute paths; [comps] is in reverse *)
Definition norm_step (comps : list str) (c : str) : list str :=
  if is_nil c || str_eqb c dot then comps
  else if str_eqb c dotdot then tl comps
  else c :: comps.

Definition starts_with_slash (s : str) : bool := match s with c :: _ => Ascii.eqb c slash | [] => false end.

(** [x for x in os.path.abspath(p).split('/') if x], where os.getcwd() is [cwd] *)
Definition abs_list (cwd p : str) : list str :=
  rev (fold_left norm_step (split_slash (if starts_with_slash p then p else cwd ++ [slash] ++ p) []) []).

(** '/'.join(l) *)
Definition join_path (l : list str) : str := join_slash l.

(** os.path.relpath(p, start); [mismatch] removes the longest common prefix *)
Definition rel_path (cwd p start : str) : str :=
  let '(rest, up) := mismatch (abs_list cwd p) (abs_list cwd start) in
  match repeat dotdot (length up) ++ rest with
  | [] => dot
  | l => join_path l
  end.

(** ** cxx_compiler.py *)

(** Lines 56-61 *)
Definition is_header (source_file : str) : bool :=
  let e := extension (map lower_char source_file) in
  existsb (str_eqb e) [lit ".hpp"; lit ".h"; lit ".hxx"].

Definition object_member (k : string) (o : compound) : option compound :=
  match member k o with Some (JObject x) => Some x | _ => None end.
Definition string_member (k : string) (o : compound) : option str :=
  match member k o with Some (JString x) => Some x | _ => None end.
Definition integer_member (k : string) (o : compound) : option Z :=
  match member k o with Some (JInteger x) => Some x | _ => None end.

(** get_actions, lines 46-54 *)
Definition actions_of (cfg : compound) : option (list str) :=
  match member "actions" cfg with
  | None => Some []
  | Some j => strings (Some j)
  end.

(** Lines 66-68 *)
Definition std_flag (cfg : compound) : option (list str) :=
  match member "std_revision" cfg with
  | None => Some []
  | Some (JObject r) =>
      match member "selected" r with
      | None => Some []
      | Some (JString s) => Some [lit "-std=" ++ s]
      | Some _ => None
      end
  | Some _ => None
  end.

(** A preprocessor definition, with an integer, or with a string in quotation marks *)
Definition define_integer (name : string) (z : Z) : str := lit "-D" ++ lit name ++ lit "=" ++ decimal z ++ lit "L".
Definition quotation_mark : ascii := ascii_of_nat 34.
Definition define_string (name : string) (s : str) : str :=
  lit "-D" ++ lit name ++ lit "=" ++ [quotation_mark] ++ s ++ [quotation_mark].

Section Compile.
  (** pkg_config.py *)
  Variables get_cflags get_libs get_libdirs : str -> option (list str).
  (** os.getcwd() *)
  Variable cwd : str.
  (** datetime.datetime.fromtimestamp(t, datetime.timezone.utc).strftime('%Y-%m-%d %H:%M:%S UTC') *)
  Variable utc : Z -> option str.

  (** Lines 70-76 *)
  Definition definitions (build_args info : compound) : option (list str) :=
    match integer_member "task_id" build_args, integer_member "start_time" info, string_member "build_id" info,
          string_member "target_dir" info, string_member "source_dir" info with
    | Some id, Some t, Some b, Some td, Some sd =>
        match utc t with
        | Some text =>
            Some [define_integer "MAIKE_TASKID" id; define_integer "MAIKE_BUILDINFO_STARTTIME" t;
                  define_string "MAIKE_BUILDINFO_STARTTIME_STR" text; define_string "MAIKE_BUILDINFO_BUILDID" b;
                  define_string "MAIKE_BUILDINFO_TARGETDIR" td; define_string "MAIKE_BUILDINFO_SOURCEDIR" sd]
        | None => None
        end
    | _, _, _, _, _ => None
    end.

  (** The flags, line 65 with collect_cflags, lines 30-44 *)
  Definition compile_flags (build_args info cfg : compound) (source_file : str) : option (list str) :=
    match string_member "source_dir" info, string_member "target_dir" info, strings (member "cflags" cfg),
          strings (member "iquote" cfg), objects (member "dependencies" build_args) with
    | Some sd, Some td, Some cflags, Some iquote, Some deps =>
        let d := dir_name source_file in
        collect_cflags get_cflags cwd sd td (if is_nil d then None else Some (rel_path cwd d sd)) cflags iquote deps
    | _, _, _, _, _ => None
    end.

  (** Lines 82-83 *)
  Definition linked_objects (build_args : compound) (link : bool) : option (list str) :=
    if link then
      match objects (member "dependencies" build_args) with
      | Some deps => option_map filter_deps (collect_deps get_libs get_libdirs deps)
      | None => None
      end
    else Some [].

  (** args, lines 62-86 *)
  Definition compile_args (build_args : compound) : option (list str) :=
    match object_member "compiler_cfg" build_args, object_member "build_info" build_args, string_member "source_file" build_args,
          strings (member "targets" build_args), color_flag build_args with
    | Some cfg, Some info, Some source, Some (target :: _), Some color =>
        match string_member "backend" cfg, compile_flags build_args info cfg source, std_flag cfg, definitions build_args info,
              actions_of cfg with
        | Some backend, Some flags, Some std, Some defs, Some actions =>
            let link := existsb (str_eqb (lit "link")) actions in
            match linked_objects build_args link with
            | Some objs =>
                Some ([backend] ++ flags ++ std ++ [color] ++ defs ++ (if link then [] else [lit "-c"]) ++ [source] ++ objs
                      ++ [lit "-o"; target])
            | None => None
            end
        | _, _, _, _, _ => None
        end
    | _, _, _, _, _ => None
    end.
End Compile.
