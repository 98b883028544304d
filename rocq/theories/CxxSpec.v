(** Vocabulary for the command that compiles a C++ source file. *)

From Coq Require Import Ascii String ZArith NArith.
From Coq Require Import List.
From Verif Require Import Str Path JsonModel DbModel ValueModel RecipeModel RecipeSpec.
Import ListNotations.

(** ** What is compiled *)

(** Everything is text. *)
Definition proper_info (bi : build_info) : Prop :=
  is_text (build_id bi) /\ is_text (path_string (bi_source_dir bi)) /\ is_text (path_string (bi_target_dir bi)).

(** What the configuration of the compiler says *)
Record settings := mk_settings {
  backend : str;
  cflags : list str;
  iquote : list str;
  std : list str;
  actions : list str
}.

Definition configured (cfg : compound) (x : settings) : Prop :=
  obj_get (lit "backend") cfg = Some (JString (backend x)) /\
  obj_get (lit "cflags") cfg = Some (JArray (map JString (cflags x))) /\
  obj_get (lit "iquote") cfg = Some (JArray (map JString (iquote x))) /\
  match obj_get (lit "std_revision") cfg with
  | None => std x = []
  | Some j => exists r, j = JObject r /\
      match obj_get (lit "selected") r with
      | None => std x = []
      | Some v => exists s, v = JString s /\ std x = [lit "-std=" ++ s]
      end
  end /\
  match obj_get (lit "actions") cfg with
  | None => actions x = []
  | Some j => j = JArray (map JString (actions x))
  end.

(** Whether the object file is also linked *)
Definition links (x : settings) : bool := existsb (str_eqb (lit "link")) (actions x).

Definition color_of (f : log_format) : str :=
  lit "-fdiagnostics-color=" ++ match f with AnsiTerm => lit "always" | _ => lit "never" end.

(** A source file that is to be compiled *)
Record compilation := mk_compilation {
  task_id : Z;
  source : path;
  source_info : source_file_info;
  config : compound;
  build : build_info;
  deps : list dependency;
  format : log_format;
  with_settings : settings;
  first_target : target_info
}.

Definition proper_compilation (c : compilation) : Prop :=
  is_text (path_string (source c)) /\
  Forall (fun t => is_text (path_string (ti_name t))) (targets (source_info c)) /\
  (exists others, targets (source_info c) = first_target c :: others) /\
  Forall proper_dependency (deps c) /\ proper_info (build c) /\ configured (config c) (with_settings c).

(** What is passed to the recipe *)
Definition options_of (c : compilation) : compound :=
  command_options (task_id c) (source c) (source_info c) (config c) (build c) (deps c) (format c).

(** ** Words *)

(** The words [l] are to be passed to the compiler because of the dependency [d]. *)
Definition flags_for (get_cflags : str -> option (list str)) (d : dependency) (l : list str) : Prop :=
  (dep_origin d = PkgConfig /\ get_cflags (path_string (dep_name d)) = Some l) \/
  (dep_origin d <> PkgConfig /\ relation_is d "include" /\ l = [lit "-include" ++ path_string (dep_name d)]) \/
  (dep_origin d <> PkgConfig /\ ~ relation_is d "include" /\ l = []).

(** ** Directories *)

(** The names between the slashes in a text *)
Fixpoint names (s : str) : list str :=
  match s with
  | [] => [[]]
  | c :: s' =>
      if Ascii.eqb c "/" then [] :: names s'
      else match names s' with
           | n :: l => (c :: n) :: l
           | [] => [[c]]
           end
  end.

(** Going from one directory to another one, where [here] are the names of the
    directories below the root directory that one is in. There are no links. *)
Fixpoint walk (here : list str) (l : list str) : list str :=
  match l with
  | [] => here
  | n :: l' =>
      walk (if str_eqb n (lit "") then here
            else if str_eqb n (lit ".") then here
            else if str_eqb n (lit "..") then removelast here
            else here ++ [n]) l'
  end.

Definition is_absolute (s : str) : bool := match s with c :: _ => Ascii.eqb c "/" | [] => false end.

(** The directory that [s] denotes when [cwd] is the working directory *)
Definition place (cwd s : str) : list str :=
  walk (if is_absolute s then [] else walk [] (names cwd)) (names s).

(** The compiler is told to look for files included with quotation marks in [dir]. *)
Definition searched (args : list str) (cwd : str) (dir : list str) : Prop :=
  exists q, In (lit "-iquote" ++ q) args /\ place cwd q = dir.

(** ** Names of source files *)

Definition upper_or_lower (c d : ascii) : Prop :=
  c = d \/ (65 <= N_of_ascii c <= 90 /\ N_of_ascii d = N_of_ascii c + 32)%N.

(** A file name that ends in one of the usual extensions of header files. *)
Definition header_name (s : str) : Prop :=
  exists dir stem ext e, s = dir ++ stem ++ ext /\ (dir = [] \/ exists d, dir = d ++ lit "/") /\ ~ In "/"%char stem /\
    (exists c, In c stem /\ c <> "."%char) /\ In e [lit ".hpp"; lit ".h"; lit ".hxx"] /\ Forall2 upper_or_lower ext e.

(** ** String literals *)

(** The rest of a string literal after the first quotation mark, with the escape
    sequences of one letter; [None]: it is not one literal. *)
Fixpoint literal_rest (s : str) : option str :=
  match s with
  | [] => None
  | c :: s' =>
      match N_of_ascii c with
      | 34%N => match s' with [] => Some [] | _ => None end
      | 10%N => None
      | 92%N =>
          match s' with
          | e :: s'' =>
              match match N_of_ascii e with
                    | 34%N => Some 34%N | 92%N => Some 92%N | 39%N => Some 39%N | 110%N => Some 10%N | 116%N => Some 9%N
                    | 97%N => Some 7%N | 98%N => Some 8%N | 102%N => Some 12%N | 114%N => Some 13%N | 118%N => Some 11%N
                    | _ => None
                    end with
              | Some v => option_map (cons (ascii_of_N v)) (literal_rest s'')
              | None => None
              end
          | [] => None
          end
      | _ => option_map (cons c) (literal_rest s')
      end
  end.

(** The value of a string literal *)
Definition literal_value (s : str) : option str :=
  match s with
  | c :: s' => match N_of_ascii c with 34%N => literal_rest s' | _ => None end
  | [] => None
  end.

(** No quotation marks, backslashes or ends of lines *)
Definition plain_text (s : str) : Prop :=
  Forall (fun c => N_of_ascii c <> 34%N /\ N_of_ascii c <> 92%N /\ N_of_ascii c <> 10%N) s.

(** The preprocessor is told to replace [name] by [text]. *)
Definition defined_as (args : list str) (name : string) (text : str) : Prop :=
  In (lit "-D" ++ lit name ++ lit "=" ++ text) args.

(** The texts that describe the build, and what they are defined as; [utc] prints a time. *)
Definition build_string (utc : Z -> option str) (c : compilation) (name : string) (s : str) : Prop :=
  (name = "MAIKE_BUILDINFO_STARTTIME_STR"%string /\ utc (start_time (build c)) = Some s) \/
  (name = "MAIKE_BUILDINFO_BUILDID"%string /\ s = build_id (build c)) \/
  (name = "MAIKE_BUILDINFO_TARGETDIR"%string /\ s = path_string (bi_target_dir (build c))) \/
  (name = "MAIKE_BUILDINFO_SOURCEDIR"%string /\ s = path_string (bi_source_dir (build c))).
