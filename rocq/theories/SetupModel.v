(** Model of the scripts that build and install the program: build.py and install.sh, and of the
    place where an installed program looks for recipes. *)

From Coq Require Import Ascii String Bool ZArith.
From Coq Require Import List.
From Verif Require Import Str Path DbModel LoadModel.
Import ListNotations.

(** * Building *)

Definition command := list str.

Section Build.
  (** subprocess.run: the return code, which may depend on the commands that have been run
      before, and is negative after a signal. [None]: the program can not be started. *)
  Variable run : list command -> command -> option Z.

  (** The arguments with which recipes are called, build.py:27 *)
  Definition recipe_call (argv : list str) : bool :=
    match argv with
    | [] => false
    | a :: _ => str_eqb a (lit "get_tags") || str_eqb a (lit "configure") || str_eqb a (lit "compile")
    end.

  Definition with_maike2 : command := [lit "maike2"; lit "--target-dir=__targets_bootstrap"].
  Definition with_script : command := [lit "sh"; lit "-x"; lit "__buildcache/bootstrap.sh"].
  Definition with_new_maike2 : command := [lit "__targets_bootstrap/core/bin/maike2"; lit "--target-dir=__targets"].

  (** do_initial_build, build.py:9-17. [None]: an exception *)
  Definition do_initial_build : list command * option Z :=
    match run [] with_maike2 with
    | Some r => ([with_maike2], Some r)
    | None => ([with_maike2; with_script], run [with_maike2] with_script)
    end.

  (** build.py:19-34: the commands, and the exit status. [argv] is without the name of the
      script. After an exception, the status is 1; exit gives the lower eight bits. *)
  Definition build (argv : list str) : list command * Z :=
    if recipe_call argv then ([], 0%Z)
    else
      match do_initial_build with
      | (cs, None) => (cs, 1%Z)
      | (cs, Some r) =>
          if (r =? 0)%Z then
            (cs ++ [with_new_maike2],
             match run cs with_new_maike2 with
             | None => 1%Z
             | Some r' => (r' mod 256)%Z
             end)
          else (cs, (r mod 256)%Z)
      end.
End Build.

(** The exit status of a shell script with commands that end with [statuses], without set -e,
    as written by the program in a dry run *)
Definition script_status (statuses : list Z) : Z := last statuses 0%Z.

(** * Files *)

(** Regular files and directories, and whether others may read and execute (or search) them.
    There are no links. *)
Inductive tree :=
| FileNode (content : str) (r x : bool)
| DirNode (r x : bool) (entries : list (str * tree)).

Fixpoint get (name : str) (l : list (str * tree)) : option tree :=
  match l with
  | [] => None
  | (n, t) :: l' => if str_eqb n name then Some t else get name l'
  end.

Fixpoint set (name : str) (t : tree) (l : list (str * tree)) : list (str * tree) :=
  match l with
  | [] => [(name, t)]
  | (n, t') :: l' => if str_eqb n name then (n, t) :: l' else (n, t') :: set name t l'
  end.

(** What is at a place, given by the names on the way from the root *)
Fixpoint lookup (t : tree) (place : list str) : option tree :=
  match place with
  | [] => Some t
  | c :: place' =>
      match t with
      | FileNode _ _ _ => None
      | DirNode _ _ es => match get c es with Some t' => lookup t' place' | None => None end
      end
  end.

(** Changes what is at a place. [None]: an error *)
Fixpoint alter (f : option tree -> option tree) (place : list str) (t : option tree) : option tree :=
  match place with
  | [] => f t
  | c :: place' =>
      match t with
      | Some (DirNode r x es) => option_map (fun t' => DirNode r x (set c t' es)) (alter f place' (get c es))
      | _ => None
      end
  end.

Section Install.
  (** What the umask leaves to others *)
  Variables mask_r mask_x : bool.

  (** mkdir -p *)
  Fixpoint mkdir_p (place : list str) (t : option tree) : option tree :=
    match place with
    | [] =>
        match t with
        | None => Some (DirNode mask_r mask_x [])
        | Some (DirNode r x es) => Some (DirNode r x es)
        | Some (FileNode _ _ _) => None
        end
    | c :: place' =>
        match t with
        | None => option_map (fun t' => DirNode mask_r mask_x [(c, t')]) (mkdir_p place' None)
        | Some (DirNode r x es) => option_map (fun t' => DirNode r x (set c t' es)) (mkdir_p place' (get c es))
        | Some (FileNode _ _ _) => None
        end
    end.

  (** cp -r of [s] to a place where there is [d]. Files that exist keep their permissions. *)
  Fixpoint copy (s : tree) (d : option tree) {struct s} : option tree :=
    match s with
    | FileNode c r x =>
        match d with
        | None => Some (FileNode c (r && mask_r) (x && mask_x))
        | Some (FileNode _ r' x') => Some (FileNode c r' x')
        | Some (DirNode _ _ _) => None
        end
    | DirNode r x es =>
        let copy_entries := fix copy_entries (es : list (str * tree)) (acc : list (str * tree)) : option (list (str * tree)) :=
          match es with
          | [] => Some acc
          | (n, s') :: es' =>
              match copy s' (get n acc) with
              | Some t' => copy_entries es' (set n t' acc)
              | None => None
              end
          end in
        match d with
        | None => option_map (DirNode (r && mask_r) (x && mask_x)) (copy_entries es [])
        | Some (DirNode r' x' es') => option_map (DirNode r' x') (copy_entries es es')
        | Some (FileNode _ _ _) => None
        end
    end.

  (** chmod o+rx *)
  Definition chmod (t : option tree) : option tree :=
    match t with
    | Some (FileNode c _ _) => Some (FileNode c true true)
    | Some (DirNode _ _ es) => Some (DirNode true true es)
    | None => None
    end.

  (** The names that match *, bash *)
  Definition visible (name : str) : bool :=
    match name with
    | "."%char :: _ => false
    | _ => true
    end.

  Definition matches (t : tree) (dir : list str) : list str :=
    match lookup t dir with
    | Some (DirNode _ _ es) => filter visible (map fst es)
    | _ => []
    end.

  Fixpoint is_prefix (a b : list str) : bool :=
    match a, b with
    | [], _ => true
    | x :: a', y :: b' => str_eqb x y && is_prefix a' b'
    | _, [] => false
    end.

  (** One of the copies made by cp -r recipes/* dest: a directory can not be copied into itself,
      and a file not to itself *)
  Definition copy_one (src dest : list str) (t : tree) (name : str) : option tree :=
    if is_prefix (src ++ [name]) (dest ++ [name]) then None
    else
      match lookup t (src ++ [name]) with
      | Some s => alter (copy s) (dest ++ [name]) (Some t)
      | None => None
      end.

  Fixpoint each {A} (f : tree -> A -> option tree) (l : list A) (t : tree) : option tree :=
    match l with
    | [] => Some t
    | a :: l' => match f t a with Some t' => each f l' t' | None => None end
    end.

  (** The place that a name refers to, if the working directory is [here]. A step upwards
      undoes the step before, also if that directory does not exist. *)
  Definition place_of (here : list str) (name : str) : list str :=
    filter (fun c => negb (is_nil c)) (comps (lexically_normal (append (mk_path true here) (parse_path name)))).

  Definition and_then {A B} (a : option A) (f : A -> option B) : option B :=
    match a with Some x => f x | None => None end.

  (** Reasons for which a command may fail that are not modelled, as missing permissions:
      the number of the command *)
  Variable fails : nat -> bool.
  Definition step (n : nat) (r : option tree) : option tree := if fails n then None else r.

  (** install.sh:1-13, with set -e. [None]: a command has failed, and the status is not 0; what
      has been done until then is left out. [dir] is the first argument, if there is one. A
      name that begins with a hyphen is taken for an option by mkdir, which fails. If nothing
      matches recipes/*, there is no file with that name. *)
  Definition install (here : list str) (dir : option str) (t : tree) : option tree :=
    let dir := match dir with Some d => d | None => [] end in
    let program := here ++ [lit "__targets"; lit "core"; lit "bin"; lit "maike2"] in
    let bin := place_of here (dir ++ lit "/bin") in
    let dest := place_of here (dir ++ lit "/lib/maike2/recipes") in
    let recipes := here ++ [lit "recipes"] in
    if match dir with "-"%char :: _ => true | _ => false end then None
    else
      and_then (step 1 (mkdir_p bin (Some t))) (fun t =>
      and_then (step 2 (mkdir_p dest (Some t))) (fun t =>
      and_then (step 3 (match lookup t program with
                        | Some (FileNode c r x) =>
                            if is_prefix program (bin ++ [lit "maike2"]) then None
                            else alter (copy (FileNode c r x)) (bin ++ [lit "maike2"]) (Some t)
                        | _ => None
                        end)) (fun t =>
      and_then (step 4 (alter chmod (bin ++ [lit "maike2"]) (Some t))) (fun t =>
      and_then (step 5 (match matches t recipes with
                        | [] => None
                        | names => each (copy_one recipes dest) names t
                        end)) (fun t =>
      step 6 (each (fun t name => alter chmod (dest ++ [name]) (Some t)) (matches t dest) t)))))).
End Install.

(** * Looking for recipes *)

(** getExecPrefix, core/utils/fs.cpp:21-24, if the program is at [exe], without links *)
Definition exec_prefix (exe : path) : path := parent_path (parent_path exe).

(** maike.cpp:330-332 *)
Definition system_recipes (exe : path) : path :=
  append (append (append (exec_prefix exe) (mk_path false [lit "lib"])) (mk_path false [lit "maike2"])) (mk_path false [lit "recipes"]).

(** is_regular_file, for a process with the working directory [here] *)
Definition regular_file (t : tree) (here : list str) (p : path) : bool :=
  match lookup t (filter (fun c => negb (is_nil c)) (comps (lexically_normal (append (mk_path true here) p)))) with
  | Some (FileNode _ _ _) => true
  | _ => false
  end.

(** The file for a recipe, as found by the program at [exe] *)
Definition find_recipe (t : tree) (exe : list str) (here : list str) (project_dir name : path) : option (path * origin) :=
  find_command (regular_file t here) project_dir (system_recipes (mk_path true exe)) name.
