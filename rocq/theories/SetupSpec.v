(** Vocabulary for building and installing. *)

From Coq Require Import Ascii String Bool ZArith.
From Coq Require Import List.
From Verif Require Import Str Path LoadSpec SetupModel.
Import ListNotations.

(** ** Building *)

(** The commands that have been run, and the status of each. [None]: it could not be started *)
Inductive history (run : list command -> command -> option Z) : list command -> list (command * option Z) -> Prop :=
| history_none : history run [] []
| history_more cs l c : history run cs l -> history run (cs ++ [c]) (l ++ [(c, run cs c)]).

(** ** Files *)

Definition under (a b : list str) : Prop := exists rest, b = a ++ rest.
Definition apart (a b : list str) : Prop := ~ under a b /\ ~ under b a.

(** A file with that content *)
Definition file_at (t : tree) (place : list str) (content : str) : Prop :=
  exists r x, lookup t place = Some (FileNode content r x).

(** No directory has two entries with the same name. *)
Inductive proper : tree -> Prop :=
| proper_file c r x : proper (FileNode c r x)
| proper_dir r x es : NoDup (map fst es) -> (forall n t, In (n, t) es -> proper t) -> proper (DirNode r x es).

(** Others may search all directories on the way to a place *)
Definition reachable (t : tree) (place : list str) : Prop :=
  forall p rest, place = p ++ rest -> rest <> [] ->
  match lookup t p with Some (DirNode _ x _) => x = true | _ => False end.

(** Others may run the program, or script, there. *)
Definition usable (t : tree) (place : list str) : Prop :=
  reachable t place /\ match lookup t place with Some (FileNode _ r x) => r = true /\ x = true | _ => False end.

(** The directories that there are on the way to a place may be searched by others. *)
Definition open_so_far (t : tree) (place : list str) : Prop :=
  forall p rest r x es, place = p ++ rest -> lookup t p = Some (DirNode r x es) -> x = true.

(** ** Names of directories *)

(** Following [names] from the directory [from] leads to [to]. *)
Inductive leads : list str -> list str -> list str -> Prop :=
| leads_here d : leads d [] d
| leads_stay d c ns to : c = [] \/ c = dot -> leads d ns to -> leads d (c :: ns) to
| leads_up d c ns to : leads d ns to -> leads (d ++ [c]) (dotdot :: ns) to
| leads_root ns to : leads [] ns to -> leads [] (dotdot :: ns) to
| leads_down d c ns to : ordinary c -> leads (d ++ [c]) ns to -> leads d (c :: ns) to.

(** The text [dir], followed by a slash, is the name of the directory [to] for a process in the
    directory [here]. The parts of a name are separated by slashes; if there is nothing in front
    of the first one, the name starts at the root. *)
Definition names_directory (here : list str) (dir : str) (to : list str) : Prop :=
  exists ns, ns <> [] /\ Forall (fun c => ~ In "/"%char c) ns /\ dir = join_slash ns /\
    leads (match ns with [] :: _ => [] | _ => here end) ns to.

Definition argument (dir : option str) : str := match dir with Some d => d | None => [] end.

(** The places in the directory [d] where the program and the recipes belong *)
Definition program_in (d : list str) : list str := d ++ [lit "bin"; lit "maike2"].
Definition recipes_in (d : list str) : list str := d ++ [lit "lib"; lit "maike2"; lit "recipes"].

(** The recipes of the project are not below a place that is written to, and the other way
    round. *)
Definition separate (here d : list str) : Prop :=
  apart (here ++ [lit "recipes"]) (program_in d) /\ apart (here ++ [lit "recipes"]) (recipes_in d).

Definition hidden (name : str) : Prop := exists rest, name = "."%char :: rest.
