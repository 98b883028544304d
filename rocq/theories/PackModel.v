(** Model of the rules bootstrap and source-archive of the Makefile, and of unpacking the archive. *)

From Coq Require Import Ascii String Bool Arith.
From Coq Require Import List.
From Verif Require Import Str SetupModel.
Import ListNotations.
Local Open Scope string_scope.
Local Open Scope list_scope.

Definition place := list str.

Definition buildcache : place := [lit "__buildcache"].
Definition script_place : place := [lit "__buildcache"; lit "bootstrap.sh"].
Definition archive_place : place := [lit "__targets"; lit "maike-src.tar.gz"].

(** What tar stores: names, and the content of files. [None]: a directory *)
Definition member := (place * option str)%type.

(** Storing a name, together with everything below *)
Fixpoint members (name : place) (t : tree) : list member :=
  match t with
  | FileNode c _ _ => [(name, Some c)]
  | DirNode _ _ es =>
      (name, None) ::
      (fix go es := match es with [] => [] | (n, t') :: es' => members (name ++ [n]) t' ++ go es' end) es
  end.

(** find name -type d *)
Fixpoint directories (name : place) (t : tree) : list place :=
  match t with
  | FileNode _ _ _ => []
  | DirNode _ _ es =>
      name :: (fix go es := match es with [] => [] | (n, t') :: es' => directories (name ++ [n]) t' ++ go es' end) es
  end.

Definition stored (t : tree) (name : place) : list member :=
  match lookup t name with Some u => members name u | None => [] end.

(** --xform s:'\(.*\)':'maike-src/\1': *)
Definition renamed (m : member) : member := (lit "maike-src" :: fst m, snd m).

Section Make.
  (** ./build.py: the status, and what there is afterwards. The tree is that of the working
      directory. *)
  Variable build : tree -> nat * tree.
  (** __targets/core/bin/maike2 with the options given in the Makefile: the status and the standard
      output. It is a dry run, and changes nothing. *)
  Variable dry_run : tree -> nat * str.
  (** git ls-files: the status and the names. Names that git puts into quotes are left out. *)
  Variable ls_files : tree -> nat * list place.

  Definition write (p : place) (c : str) (t : tree) : option tree :=
    alter (fun old => match old with
                      | None => Some (FileNode c false false)
                      | Some (FileNode _ r x) => Some (FileNode c r x)
                      | Some (DirNode _ _ _) => None
                      end) p (Some t).

  (** Makefile:5-9. The shell opens the file before it runs the program, and runs nothing if it can
      not. A line that fails ends make. The permission given in line 9 is left out. *)
  Definition make_bootstrap (t : tree) : bool * tree :=
    let (st, t) := build t in
    if Nat.eqb st 0 then
      match write script_place [] t with
      | None => (false, t)
      | Some t' =>
          let (st, out) := dry_run t' in
          match write script_place out t' with
          | Some t'' => (Nat.eqb st 0, t'')
          | None => (false, t')
          end
      end
    else (false, t).

  (** tar -czf archive -T -: it goes on if a name does not exist, and fails in the end. *)
  Definition tar (t : tree) (names : list place) : bool * list member :=
    (forallb (fun n => match lookup t n with Some _ => true | None => false end) names,
     map renamed (flat_map (stored t) names)).

  Definition find_directories (t : tree) : list place :=
    match lookup t buildcache with Some u => directories buildcache u | None => [] end.

  (** Makefile:17-21. The archive is given by its members; [None] if there is none. That it is
      written to the tree is left out, since it is not among the names. The status of the pipeline
      is that of tar. The directory for the archive has to be there. *)
  Definition make_source_archive (t : tree) : bool * tree * option (list member) :=
    let (ok, t) := make_bootstrap t in
    if ok then
      match lookup t [lit "__targets"] with
      | Some (DirNode _ _ _) =>
          let (ok, ms) := tar t (find_directories t ++ snd (ls_files t)) in (ok, t, Some ms)
      | _ => (false, t, None)
      end
    else (false, t, None).
End Make.

(** tar -xf, into an empty directory: what is unpacked last stays. [Some None]: a directory *)
Fixpoint place_eqb (a b : place) : bool :=
  match a, b with
  | [], [] => true
  | x :: a', y :: b' => str_eqb x y && place_eqb a' b'
  | _, _ => false
  end.

Definition unpacked (ms : list member) (p : place) : option (option str) :=
  option_map snd (find (fun m => place_eqb (fst m) p) (rev ms)).
