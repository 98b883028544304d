(** Vocabulary for statements about scanning directories. *)

From Coq Require Import List Arith Bool.
From Verif Require Import Str Path LoadSpec ScanModel.
Import ListNotations.

Section Scan.
Variable Info : Type.
Variable is_directory : path -> option bool.
Variable directory_entries : path -> list str * bool.
Variable loads : path -> option Info.
Variables filter_name filter_path : str -> bool.
Variable recursive : bool.
Variable root : path.

(** Names in a directory are ordinary, and there are no two entries with the same name. *)
Definition proper_entries : Prop :=
  forall dir, Forall ordinary (fst (directory_entries dir)) /\ NoDup (fst (directory_entries dir)).

(** The user does not want [p] to be part of the project. *)
Definition ignored (p : path) : Prop :=
  p <> root /\
  (filter_name (filename p) = true \/ filter_path (path_string (lexically_relative p root)) = true \/
   (recursive = false /\ is_directory p = Some true)).

(** It has to be known what [p] is, but it is not possible to find out. *)
Definition unreadable (p : path) : Prop := p <> root /\ recursive = false /\ is_directory p = None.

(** [p] is the name of a file or directory that belongs to the project. An entry of a
    directory is found only if the directory belongs to the project, and could be
    loaded. *)
Inductive found : path -> Prop :=
| found_root : found root
| found_entry : forall p i name, found p -> ~ ignored p -> ~ unreadable p -> loads p = Some i ->
    is_directory (lexically_normal p) = Some true -> In name (fst (directory_entries (lexically_normal p))) ->
    found (append (lexically_normal p) (mk_path false [name])).

Definition belongs (p : path) : Prop := found p /\ ~ ignored p /\ ~ unreadable p.

(** There is something wrong with [p]. *)
Definition faulty (p : path) : Prop :=
  (found p /\ unreadable p) \/
  (belongs p /\
   (loads p = None \/ is_directory (lexically_normal p) = None \/
    (is_directory (lexically_normal p) = Some true /\ snd (directory_entries (lexically_normal p)) = true))).

(** [size] witnesses that the tree is finite: the size of a directory exceeds the sum of
    the sizes of the entries (and by some margin, for what needs to be done with the
    directory itself). *)
Definition sum (l : list nat) : nat := fold_right plus 0 l.

Definition finite_tree (size : path -> nat) : Prop :=
  forall p, 8 + sum (map (fun name => S (size (append (lexically_normal p) (mk_path false [name]))))
                         (fst (directory_entries (lexically_normal p)))) <= size p.
End Scan.

(** The number of steps made by workers *)
Fixpoint task_steps (cs : list scan_choice) : nat :=
  match cs with
  | [] => 0
  | TaskStep _ :: cs' => S (task_steps cs')
  | _ :: cs' => task_steps cs'
  end.

