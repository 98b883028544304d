(** Model of recipes/pkg_config.py. Text consists of ASCII characters. *)

From Coq Require Import Ascii String Bool Arith ZArith.
From Coq Require Import List.
From Verif Require Import Str.
Import ListNotations.
Local Open Scope list_scope.

(** str.isspace, for one character *)
Definition white (c : ascii) : bool :=
  let n := nat_of_ascii c in (Nat.leb 9 n && Nat.leb n 13) || (Nat.leb 28 n && Nat.leb n 32).

Definition blank : ascii := ascii_of_nat 32.

(** The part of a word that has been read, in reverse; nothing if it is empty *)
Definition finished (cur : str) : list str := match cur with [] => [] | _ => [rev cur] end.

(** s.split() *)
Fixpoint split_white (s cur : str) : list str :=
  match s with
  | [] => finished cur
  | c :: s' => if white c then finished cur ++ split_white s' [] else split_white s' (c :: cur)
  end.

(** s.split(' ') *)
Fixpoint split_blank (s cur : str) : list str :=
  match s with
  | [] => [rev cur]
  | c :: s' => if Ascii.eqb c blank then rev cur :: split_blank s' [] else split_blank s' (c :: cur)
  end.

Fixpoint strip_left (s : str) : str :=
  match s with
  | [] => []
  | c :: s' => if white c then strip_left s' else s
  end.

(** s.strip() *)
Definition strip (s : str) : str := rev (strip_left (rev (strip_left s))).

Section Run.
  (** subprocess.run with stdout=subprocess.PIPE and text=True: the status and the standard output.
      [None]: it raises, for instance since there is no such program. *)
  Variable run : list str -> option (Z * str).

  (** The first lines of the functions; [None]: an exception *)
  Definition asked (option libname : str) : Datatypes.option str :=
    match run [lit "pkg-config"; option; libname] with
    | None => None
    | Some (status, out) => if Z.eqb status 0 then Some (strip out) else None
    end.

  (** get_cflags, pkg_config.py:9-16 *)
  Definition get_cflags (libname : str) : option (list str) :=
    match asked (lit "--cflags") libname with
    | None => None
    | Some [] => Some []
    | Some ret_str => Some (split_blank ret_str [])
    end.

  (** get_libs, pkg_config.py:18-27 *)
  Definition get_libs (libname : str) : option (list str) :=
    match asked (lit "--libs-only-l") libname with
    | None => None
    | Some [] => Some []
    | Some ret_str => Some (rev (split_white ret_str []))
    end.

  (** get_libdirs, pkg_config.py:29-38 *)
  Definition get_libdirs (libname : str) : option (list str) :=
    match asked (lit "--libs-only-L") libname with
    | None => None
    | Some [] => Some []
    | Some ret_str => Some (rev (split_white ret_str []))
    end.
End Run.
