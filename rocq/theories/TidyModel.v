(** Model of the rules clean and format of the Makefile. *)

From Coq Require Import Ascii String Bool.
From Coq Require Import List.
From Verif Require Import Str PkgModel.
Import ListNotations.

Definition place := list str.

(** What is in the working directory: by names on the way to it *)
Inductive node : Type :=
| Dir
| File (content : str) (mode : nat).

Definition files := place -> option node.

Fixpoint same (a b : place) : bool :=
  match a, b with
  | [], [] => true
  | x :: a', y :: b' => str_eqb x y && same a' b'
  | _, _ => false
  end.

Definition set (p : place) (o : option node) (F : files) : files := fun q => if same p q then o else F q.

Fixpoint starts (s t : str) : bool :=
  match s, t with
  | [], _ => true
  | c :: s', d :: t' => Ascii.eqb c d && starts s' t'
  | _ :: _, [] => false
  end.

(** Makefile:29-31: rm -rf __targets* *)
Definition clean (F : files) : files :=
  fun p => match p with
           | n :: _ => if starts (lit "__targets") n then None else F p
           | [] => F p
           end.

Definition tmp : place := [lit ".fmt"].

(** The file is opened by the shell: [None] if it is a directory. A new file gets the given mode. *)
Definition write (mode : nat) (p : place) (c : str) (F : files) : option files :=
  match F p with
  | Some Dir => None
  | Some (File _ m) => Some (set p (Some (File c m)) F)
  | None => Some (set p (Some (File c mode)) F)
  end.

Section Format.
  (** jq --tab --sort-keys . file, for the file at a place with a content: whether it succeeds, and
      what it writes *)
  Variable jq : place -> str -> bool * str.
  (** The mode of new files *)
  Variable mode : nat.

  (** bash -c 'jq --tab --sort-keys . "{}" > .fmt && mv .fmt "{}"', in Makefile:36, for names without
      characters that are special between quotation marks. The file is written at once. jq fails if
      there is no file, and writes nothing. *)
  Definition format_one (F : files) (p : place) : files :=
    match write mode tmp [] F with
    | None => F
    | Some F1 =>
        match F1 p with
        | Some (File c _) =>
            let (ok, out) := jq p c in
            match write mode tmp out F1 with
            | None => F1
            | Some F2 => if ok then set tmp None (set p (F2 tmp) F2) else F2
            end
        | _ => F1
        end
    end.

  (** find -name '*.json' -exec ... \;, Makefile:36. [names] is what find finds; names are taken to
      be found before the first file is changed. *)
  Definition format_json (names : list place) (F : files) : files := fold_left format_one names F.
End Format.

(** The first line of format, Makefile:35: the words that xargs gets from find, and passes to
    clang-format. For names without quotation marks and backslashes. *)
Definition formatted_sources (names : list str) : list str :=
  split_white (flat_map (fun n => n ++ [ascii_of_nat 10]) names) [].
