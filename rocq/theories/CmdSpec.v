(** Vocabulary for the command line. *)

From Coq Require Import Ascii String Bool.
From Coq Require Import List.
From Verif Require Import Str CmdModel.
Import ListNotations.

(** [text] stands for the string [s] inside a list: any character may have a
    backslash in front, a comma or a backslash must have one. *)
Inductive quoted : str -> str -> Prop :=
| quoted_nil : quoted [] []
| quoted_plain c text s : c <> ","%char -> c <> "\"%char -> quoted text s -> quoted (c :: text) (c :: s)
| quoted_escaped c text s : quoted text s -> quoted ("\"%char :: c :: text) (c :: s).

(** [text] consists of the elements of [l], separated by commas. *)
Inductive quoted_list : str -> list str -> Prop :=
| quoted_one text s : quoted text s -> quoted_list text [s]
| quoted_cons text s texts l : quoted text s -> quoted_list texts l -> quoted_list (text ++ ","%char :: texts) (s :: l).

(** The argument [arg] gives the option [name] the value [value]. *)
Definition gives (arg name value : str) : Prop :=
  (arg = name /\ value = []) \/ arg = name ++ "="%char :: value.

Definition prefix (a b : str) : Prop := exists c, b = a ++ c.

(** Ordering of strings, character by character. *)
Inductive before : str -> str -> Prop :=
| before_end c s : before [] (c :: s)
| before_here a b x y : nat_of_ascii a < nat_of_ascii b -> before (a :: x) (b :: y)
| before_later a x y : before x y -> before (a :: x) (a :: y).

Section Options.
  Context {V : Type}.

  (** The option [x] takes [text] as [value]. *)
  Definition takes (x : opt_item V) (text : str) (value : V) : Prop :=
    (text <> [] \/ value_required x = false) /\ opt_convert x text = Some value.

  (** Option names are different from each other, not empty, and without an
      equals sign. *)
  Definition proper_options (options : list (opt_item V)) : Prop :=
    NoDup (map opt_name options) /\
    Forall (fun x => opt_name x <> [] /\ ~ In "="%char (opt_name x)) options.

  (** The argument [arg] selects [x] by its exact name, and gives it [value]. *)
  Definition selects (options : list (opt_item V)) (arg : str) (choice : opt_item V * V) : Prop :=
    In (fst choice) options /\
    exists text, gives arg (opt_name (fst choice)) text /\ takes (fst choice) text (snd choice).

  (** [value] is the last one in [choices] for the option [name]. *)
  Definition last_choice (choices : list (opt_item V * V)) (name : str) (value : V) : Prop :=
    exists earlier x later, choices = earlier ++ (x, value) :: later /\ opt_name x = name /\
      Forall (fun c => opt_name (fst c) <> name) later.

  (** The option that an argument selects is the first one, in alphabetical
      order, whose name begins with the name in the argument. *)
  Definition selected (options : list (opt_item V)) (name : str) (x : opt_item V) : Prop :=
    In x options /\ prefix name (opt_name x) /\
    forall y, In y options -> prefix name (opt_name y) -> y = x \/ before (opt_name x) (opt_name y).

  (** The argument [arg] selects the option [x], and gives it the value [text]. *)
  Definition picks (options : list (opt_item V)) (arg : str) (x : opt_item V) (text : str) : Prop :=
    arg <> [] /\ exists name, gives arg name text /\ ~ In "="%char name /\ selected options name x.
End Options.
