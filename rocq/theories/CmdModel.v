(** Model of core/cmd_line_parser: decoding of the command line.

    Strings are C strings, that is, they contain no NUL character. *)

From Coq Require Import Ascii String NArith Bool Arith.
From Coq Require Import List.
From Verif Require Import Str.
Import ListNotations.

(** ** Lists *)

Inductive token_state := TokNormal | TokEscape.

(** detail::next_array_token, core/cmd_line_parser/command_line.cpp:17-58: the
    token and what follows it. The token is accumulated in [acc]. *)
Fixpoint next_array_token (s : str) (st : token_state) (acc : str) : str * str :=
  match s with
  | [] => (acc, [])
  | c :: s' =>
      match st with
      | TokNormal =>
          if Ascii.eqb c "," then (acc, s')
          else if Ascii.eqb c "\" then next_array_token s' TokEscape acc
          else next_array_token s' TokNormal (acc ++ [c])
      | TokEscape => next_array_token s' TokNormal (acc ++ [c])
      end
  end.

(** fromString for vectors, core/cmd_line_parser/command_line.hpp:62-73, before
    each element is converted. [None]: out of fuel; excluded by
    C34_total. *)
Fixpoint split_list_loop (fuel : nat) (s : str) (ret : list str) : option (list str) :=
  match fuel with
  | O => None
  | S fuel' =>
      let '(buffer, rest) := next_array_token s TokNormal [] in
      match rest with
      | [] => Some (ret ++ [buffer])
      | _ => split_list_loop fuel' rest (ret ++ [buffer])
      end
  end.

Definition split_list (s : str) : option (list str) := split_list_loop (S (length s)) s [].

(** fromString for vectors, with the conversion of each element; [None] if one of
    them throws. *)
Definition list_of_string {T} (convert : str -> option T) (s : str) : option (list T) :=
  match split_list s with
  | None => None
  | Some tokens =>
      fold_left (fun acc t => match acc, convert t with Some l, Some x => Some (l ++ [x]) | _, _ => None end)
                tokens (Some [])
  end.

(** ** Options *)

(** strncmp: at most [n] characters are compared. *)
Definition strncmp (a b : str) (n : nat) : comparison := str_compare (firstn n a) (firstn n b).

Definition is_lt (c : comparison) : bool := match c with Lt => true | _ => false end.

(** detail::OptItem together with the traits of the option,
    core/cmd_line_parser/command_line.hpp:209-213 and 243-266 *)
Record opt_item (V : Type) := mk_opt_item {
  opt_name : str;
  value_required : bool;
  opt_convert : str -> option V        (* fromString; None if it throws *)
}.
Arguments mk_opt_item {V}.
Arguments opt_name {V}.
Arguments value_required {V}.
Arguments opt_convert {V}.

Section Options.
  Context {V : Type}.
  Notation item := (opt_item V).

  (** detail::sort, core/cmd_line_parser/command_line.hpp:84-99: insertion sort.
      The inner loop moves the element to the left as long as it is less than
      its neighbour; [l] is the sorted part, reversed. *)
  Fixpoint insert_left (x : item) (l : list item) : list item :=
    match l with
    | [] => [x]
    | y :: l' =>
        if is_lt (str_compare (opt_name x) (opt_name y)) then y :: insert_left x l' else x :: l
    end.

  Definition sort_options (l : list item) : list item :=
    rev (fold_left (fun sorted x => insert_left x sorted) l []).

  (** std::lower_bound, as in libstdc++: [first] is an index and [len] the number
      of remaining elements. The number of elements is sufficient as fuel. *)
  Fixpoint lower_bound_loop (fuel : nat) (l : list item) (less : item -> bool) (first len : nat) : nat :=
    match fuel with
    | O => first
    | S fuel' =>
        match len with
        | O => first
        | _ =>
            let half := Nat.div2 len in
            match nth_error l (first + half) with
            | None => first                            (* not reached *)
            | Some middle =>
                if less middle then lower_bound_loop fuel' l less (first + half + 1) (len - half - 1)
                else lower_bound_loop fuel' l less first half
            end
        end
    end.

  Definition lower_bound (l : list item) (less : item -> bool) : nat :=
    lower_bound_loop (S (length l)) l less 0 (length l).

  (** binaryFind, core/cmd_line_parser/command_line.cpp:9-14, with
      CompareOptItemsByName, command_line.hpp:215-240. *)
  Definition find_option (l : list item) (arg : str) (maxlen : nat) : option item :=
    match nth_error l (lower_bound l (fun x => is_lt (strncmp (opt_name x) arg maxlen))) with
    | None => None
    | Some x => if is_lt (strncmp arg (opt_name x) maxlen) then None else Some x
    end.

  (** std::find for '=', and what follows: the length of the name, and the value. *)
  Fixpoint split_point (arg : str) : nat * str :=
    match arg with
    | [] => (0, [])
    | c :: arg' =>
        if Ascii.eqb c "=" then (0, arg') else let '(n, v) := split_point arg' in (S n, v)
    end.

  (** OptItem::converter, command_line.hpp:251-263 *)
  Definition run_converter (x : item) (v : str) : option V :=
    match v with
    | [] => if value_required x then None else opt_convert x v
    | _ => opt_convert x v
    end.

  (** The tuple of values and the set of options that have been given. *)
  Definition settings := list (str * V).

  Fixpoint setting (s : settings) (name : str) : option V :=
    match s with
    | [] => None
    | (n, v) :: s' => if str_eqb n name then Some v else setting s' name
    end.

  (** detail::collect_options, command_line.cpp:60-85; [None] if an exception is
      thrown. *)
  Fixpoint collect_options (l : list item) (argv : list str) (s : settings) : option settings :=
    match argv with
    | [] => Some s
    | arg :: argv' =>
        match arg with
        | [] => collect_options l argv' s
        | _ =>
            let '(n, v) := split_point arg in
            match find_option l arg n with
            | None => None
            | Some x =>
                match run_converter x v with
                | None => None
                | Some value => collect_options l argv' ((opt_name x, value) :: s)
                end
            end
        end
    end.

  (** BasicCommandLine(argc, argv), command_line.hpp:428-434. *)
  Definition command_line (options : list item) (argv : list str) : option settings :=
    collect_options (sort_options options) argv [].
End Options.

(** The names of all options, core/bin/cmd_line_options.hpp:18-41 and the
    functions [name]. *)
Definition option_names : list str := map lit
  ["--help"; "--version"; "--about"; "--print-dep-graph"; "--print-dep-graph-inv"; "--dump-database";
   "--list-targets"; "--list-external-deps"; "--targets"; "--configfiles"; "--configdump"; "--config-default";
   "--source-dir"; "--target-dir"; "--build-id"; "--start-time"; "--num-workers"; "--dry-run";
   "--force-rebuild"; "--log-level"; "--log-output-format"]%string.
